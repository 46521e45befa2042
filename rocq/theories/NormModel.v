(* Model of Normalize (xsd/parse.go:92-128, 205-264, 291-501, 581-606; xsd/search.go, index.go) on
   memory. The passes keep pointers to elements and then change the Children slices that hold
   them, so an element is a cell of an array, a pointer is (array, index), and Children and
   StartElement.Attr are slices (array, length), which all start at index 0 here; the capacity
   is the length of the array. Cells are copied by value, which shares both arrays.
   Scopes and contents are values; for the sharing of scopes see ScopeHeap.v.
   Searches recurse with fuel; None or Runs means that it did not suffice. *)
From Verif Require Import Base ScopeModel TreeModel GraphModel Decimal BuiltinModel XsdModel.
Local Open Scope string_scope.

Record node := mkNode { n_name : xname; n_at : nat; n_alen : nat; n_scope : scope; n_content : string; n_arr : nat; n_len : nat }.
Inductive arr := Els (l : list node) | Ats (l : list xattr).
Definition heap := list arr.
Definition ptr := (nat * nat)%type.
Definition zero_node := mkNode (mkName "" "") 0 0 [] "" 0 0.
Definition zero_attr := mkAttr (mkName "" "") "".

Definition cells (h : heap) (a : nat) : list node := match nth_error h a with Some (Els l) => l | _ => [] end.
Definition ats (h : heap) (a : nat) : list xattr := match nth_error h a with Some (Ats l) => l | _ => [] end.
Definition load (h : heap) (p : ptr) : option node := nth_error (cells h (fst p)) (snd p).
Definition put (h : heap) (p : ptr) (x : node) : heap := set_nth (fst p) (Els (set_nth (snd p) x (cells h (fst p)))) h.
Definition kids (h : heap) (x : node) : list node := firstn (n_len x) (cells h (n_arr x)).
Definition n_attrs (h : heap) (x : node) : list xattr := firstn (n_alen x) (ats h (n_at x)).
(* a new array holding l, of capacity c (or as long as l) *)
Definition alloc (h : heap) (l : list node) (c : nat) : heap * nat :=
  ((h ++ [Els (l ++ repeat zero_node (c - List.length l))])%list, List.length h).
Definition alloc_ats (h : heap) (l : list xattr) (c : nat) : heap * nat :=
  ((h ++ [Ats (l ++ repeat zero_attr (c - List.length l))])%list, List.length h).

(* accessors as on elements *)
Definition nattr (h : heap) (x : node) (local : string) : string := attr_get (n_attrs h x) "" local.
Definition with_ats (x : node) (a len : nat) : node := mkNode (n_name x) a len (n_scope x) (n_content x) (n_arr x) (n_len x).
Definition with_kids (x : node) (a len : nat) : node := mkNode (n_name x) (n_at x) (n_alen x) (n_scope x) (n_content x) a len.
Definition no_content (x : node) : node := mkNode (n_name x) (n_at x) (n_alen x) (n_scope x) "" (n_arr x) (n_len x).

(* xmltree.go:322-334 *)
Fixpoint search_ptr (fuel : nat) (h : heap) (fn : heap -> node -> bool) (p : ptr) : option (list ptr) :=
  match fuel with
  | 0 => None
  | S f =>
      match load h p with
      | None => None
      | Some x =>
          match mapo (fun i => search_ptr f h fn (n_arr x, i)) (seq 0 (n_len x)) with
          | Some ls => Some ((if fn h x then [p] else []) ++ concat ls)%list
          | None => None
          end
      end
  end.
Definition search_heap (fuel : nat) (h : heap) (fn : heap -> node -> bool) (root : ptr) : option (list ptr) :=
  match load h root with
  | Some x => option_map (@concat _) (mapo (fun i => search_ptr fuel h fn (n_arr x, i)) (seq 0 (n_len x)))
  | None => None
  end.

(* search.go *)
Definition is_elem (local : string) (x : node) : bool := xname_eqb (n_name x) (xs local).
Definition is_type (x : node) : bool := is_elem "complexType" x || is_elem "simpleType" x.
Definition is_anon (h : heap) (x : node) : bool := is_type x && String.eqb (nattr h x "name") "".
Definition has_anon (h : heap) (x : node) : bool := existsb (is_anon h) (kids h x).

(* the result of a pass *)
Inductive res (A : Type) := Done (a : A) | Fails | Runs.
Arguments Done {A} a.
Arguments Fails {A}.
Arguments Runs {A}.

Fixpoint each {A B} (f : A -> B -> A) (a : A) (l : list B) : A := match l with [] => a | b :: l' => each f (f a b) l' end.

Section Growing.
  (* the capacities append chooses when the old one does not suffice: of Children, of Attr *)
  Variables grow agrow : nat -> nat -> nat.
  (* xmltree.go:300-314: one slot is written, in place if there is room *)
  Definition n_set_attr (h : heap) (x : node) (local v : string) : heap * node :=
    let l := attr_set (n_attrs h x) "" local v in
    let c := ats h (n_at x) in
    if Nat.leb (List.length l) (List.length c)
    then (set_nth (n_at x) (Ats (l ++ skipn (List.length l) c)%list) h, with_ats x (n_at x) (List.length l))
    else let '(h', a) := alloc_ats h l (agrow (List.length c) (List.length l)) in (h', with_ats x a (List.length l)).
  Definition set_attr_at (h : heap) (p : ptr) (local v : string) : heap :=
    match load h p with Some x => let (h', x') := n_set_attr h x local v in put h' p x' | None => h end.

  (* parse.go:581-606 *)
  Definition default_type (local any : string) (fuel : nat) (root : ptr) (h : heap) : res heap :=
    match search_heap fuel h (fun h x => is_elem local x && String.eqb (nattr h x "type") "") root with
    | None => Runs
    | Some ps => Done (each (fun h p => match load h p with
                                        | Some x => set_attr_at h p "type" (prefix (n_scope x) (xs any))
                                        | None => h
                                        end) h ps)
    end.
  Definition attribute_default_type := default_type "attribute" "anySimpleType".
  Definition element_default_type := default_type "element" "anyType".

  (* p.Children = append(p.Children, x) *)
  Definition append_kid (h : heap) (p : ptr) (x : node) : heap :=
    match load h p with
    | None => h
    | Some r =>
        let c := cells h (n_arr r) in
        if Nat.ltb (n_len r) (List.length c) then put (put h (n_arr r, n_len r) x) p (with_kids r (n_arr r) (S (n_len r)))
        else let '(h', a) := alloc h (firstn (n_len r) c ++ [x])%list (grow (List.length c) (S (n_len r))) in
             put h' p (with_kids r a (S (n_len r)))
    end.
  (* p.Children = append(p.Children[:i], p.Children[i+1:]...), which moves the cells behind i *)
  Definition remove_kid (h : heap) (p : ptr) (i : nat) : heap :=
    match load h p with
    | None => h
    | Some x =>
        let c := cells h (n_arr x) in
        put (set_nth (n_arr x) (Els (firstn i c ++ skipn (S i) (firstn (n_len x) c) ++ skipn (n_len x - 1) c)%list) h) p
            (with_kids x (n_arr x) (n_len x - 1))
    end.
  Definition clear_content (h : heap) (p : ptr) : heap := match load h p with Some x => put h p (no_content x) | None => h end.
  (* the first anonymous type among the children *)
  Fixpoint first_anon (h : heap) (l : list node) (i : nat) : option (nat * node) :=
    match l with [] => None | t :: l' => if is_anon h t then Some (i, t) else first_anon h l' (S i) end.
  Definition name_in (n : xname) (l : list xname) : bool := existsb (xname_eqb n) l.

  (* parse.go:205-239 *)
  Definition copy_name (root : ptr) (tns : string) (st : heap * list xname) (p : ptr) : heap * list xname :=
    let (h, used) := st in
    match load h p with
    | None => st
    | Some el =>
        let name := nattr h el "name" in
        let xn := resolve_default (n_scope el) name tns in
        if name_in xn used then st else
        match first_anon h (kids h el) 0 with
        | None => (h, xn :: used)
        | Some (i, t) =>
            let (h, t) := n_set_attr h t "name" name in
            let h := set_attr_at h p "type" (prefix (n_scope el) xn) in
            let h := clear_content (remove_kid h p i) p in
            (append_kid h root t, xn :: used)
        end
    end.
  Definition copy_elt_names (fuel : nat) (root : ptr) (h : heap) : res heap :=
    match load h root with
    | None => Runs
    | Some r =>
        let tns := nattr h r "targetNamespace" in
        match search_heap fuel h (fun h x => is_type x && negb (String.eqb (nattr h x "name") "")) root,
              search_heap fuel h (fun h x => (is_elem "element" x || is_elem "attribute" x) && negb (String.eqb (nattr h x "name") "") && has_anon h x) root with
        | Some named, Some ps =>
            let used := flat_map (fun p => match load h p with
                                           | Some x => [resolve_default (n_scope x) (nattr h x "name") tns]
                                           | None => [] end) named in
            Done (fst (each (copy_name root tns) (h, used) ps))
        | _, _ => Runs
        end
    end.

  (* parse.go:300-315: the attribute to update, and whether names accumulate *)
  Definition updates (local : string) : option (string * bool) :=
    if String.eqb local "element" || String.eqb local "attribute" then Some ("type", false)
    else if String.eqb local "list" then Some ("itemType", false)
    else if String.eqb local "restriction" then Some ("base", false)
    else if String.eqb local "union" then Some ("memberTypes", true)
    else None.
  Definition anon_name (n : nat) : string := "_anon" ++ dec (Z.of_nat n).
  (* parse.go:318-341: el is read anew each time round; f counts the iterations left *)
  Fixpoint name_kids (f : nat) (root p : ptr) (tns upd : string) (accum : bool) (i : nat) (st : heap * nat) : heap * nat :=
    let (h, n) := st in
    match f, load h p with
    | S f, Some el =>
        match nth_error (kids h el) i with
        | None => st
        | Some t =>
            if negb (is_anon h t) then name_kids f root p tns upd accum (S i) st else
            let n := S n in
            let q := prefix (n_scope el) (mkName tns (anon_name n)) in
            let (h, t) := n_set_attr h t "name" (anon_name n) in
            let (h, t) := n_set_attr h t "_isAnonymous" "true" in
            let q := if accum then nattr h el upd ++ " " ++ q else q in
            let h := set_attr_at h p upd q in
            let h := append_kid (clear_content (remove_kid h p i) p) root t in
            if accum then name_kids f root p tns upd accum (S i) (h, n) else (h, n)
        end
    | _, _ => st
    end.
  Fixpoint name_each (root : ptr) (tns : string) (ps : list ptr) (st : heap * nat) : res (heap * nat) :=
    match ps with
    | [] => Done st
    | p :: ps' =>
        match load (fst st) p with
        | None => Runs
        | Some el =>
            if negb (String.eqb (nspace (n_name el)) schemaNS) then name_each root tns ps' st else
            match updates (nlocal (n_name el)) with
            | None => Fails
            | Some (upd, accum) => name_each root tns ps' (name_kids (n_len el) root p tns upd accum 0 st)
            end
        end
    end.
  (* parse.go:291-344 *)
  Definition name_anonymous (fuel : nat) (root : ptr) (st : heap * nat) : res (heap * nat) :=
    match load (fst st) root, search_heap fuel (fst st) has_anon root with
    | Some r, Some ps => name_each root (nattr (fst st) r "targetNamespace") ps st
    | _, _ => Runs
    end.

  (* parse.go:243-264 *)
  Definition optional_kids (h : heap) (x : node) : heap :=
    each (fun h j => set_attr_at h (n_arr x, j) "minOccurs" "0") h (seq 0 (n_len x)).
  Definition optional_choice (h : heap) (p : ptr) : heap :=
    match load h p with
    | None => h
    | Some el => each (fun h i => match load h (n_arr el, i) with
                                  | None => h
                                  | Some t => if is_elem "sequence" t then optional_kids h t else set_attr_at h (n_arr el, i) "minOccurs" "0"
                                  end) h (seq 0 (n_len el))
    end.
  Definition set_choices_optional (fuel : nat) (root : ptr) (h : heap) : res heap :=
    match search_heap fuel h (fun _ x => is_elem "choice" x) root with
    | None => Runs
    | Some ps => Done (each optional_choice h ps)
    end.

  (* parse.go:462-501 *)
  Definition keeps (x : node) : bool := negb (String.eqb (nspace (n_name x)) schemaNS) || String.eqb (nlocal (n_name x)) "annotation".
  Definition is_content (x : node) : bool := is_elem "simpleContent" x || is_elem "complexContent" x.
  Definition expand_one (h : heap) (p : ptr) : heap :=
    match load h p with
    | None => h
    | Some el =>
        let ks := kids h el in
        if existsb is_content ks then h else
        let '(h, a) := alloc h (filter (fun x => negb (keeps x)) ks) (n_len el) in
        let '(h, ra) := alloc_ats h [mkAttr (mkName "" "base") (prefix (n_scope el) (xs "anyType"))] 1 in
        let restr := mkNode (xs "restriction") ra 1 (n_scope el) "" a (List.length (filter (fun x => negb (keeps x)) ks)) in
        let '(h, b) := alloc h [restr] 1 in
        let '(h, ca) := alloc_ats h [] 0 in
        let content := mkNode (xs "complexContent") ca 0 (n_scope el) "" b 1 in
        let new := (filter keeps ks ++ [content])%list in
        let cap := if Nat.ltb (List.length (filter keeps ks)) (n_len el) then n_len el else grow (n_len el) (List.length new) in
        let '(h, c) := alloc h new cap in
        put h p (with_kids (no_content el) c (List.length new))
    end.
  Definition expand_shorthand (fuel : nat) (root : ptr) (h : heap) : res heap :=
    match search_heap fuel h (fun _ x => is_elem "complexType" x) root with
    | None => Runs
    | Some ps => Done (each expand_one h ps)
    end.

  (* ---------- references ---------- *)
  (* index.go *)
  Definition key := (xname * xname)%type.
  Definition key_eqb (a b : key) : bool := xname_eqb (fst a) (fst b) && xname_eqb (snd a) (snd b).
  Fixpoint key_get (k : key) (m : list (key * nat)) : option nat :=
    match m with [] => None | (k', v) :: m' => if key_eqb k' k then Some v else key_get k m' end.
  (* the latest binding comes first *)
  Definition index_one (h : heap) (tns : string) (st : list ptr * list (key * nat)) (p : ptr) : list ptr * list (key * nat) :=
    let (els, m) := st in
    match load h p with
    | None => (els ++ [p], m)%list
    | Some x => ((els ++ [p])%list,
                 let n := nattr h x "name" in
                 if String.eqb n "" then m else ((resolve_default (n_scope x) n tns, n_name x), List.length els) :: m)
    end.
  Fixpoint index_schema (fuel : nat) (h : heap) (roots : list ptr) (st : list ptr * list (key * nat)) : option (list ptr * list (key * nat)) :=
    match roots with
    | [] => Some st
    | r :: roots' =>
        match load h r, search_heap fuel h (fun _ _ => true) r with
        | Some x, Some ps => index_schema fuel h roots' (each (index_one h (nattr h x "targetNamespace")) st ps)
        | _, _ => None
        end
    end.
  (* parse.go:403-438: the element that replaces ref, and its array of children *)
  Definition requalify (ref real : scope) (a : xattr) : xattr :=
    if xname_eqb (aname a) (mkName "" "type") then mkAttr (aname a) (prefix ref (resolve real (avalue a))) else a.
  Definition override (ats : list xattr) (refs : list xattr) : list xattr :=
    each (fun l a => if xname_eqb (aname a) (mkName "" "ref") then l else attr_set l (nspace (aname a)) (nlocal (aname a)) (avalue a)) ats refs.
  Definition deref_node (h : heap) (ref real : node) : heap * node :=
    let ks := kids h real in
    let '(h, a) := alloc h ks (grow 0 (List.length ks)) in
    let ats := override (map (requalify (n_scope ref) (n_scope real)) (n_attrs h real)) (n_attrs h ref) in
    let '(h, b) := alloc_ats h ats (agrow 0 (List.length ats)) in
    let sc := match ks with [] => n_scope ref | _ => join_scope (n_scope real) (n_scope ref) end in
    (h, mkNode (n_name real) b (List.length ats) sc (n_content real) a (List.length ks)).
  Definition ref_of (h : heap) (x : node) : string := nattr h x "ref".
  (* parse.go:367-378: the dependencies; None is the error return *)
  Definition dep_of (h : heap) (m : list (key * nat)) (p : ptr) : option (option nat) :=
    match load h p with
    | None => Some None
    | Some x => if String.eqb (ref_of h x) "" then Some None else
                match key_get (resolve (n_scope x) (ref_of h x), n_name x) m with
                | Some d => Some (Some d)
                | None => None
                end
    end.
  Fixpoint dep_edges (i : nat) (ds : list (option nat)) : list (Z * Z) :=
    match ds with
    | [] => []
    | Some d :: ds' => (Z.of_nat i, Z.of_nat d) :: dep_edges (S i) ds'
    | None :: ds' => dep_edges (S i) ds'
    end.
  (* parse.go:379-390; None is the panic *)
  Definition deref_one (els : list ptr) (m : list (key * nat)) (h : heap) (id : Z) : option heap :=
    match nth_error els (Z.to_nat id) with
    | None => Some h
    | Some p =>
        match load h p with
        | None => Some h
        | Some el =>
            if String.eqb (ref_of h el) "" then Some h else
            match key_get (resolve (n_scope el) (ref_of h el), n_name el) m with
            | None => None
            | Some d => match nth_error els d with
                        | Some q => match load h q with
                                    | Some real => let (h', x) := deref_node h el real in Some (put h' p x)
                                    | None => Some h
                                    end
                        | None => Some h
                        end
            end
        end
    end.
  (* parse.go:442-457 *)
  Definition is_group (x : node) : bool := is_elem "group" x || is_elem "attributeGroup" x.
  Definition unpack_one (h : heap) (p : ptr) : heap :=
    match load h p with
    | None => h
    | Some el =>
        let new := flat_map (fun c => if is_group c then kids h c else [c]) (kids h el) in
        let '(h, a) := alloc h new (if Nat.leb (List.length new) (n_len el) then n_len el else grow (n_len el) (List.length new)) in
        put h p (with_kids el a (List.length new))
    end.
  Definition unpack_groups (fuel : nat) (root : ptr) (h : heap) : res heap :=
    match search_heap fuel h (fun h x => existsb is_group (kids h x)) root with
    | None => Runs
    | Some ps => Done (each unpack_one h ps)
    end.
  (* hasCycle (parse.go:15-32): the pointers on the way down; Runs: out of fuel *)
  Definition ptr_eqb (a b : ptr) : bool := Nat.eqb (fst a) (fst b) && Nat.eqb (snd a) (snd b).
  Fixpoint cyclic (fuel : nat) (h : heap) (p : ptr) (vis : list ptr) : option bool :=
    match fuel with
    | 0 => None
    | S f =>
        match load h p with
        | None => None
        | Some x =>
            (fix go (l : list nat) : option bool :=
               match l with
               | [] => Some false
               | i :: l' => let q := (n_arr x, i) in
                   if existsb (ptr_eqb q) (p :: vis) then Some true else
                   match cyclic f h q (p :: vis) with
                   | Some false => go l'
                   | r => r
                   end
               end) (seq 0 (n_len x))
        end
    end.
  Fixpoint unpack_all (fuel : nat) (roots : list ptr) (h : heap) : res heap :=
    match roots with
    | [] => Done h
    | r :: roots' =>
        match unpack_groups fuel r h with
        | Done h => match cyclic fuel h r [] with
                    | Some false => unpack_all fuel roots' h
                    | Some true => Fails
                    | None => Runs
                    end
        | Fails => Fails
        | Runs => Runs
        end
    end.
  (* parse.go:362-399 *)
  Definition flatten_ref (fuel : nat) (roots : list ptr) (h : heap) : res heap :=
    match index_schema fuel h roots ([], []) with
    | None => Runs
    | Some (els, m) =>
        match mapo (dep_of h m) els with
        | None => Fails
        | Some ds =>
            match flatten (build (dep_edges 0 ds)) with
            | None => Runs
            | Some order =>
                match foldo (deref_one els m) h order with
                | None => Runs
                | Some h => unpack_all fuel roots h
                end
            end
        end
    end.

  (* ---------- parse.go:92-128, from the roots on ---------- *)
  Fixpoint on_each (f : ptr -> heap -> res heap) (roots : list ptr) (h : heap) : res heap :=
    match roots with
    | [] => Done h
    | r :: roots' => match f r h with Done h => on_each f roots' h | Fails => Fails | Runs => Runs end
    end.
  Fixpoint name_all (fuel : nat) (roots : list ptr) (st : heap * nat) : res (heap * nat) :=
    match roots with
    | [] => Done st
    | r :: roots' =>
        match name_anonymous fuel r st with
        | Done (h, n) => match set_choices_optional fuel r h with
                         | Done h => name_all fuel roots' (h, n)
                         | Fails => Fails
                         | Runs => Runs
                         end
        | Fails => Fails
        | Runs => Runs
        end
    end.
  Definition bind {A B} (r : res A) (f : A -> res B) : res B := match r with Done a => f a | Fails => Fails | Runs => Runs end.
  Definition defaults (fuel : nat) (r : ptr) (h : heap) : res heap :=
    bind (attribute_default_type fuel r h) (fun h => bind (element_default_type fuel r h) (fun h => copy_elt_names fuel r h)).
  Definition normalize (fuel : nat) (roots : list ptr) (h : heap) : res heap :=
    bind (on_each (defaults fuel) roots h) (fun h =>
    bind (name_all fuel roots (h, 0)) (fun st =>
    bind (on_each (expand_shorthand fuel) roots (fst st)) (fun h =>
    flatten_ref fuel roots h))).
End Growing.

(* ---------- trees in memory ---------- *)
(* the tree a cell stands for *)
Fixpoint read_node (fuel : nat) (h : heap) (x : node) : option elem :=
  match fuel with
  | 0 => None
  | S f => option_map (Elem (n_name x) (n_attrs h x) (n_scope x) (n_content x)) (mapo (read_node f h) (kids h x))
  end.
Definition read_ptr (fuel : nat) (h : heap) (p : ptr) : option elem := match load h p with Some x => read_node fuel h x | None => None end.
(* a tree as xmltree.Parse leaves it: Children grows by append, one child at a time *)
Section Build.
  Variables cap_of acap_of : nat -> nat.
  Fixpoint build_node (e : elem) (h : heap) : heap * node :=
    let '(Elem n ats s c ks) := e in
    let '(h, xs) := (fix go (l : list elem) (h : heap) : heap * list node :=
      match l with
      | [] => (h, [])
      | k :: l' => let (h, x) := build_node k h in let (h, r) := go l' h in (h, x :: r)
      end) ks h in
    let '(h, b) := alloc_ats h ats (acap_of (List.length ats)) in
    let '(h, a) := alloc h xs (cap_of (List.length xs)) in
    (h, mkNode n b (List.length ats) s c a (List.length xs)).
  Definition build_root (e : elem) (h : heap) : heap * ptr :=
    let (h, x) := build_node e h in let '(h, a) := alloc h [x] 1 in (h, (a, 0)).
  Fixpoint build_roots (es : list elem) (h : heap) : heap * list ptr :=
    match es with [] => (h, []) | e :: es' => let (h, p) := build_root e h in let (h, ps) := build_roots es' h in (h, p :: ps) end.
End Build.
