(* Model of xsdgen: from parsed types to the fields of structs (xsdgen/xsdgen.go:134-260, 274-523,
   548-796, 868-901, 1140-1151; config.go:420-451, 471-592; cli.go:20-52, 65-95). Types are
   pointers into the store of TypesModel.v and are changed in place; Elements and Attributes are
   lists (two types share the array of Elements only after parseSOAPArrayType copied a base, see
   SoapModel.v; nothing is appended to the copy, and flattening writes the same types to both). Go maps are association lists in an order chosen by the
   caller. Log output is left out, except where computing its arguments panics. *)
From Verif Require Import Base ScopeModel TreeModel EqualModel Utf8 Decimal BuiltinModel CodecModel XsdModel TypesModel GraphModel GenModel.
Local Open Scope string_scope.

(* Panic: a Go panic; Loops: no end within the fuel *)
Inductive run (A : Type) := Ret (a : A) | Fail | Panic | Loops.
Arguments Ret {A} a.
Arguments Fail {A}.
Arguments Panic {A}.
Arguments Loops {A}.
Definition andthen {A B} (r : run A) (f : A -> run B) : run B :=
  match r with Ret a => f a | Fail => Fail | Panic => Panic | Loops => Loops end.
Fixpoint foldr {A B} (f : A -> B -> run A) (a : A) (l : list B) : run A :=
  match l with [] => Ret a | b :: l' => andthen (f a b) (fun a' => foldr f a' l') end.

Definition mem_name (n : xname) (l : list xname) : bool := existsb (xname_eqb n) l.
Definition mem_str (s : string) (l : list string) : bool := existsb (String.eqb s) l.

(* ---------- filters: config.go:135-173, 420-438 ---------- *)
Definition ignore_attributes (names : list string) (a : attribute) : bool := mem_str (nlocal (at_name a)) names.
Definition ignore_elements (names : list string) (e : element) : bool := mem_str (nlocal (el_name e)) names.
(* cfg.filter != nil && cfg.filter(v) *)
Definition filtered {A} (f : option (A -> bool)) (a : A) : bool := match f with Some g => g a | None => false end.
Definition filter_fields (fa : option (attribute -> bool)) (fe : option (element -> bool)) (c : complexT) : list attribute * list element :=
  (fold_left (fun l a => if filtered fa a then l else (l ++ [a])%list) (ct_attrs c) [],
   fold_left (fun l e => if filtered fe e then l else (l ++ [e])%list) (ct_elems c) []).

(* ---------- xsdgen.go:1140-1151: the inner loop sees the attributes appended before ---------- *)
Definition merge_attributes (src base : list attribute) : list attribute :=
  fold_left (fun l b => if existsb (fun s => xname_eqb (at_name s) (at_name b)) l then l else (l ++ [b])%list) base src.

(* ---------- xsdgen.go:394-403; XMLName panics on nil ---------- *)
Fixpoint dedup (st : store) (seen : list xname) (l : list ty) : run (list ty) :=
  match l with
  | [] => Ret []
  | v :: l' => match type_name st v with
               | None => Panic
               | Some n => if mem_name n seen then dedup st seen l' else andthen (dedup st (n :: seen) l') (fun r => Ret (v :: r))
               end
  end.

(* ---------- names of struct fields: xsdgen.go:553-590 ---------- *)
Definition max_dup := N.to_nat 1000.
(* the loop: the first free name, if any *)
Definition numbered (name : string) (i : nat) : string := name ++ dec (Z.of_nat i).
Definition free (taken : list string) (name : string) : option string :=
  option_map (numbered name) (find (fun i => negb (mem_str (numbered name i) taken)) (seq 0 max_dup)).
Definition unique (taken : list string) (name : string) : list string * string :=
  if mem_str name taken then
    match free taken name with Some u => (u :: taken, u) | None => (taken, name) end
  else (name :: taken, name).
Section Names.
  Variable public : xname -> string.
  Definition attribute_name (taken : list string) (base : xname) : list string * string :=
    let name := public base in
    if mem_str name taken then unique taken (name ++ "Attr") else (name :: taken, name).
  Definition element_name (taken : list string) (base : xname) : list string * string :=
    let name := public base in
    if mem_str name taken then unique taken name else (name :: taken, name).
End Names.

(* ---------- flattening: xsdgen.go:369-523 ---------- *)
Definition get_s (st : store) (i : nat) : option sdef := match nth_error st i with Some (DS s) => Some s | _ => None end.
Definition get_c (st : store) (i : nat) : option complexT := match nth_error st i with Some (DC c) => Some c | _ => None end.
Definition with_base_s (s : sdef) (b : ty) : sdef :=
  mkSdef (sd_name s) b (sd_union s) (sd_list s) (sd_anon s) (sd_doc s) (sd_enum s) (sd_pattern s) (sd_len s) (sd_minlen s) (sd_maxlen s) (sd_rdoc s).
Definition with_doc_s (s : sdef) (d : string) : sdef :=
  mkSdef (sd_name s) (sd_base s) (sd_union s) (sd_list s) (sd_anon s) d (sd_enum s) (sd_pattern s) (sd_len s) (sd_minlen s) (sd_maxlen s) (sd_rdoc s).
Definition put_s (st : store) (i : nat) (s : sdef) : store := set_nth i (DS s) st.
Definition put_c (st : store) (i : nat) (c : complexT) : store := set_nth i (DC c) st.
Definition is_simple (st : store) (t : ty) : bool :=
  match t with TPtr i => match nth_error st i with Some (DS _) => true | _ => false end | _ => false end.
Definition is_complex (st : store) (t : ty) : bool :=
  match t with TPtr i => match nth_error st i with Some (DC _) => true | _ => false end | _ => false end.
(* xsdgen.go:418-423: the types between t and its Builtin. A failed assertion leaves the zero
   Builtin, which is AnyType, in builtin *)
Fixpoint chain_loop (fuel : nat) (st : store) (base bi : ty) (chain : list ty) : run (list ty * ty) :=
  match base with
  | TNil => Ret (chain, bi)
  | TB b => Ret (chain, TB b)
  | _ => match fuel with
         | 0 => Loops
         | S f => chain_loop f st (base_of st base) (TB 0) (chain ++ [base])%list
         end
  end.
Definition chain_of (st : store) (t : ty) : run (list ty * ty) := chain_loop (S (List.length st)) st (base_of st t) TNil [].
(* xsdgen.go:424-429 *)
Definition rebase (st : store) (v builtin : ty) : store :=
  match v with TPtr i => match get_s st i with Some s => put_s st i (with_base_s s builtin) | None => st end | _ => st end.
Definition non_trivial_ty (t : ty) : bool := match t with TB b => non_trivial b | _ => false end.
Fixpoint joined (sep : string) (l : list string) : string :=
  match l with [] => "" | [x] => x | x :: l' => x ++ sep ++ joined sep l' end.
(* xsdgen.go:445-465: what the type itself adds, and its documentation *)
Definition simple_doc (s : sdef) : option string :=
  match sd_enum s with
  | _ :: _ => Some ("May be one of " ++ joined ", " (sd_enum s))
  | [] => match sd_pattern s with
          | Some p => Some ("Must match the pattern " ++ p)
          | None => if negb (sd_maxlen s =? 0)%Z then Some ("May be no more than " ++ dec (sd_maxlen s) ++ " items long")
                    else if negb (sd_minlen s =? 0)%Z then Some ("Must be at least " ++ dec (sd_minlen s) ++ " items long")
                    else None
          end
  end.
Definition flatten_simple (st : store) (i : nat) : run (store * list ty * ty) :=
  andthen (chain_of st (TPtr i)) (fun cb =>
    let (chain, builtin) := cb in
    let st := fold_left (fun st v => rebase st v builtin) chain st in
    let pushed := filter (is_simple st) chain in
    let st := rebase st (TPtr i) builtin in
    match get_s st i with
    | None => Panic
    | Some s =>
        if sd_list s || match sd_union s with [] => false | _ => true end then Ret (st, pushed, TPtr i)
        else if non_trivial_ty (sd_base s) then Ret (st, pushed, TPtr i)
        else match simple_doc s with
             | Some d => Ret (put_s st i (with_doc_s s d), pushed, TPtr i)
             | None => Ret (st, pushed, sd_base s)
             end
    end).
(* the fields of a complex type: elements, then attributes *)
Definition with_ty_e (e : element) (t : ty) : element :=
  mkElement (el_doc e) (el_name e) (el_wild e) t (el_abstract e) (el_plural e) (el_optional e) (el_nillable e) (el_default e) (el_attr e) (el_scope e).
Definition with_ty_a (a : attribute) (t : ty) : attribute :=
  mkAttribute (at_name a) (at_doc a) t (at_default a) (at_optional a) (at_attr a) (at_scope a).
Inductive slot := SE (j : nat) | SA (j : nat).
Definition slots (c : complexT) : list slot := (map SE (seq 0 (List.length (ct_elems c))) ++ map SA (seq 0 (List.length (ct_attrs c))))%list.
Definition slot_ty (c : complexT) (s : slot) : option ty :=
  match s with SE j => option_map el_type (nth_error (ct_elems c) j) | SA j => option_map at_type (nth_error (ct_attrs c) j) end.
Definition slot_set (c : complexT) (s : slot) (v : ty) : complexT :=
  match s with
  | SE j => match nth_error (ct_elems c) j with Some e => set_fields c (set_nth j (with_ty_e e v) (ct_elems c)) (ct_attrs c) | None => c end
  | SA j => match nth_error (ct_attrs c) j with Some a => set_fields c (ct_elems c) (set_nth j (with_ty_a a v) (ct_attrs c)) | None => c end
  end.

Section Flatten.
  Variable fa : option (attribute -> bool).
  (* xsdgen.go:471-491: the struct can be unpacked *)
  Definition unpacks (st : store) (c : complexT) : bool :=
    (match ct_base c with TB b => negb (b =? 0)%Z | t => is_simple st t end &&
     match fst (filter_fields fa None c) with [] => true | _ => false end)%bool.
  (* xsdgen.go:494-508: the field s of the complex type at i; rec flattens its type. The loops read
     each field when they come to it; by then the type may have been visited again *)
  Definition visit (rec : store -> ty -> run (store * list ty * ty)) (i : nat) (sp : store * list ty) (s : slot) : run (store * list ty) :=
    let (st, pushed) := sp in
    match get_c st i with
    | None => Panic
    | Some c =>
        match slot_ty c s with
        | None => Panic
        | Some u =>
            andthen (rec st u) (fun r =>
              let '(st, p, v) := r in
              match v, get_c st i with
              | TNil, _ | _, None => Panic
              | _, Some c => Ret (put_c st i (slot_set c s v), pushed ++ p ++ [v])%list
              end)
        end
    end.
  (* k counts the depth left: 1001 - depth. The result: the store, the types pushed, the type.
     XMLName panics on a nil type while the log line is made *)
  Fixpoint flatten1 (k : nat) (st : store) (t : ty) : run (store * list ty * ty) :=
    match k with
    | 0 => Ret (st, [], t)
    | S k' =>
        match t with
        | TB b => Ret (st, [], t)
        | TPtr i =>
            match nth_error st i with
            | Some (DS _) => flatten_simple st i
            | Some (DC c) =>
                if unpacks st c then
                  match ct_base c with TB b => Ret (st, [], TB b) | b => flatten1 k' st b end
                else
                  andthen (foldr (visit (flatten1 k') i) (st, []) (slots c)) (fun sp =>
                  let (st, pushed) := sp in
                  match get_c st i with
                  | None => Panic
                  | Some c => andthen (flatten1 k' st (ct_base c)) (fun r =>
                      let '(st, p, b) := r in
                      match b, get_c st i with
                      | TNil, _ | _, None => Panic
                      | _, Some c => let c := set_base c b in
                                     Ret (put_c st i c, pushed ++ p ++ (if ct_mixed c then [b] else []), TPtr i)%list
                      end)
                  end)
            | None => Panic
            end
        | _ => Panic
        end
    end.
  Definition max_depth := N.to_nat 1001.
  (* xsdgen.go:369-392; ft and allow: filterTypes, which reads the name only, and allowTypes *)
  Variable ft : option (xname -> bool).
  Variable allow : option (list xname).
  Definition selected (n : xname) : bool :=
    (negb (String.eqb (nlocal n) "_self") && negb (filtered ft n) &&
     match allow with Some l => mem_name n l | None => true end)%bool.
  Definition flatten_step (sp : store * list ty) (t : ty) : run (store * list ty) :=
    let (st, res) := sp in
    match type_name st t with
    | None => Panic
    | Some n =>
        if selected n then
          andthen (flatten1 max_depth st t) (fun r =>
            let '(st, p, v) := r in Ret (st, res ++ p ++ match v with TNil => [] | _ => [v] end)%list)
        else Ret (st, res)
    end.
  Definition flatten_types (st : store) (types : list ty) : run (store * list ty) :=
    andthen (foldr flatten_step (st, []) types) (fun sp => andthen (dedup (fst sp) [] (snd sp)) (fun l => Ret (fst sp, l))).
End Flatten.

(* ---------- inheritance: xsdgen.go:274-355 ---------- *)
Definition index_of (n : xname) (ix : list (xname * nat)) : option nat := lookup n ix.
(* 278-280: the last type of a name wins *)
Definition index_types (st : store) (l : list ty) : run (list (xname * nat)) :=
  foldr (fun ix p => match type_name st (snd p) with Some n => Ret ((n, fst p) :: ix) | None => Panic end) []
        (combine (seq 0 (List.length l)) l).
(* 281-290: the bases of every type are added *)
Fixpoint add_bases (fuel : nat) (st : store) (base : ty) (s : list (xname * nat) * list ty) : run (list (xname * nat) * list ty) :=
  match base with
  | TNil => Ret s
  | _ => match fuel, type_name st base with
         | _, None => Panic
         | 0, _ => Loops
         | S f, Some n =>
             add_bases f st (base_of st base)
               (match lookup n (fst s) with Some _ => s | None => ((n, List.length (snd s)) :: fst s, snd s ++ [base])%list end)
         end
  end.
(* 292-304 *)
Definition complex_base (st : store) (t : ty) : option ty :=
  match t with TPtr i => match get_c st i with Some c => if is_complex st (ct_base c) then Some (ct_base c) else None | None => None end | _ => None end.
Definition edges (st : store) (ix : list (xname * nat)) (all : list ty) : run (list (Z * Z)) :=
  foldr (fun es p => match complex_base st (snd p) with
                     | Some b => match type_name st b with
                                 | Some n => match lookup n ix with Some j => Ret (es ++ [(Z.of_nat (fst p), Z.of_nat j)])%list | None => Panic end
                                 | None => Panic end
                     | None => Ret es end) [] (combine (seq 0 (List.length all)) all).
(* 306-353 *)
Definition merged_fields (c b : complexT) : list element * list attribute :=
  ((filter (fun e => negb (mem_name (el_name e) (map el_name (ct_elems c)))) (ct_elems b) ++ ct_elems c)%list,
   (ct_attrs c ++ filter (fun a => negb (mem_name (at_name a) (map at_name (ct_attrs c)))) (ct_attrs b))%list).
(* 307-310: what is not a complex type panics *)
Definition expand_one (st : store) (t : ty) : run store :=
  match t with
  | TPtr i => match get_c st i with
              | Some c => match ct_base c with
                          | TPtr j => match get_c st j with
                                      | Some b => let (es, ats) := merged_fields c b in Ret (put_c st i (set_extends (set_fields c es ats) false))
                                      | None => Ret st end
                          | _ => Ret st end
              | None => Panic end
  | _ => Panic
  end.
Definition expand_types (st : store) (l : list ty) : run store :=
  andthen (index_types st l) (fun ix =>
  andthen (foldr (fun s v => add_bases (S (List.length st)) st (base_of st v) s) (ix, l) l) (fun s =>
  let (ix, all) := s in
  andthen (edges st ix all) (fun es =>
  match flatten (build es) with
  | None => Loops
  | Some order => foldr (fun st i => match nth_error all (Z.to_nat i) with Some t => expand_one st t | None => Panic end) st order
  end))).

