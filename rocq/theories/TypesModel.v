(* Model of the second half of xsd.Parse: from the normalised trees to resolved types
   (xsd/parse.go:135-176, 503-574, 612-643, 1018-1109) and of FindType, XMLName and Base
   (xsd/xsd.go:117-134, 293-320). Types are pointers and are mutated in place, so definitions
   live in a store and a Type is an index into it. Go maps are association lists; wherever the
   code ranges over a map the order is an arbitrary permutation, given by an oracle. *)
From Verif Require Import Base ScopeModel TreeModel EqualModel Utf8 Decimal BuiltinModel CodecModel XsdModel.
Local Open Scope string_scope.

(* a SimpleType; of its Restriction the numeric bounds are left out, which nothing after
   parsing reads *)
Record sdef := mkSdef {
  sd_name : xname; sd_base : ty; sd_union : list ty; sd_list : bool; sd_anon : bool; sd_doc : string;
  sd_enum : list string; sd_pattern : option string; sd_len : Z; sd_minlen : Z; sd_maxlen : Z; sd_rdoc : string }.
Inductive def := DC (c : complexT) | DS (s : sdef).
Definition of_simple {F T} (s : simpleT F T) : sdef :=
  let r := st_restr F T s in
  mkSdef (st_name F T s) (st_base F T s) (st_union F T s) (st_list F T s) (st_anon F T s) (st_doc F T s)
    (rs_enum F T r) (rs_pattern F T r) (rs_len F T r) (rs_minlen F T r) (rs_maxlen F T r) (rs_doc F T r).
Definition def_name (d : def) : xname := match d with DC c => ct_name c | DS s => sd_name s end.
Definition def_base (d : def) : ty := match d with DC c => ct_base c | DS s => sd_base s end.
Definition store := list def.

(* xsd.go:309-320; the panic on a nil Type is not reached *)
Definition base_of (st : store) (t : ty) : ty :=
  match t with TPtr i => match nth_error st i with Some d => def_base d | None => TNil end | _ => TNil end.
(* xsd.go:293-305; None is the panic *)
Definition type_name (st : store) (t : ty) : option xname :=
  match t with
  | TPtr i => option_map def_name (nth_error st i)
  | TB b => Some (b_name b)
  | TLink n => Some n
  | TNil => None
  end.

(* ---------- maps ---------- *)
Fixpoint mset {V} (k : xname) (v : V) (m : list (xname * V)) : list (xname * V) :=
  match m with
  | [] => [(k, v)]
  | (k', v') :: m' => if xname_eqb k' k then (k, v) :: m' else (k', v') :: mset k v m'
  end.
Fixpoint sset {V} (k : string) (v : V) (m : list (string * V)) : list (string * V) :=
  match m with
  | [] => [(k, v)]
  | (k', v') :: m' => if String.eqb k' k then (k, v) :: m' else (k', v') :: sset k v m'
  end.
Fixpoint sget {V} (k : string) (m : list (string * V)) : option V :=
  match m with [] => None | (k', v) :: m' => if String.eqb k' k then Some v else sget k m' end.
Definition types := list (xname * ty).

(* ---------- reading a schema element ---------- *)
(* what Parse takes from one tree: the target namespace, the writes to Types in order, and the
   (name, type) pairs of the top-level elements *)
Record rd := mkRd { rd_tns : string; rd_types : list (xname * def); rd_aliases : list (xname * xname) }.
Section Reading.
  Variable annot : elem -> option string.
  Variables (F T : Type) (f0 : F) (t0 : T).
  Variables (pf : string -> option F) (pd pr : string -> option T) (comp : string -> bool) (msg : string -> string).

  Definition is_el (e : elem) : bool := xname_eqb (e_name e) (xs "element").
  (* parse.go:628-643. expandComplexShorthand turns the children of the made-up complexType,
     which are all elements, into a restriction of anyType; that types nested below them would be
     expanded again is not modelled (Normalize has done it) *)
  Definition self_elem (root : elem) : elem :=
    let kids := filter is_el (e_children root) in
    let s := e_scope root in
    let restr := Elem (xs "restriction") [mkAttr (mkName "" "base") (prefix s (b_name 0))] s "" kids in
    set_attr (Elem (mkName (nspace (e_name root)) "complexType") (e_attrs root) s ""
      [Elem (xs "complexContent") [] s "" [restr]]) "" "name" "_self".
  (* parse.go:612-626 *)
  Definition read_types (root : elem) : option (list (xname * def)) :=
    let tns := attr root "" "targetNamespace" in
    match mapo (parse_complex_type annot tns) (find_all "complexType" root),
          mapo (parse_simple_type annot F T f0 t0 pf pd pr comp msg tns) (find_all "simpleType" root),
          parse_complex_type annot tns (self_elem root) with
    | Some cs, Some ss, Some self =>
        Some (map (fun c => (ct_name c, DC c)) cs ++ map (fun s => (st_name F T s, DS (of_simple s))) ss ++
              [(mkName tns "_self", DC self)])%list
    | _, _, _ => None
    end.
  (* parse.go:503-512 *)
  Definition read_aliases (root : elem) : list (xname * xname) :=
    let tns := attr root "" "targetNamespace" in
    filter (fun p => negb (String.eqb (nlocal (snd p)) "") && negb (String.eqb (nlocal (fst p)) ""))%bool
      (map (fun el => (resolve_default (e_scope el) (attr el "" "name") tns, resolve (e_scope el) (attr el "" "type")))
           (filter is_el (e_children root))).
  Definition read (root : elem) : option rd :=
    option_map (fun l => mkRd (attr root "" "targetNamespace") l (read_aliases root)) (read_types root).
End Reading.

(* ---------- Parse ---------- *)
Inductive outcome (A : Type) := Ok (a : A) | Err | Panics.
Arguments Ok {A} a.
Arguments Err {A}.
Arguments Panics {A}.

(* parse.go:149-156: each definition is a new object; a later write to the same name replaces
   the pointer *)
Fixpoint alloc (st : store) (m : types) (l : list (xname * def)) : store * types :=
  match l with
  | [] => (st, m)
  | (n, d) :: l' => alloc (st ++ [d])%list (mset n (TPtr (List.length st)) m) l'
  end.
Fixpoint alloc_all (st : store) (parsed : list (string * types)) (l : list rd) : store * list (string * types) :=
  match l with
  | [] => (st, parsed)
  | r :: l' => let (st', m) := alloc st [] (rd_types r) in alloc_all st' (sset (rd_tns r) m parsed) l'
  end.
(* parse.go:158-162, over all entries of all schemas in some order *)
Definition index_types (st : store) (es : list (xname * ty)) : types :=
  fold_left (fun g e => match type_name st (snd e) with Some n => mset n (snd e) g | None => g end) es [].
(* parse.go:1100-1109 *)
Definition lookup_type (global own : types) (n : xname) : option ty :=
  match parse_builtin n with
  | Some b => Some (TB b)
  | None => match lookup n global with Some t => Some t | None => lookup n own end
  end.
(* one reference; None: the error return *)
Definition resolve_ty (look : xname -> option ty) (t : ty) : option ty := match t with TLink n => look n | _ => Some t end.
(* parse.go:1027-1061 and 1062-1088 *)
Definition resolve_def (look : xname -> option ty) (d : def) : option def :=
  match d with
  | DC c =>
      match resolve_ty look (ct_base c),
            mapo (fun e => option_map (fun t => mkElement (el_doc e) (el_name e) (el_wild e) t (el_abstract e) (el_plural e) (el_optional e)
                                                 (el_nillable e) (el_default e) (el_attr e) (el_scope e)) (resolve_ty look (el_type e))) (ct_elems c),
            mapo (fun a => option_map (fun t => mkAttribute (at_name a) (at_doc a) t (at_default a) (at_optional a) (at_attr a) (at_scope a))
                                      (resolve_ty look (at_type a))) (ct_attrs c) with
      | Some b, Some es, Some ats =>
          Some (DC (mkComplex (ct_doc c) (ct_name c) b (ct_anon c) es ats (ct_abstract c) (ct_extends c) (ct_mixed c)))
      | _, _, _ => None
      end
  | DS s =>
      match resolve_ty look (sd_base s), mapo (resolve_ty look) (sd_union s) with
      | Some b, Some un => Some (DS (mkSdef (sd_name s) b un (sd_list s) (sd_anon s) (sd_doc s) (sd_enum s) (sd_pattern s)
                                      (sd_len s) (sd_minlen s) (sd_maxlen s) (sd_rdoc s)))
      | _, _ => None
      end
  end.
(* parse.go:1018-1098; entries that are not pointers are built-ins *)
Definition resolve_entry (look : xname -> option ty) (st : store) (e : xname * ty) : option store :=
  match snd e with
  | TPtr i => match nth_error st i with
              | Some d => option_map (fun d' => set_nth i d' st) (resolve_def look d)
              | None => Some st
              end
  | _ => Some st
  end.
Definition resolve_types (look : xname -> option ty) (es : list (xname * ty)) (st : store) : option store :=
  foldo (resolve_entry look) st es.
(* parse.go:513-521 *)
Definition add_alias (global : types) (own : types) (a : xname * xname) : option types :=
  match lookup (fst a) own with
  | Some _ => Some own
  | None => option_map (fun t => mset (fst a) t own) (lookup_type global own (snd a))
  end.
(* parse.go:547-574. The fuel is 1001 - depth; None is the panic in the default case *)
Definition mix (st : store) (t b : ty) : option store :=
  match t with
  | TPtr i =>
      match nth_error st i with
      | Some (DC c) =>
          if ct_mixed c then Some st else
          match b with
          | TB n => Some (if (n =? 0)%Z then set_nth i (DC (set_mixed c (ct_extends c))) st else st)
          | TPtr j => match nth_error st j with
                      | Some (DC c') => Some (if ct_extends c then set_nth i (DC (set_mixed c (ct_mixed c'))) st else st)
                      | Some (DS _) => Some (set_nth i (DC (set_mixed c true)) st)
                      | None => None
                      end
          | _ => None
          end
      | _ => Some st
      end
  | _ => Some st
  end.
Fixpoint propagate (fuel : nat) (t : ty) (st : store) : option store :=
  match base_of st t with
  | TNil => Some st
  | b => match fuel with
         | 0 => Some st
         | S f => match propagate f b st with Some st' => mix st' t b | None => None end
         end
  end.
Definition max_depth := N.to_nat 1001.
Definition propagate_all (es : list (xname * ty)) (st : store) : option store :=
  foldo (fun st e => propagate max_depth (snd e) st) st es.

(* parse.go:164-175, with the orders in which the maps happen to be ranged over *)
Definition finish_one (global : types) (ord : list (xname * ty) -> list (xname * ty)) (r : rd)
    (s : store * list (string * types)) : outcome (store * list (string * types)) :=
  let (st, parsed) := s in
  match sget (rd_tns r) parsed with
  | None => Panics
  | Some own =>
      match resolve_types (lookup_type global own) (ord own) st with
      | None => Err
      | Some st =>
          match foldo (add_alias global) own (rd_aliases r) with
          | None => Err
          | Some own =>
              match propagate_all (ord own) st with
              | None => Panics
              | Some st => Ok (st, sset (rd_tns r) own parsed)
              end
          end
      end
  end.
Fixpoint finish (global : types) (ord : nat -> list (xname * ty) -> list (xname * ty)) (k : nat) (l : list rd)
    (s : store * list (string * types)) : outcome (store * list (string * types)) :=
  match l with
  | [] => Ok s
  | r :: l' => match finish_one global (ord k) r s with Ok s' => finish global ord (S k) l' s' | Err => Err | Panics => Panics end
  end.
Definition all_entries (parsed : list (string * types)) : list (xname * ty) := flat_map snd parsed.
(* the result: the store, and one Schema per tree; two trees with the same target namespace give
   the same Schema twice (the map is shared), so the schemas are given by namespace *)
Definition parse_rds (ord : nat -> list (xname * ty) -> list (xname * ty)) (l : list rd) : outcome (store * list (string * types)) :=
  let (st, parsed) := alloc_all [] [] l in
  finish (index_types st (ord 0 (all_entries parsed))) ord 1 l (st, parsed).

(* ---------- FindType (xsd.go:117-134); None: still running ---------- *)
Fixpoint find_type1 (fuel : nat) (st : store) (t : ty) (n : xname) : option (option ty) :=
  match type_name st t with
  | None => None
  | Some m => if xname_eqb m n then Some (Some t) else
      match base_of st t with
      | TNil => Some None
      | b => match fuel with 0 => None | S f => find_type1 f st b n end
      end
  end.
Fixpoint find_type (fuel : nat) (st : store) (es : list (xname * ty)) (n : xname) : option (option ty) :=
  match es with
  | [] => Some None
  | e :: es' => match find_type1 fuel st (snd e) n with
                | None => None
                | Some (Some t) => Some (Some t)
                | Some None => find_type fuel st es' n
                end
  end.
