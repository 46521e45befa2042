(* Model of UseFieldNames: useFieldNames (xsdgen/config.go:308-352), run over the types of a schema as a
   pre-processing step (xsdgen/xsdgen.go:157-176). *)
From Verif Require Import Base ScopeModel TreeModel EqualModel XsdModel TypesModel GenModel SgModel.
Local Open Scope string_scope.

Definition anonymous (d : def) : bool := match d with DC c => ct_anon c | DS s => sd_anon s end.
(* config.go:323-324, 332-333, 342-343, 348-349 *)
Definition named (n : xname) (d : def) : def :=
  match d with
  | DC c => DC (mkComplex (ct_doc c) n (ct_base c) false (ct_elems c) (ct_attrs c) (ct_abstract c) (ct_extends c) (ct_mixed c))
  | DS s => DS (mkSdef n (sd_base s) (sd_union s) (sd_list s) false (sd_doc s) (sd_enum s) (sd_pattern s) (sd_len s) (sd_minlen s) (sd_maxlen s) (sd_rdoc s))
  end.
(* config.go:317-335: the names in use are looked at for complex types only *)
Definition name_elem (used : list xname) (st : store) (e : element) : store :=
  match el_type e with
  | TPtr k =>
      match nth_error st k with
      | Some (DS s) => if negb (sd_anon s) then st else set_nth k (named (el_name e) (DS s)) st
      | Some (DC c) => if negb (ct_anon c) then st else if existsb (xname_eqb (el_name e)) used then st else set_nth k (named (el_name e) (DC c)) st
      | None => st
      end
  | _ => st
  end.
(* config.go:336-350 *)
Definition name_attr (st : store) (a : attribute) : store :=
  match at_type a with
  | TPtr k =>
      match nth_error st k with
      | Some d => if negb (anonymous d) then st else set_nth k (named (at_name a) d) st
      | None => st
      end
  | _ => st
  end.
(* config.go:308-352; all: the types of the schema, of which the names are collected first *)
Definition use_names (st : store) (all : list ty) (t : ty) : run store :=
  match mapo (type_name st) all with
  | None => Panic
  | Some used =>
      match t with
      | TPtr i => match get_c st i with
                  | None => Ret st
                  | Some c => Ret (fold_left name_attr (ct_attrs c) (fold_left (name_elem used) (ct_elems c) st))
                  end
      | _ => Ret st
      end
  end.
(* xsdgen.go:157-176 with cfg.preprocessType = useFieldNames: it returns t itself, so the map is not
   changed. l: the types in the order in which Go ranges over the map *)
Definition use_all (st : store) (all l : list ty) : run store := foldr (fun st t => use_names st all t) st l.
