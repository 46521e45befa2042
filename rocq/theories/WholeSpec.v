(* When values of all the types generated from some schemas can be written and read back: a condition on
   the types as they are in the schemas. *)
From Verif Require Import Base ScopeModel TreeModel EqualModel BuiltinModel XsdModel TypesModel TypesSpec GenModel SgModel SgStruct SgTags SgFlatSpec SgExpandSpec SgGenSpec BindModel BindSpec BindGenSpec.
Local Open Scope string_scope.

(* the structs among the declarations *)
Definition structs_of (decls : list (string * spec)) (n : string) : option spec :=
  match sget n decls with Some s => match sp_struct s with Some _ => Some s | None => None end | None => None end.
(* there is a struct for the type *)
Definition struct_for_type (decls : list (string * spec)) (i : nat) : Prop := exists n s, structs_of decls n = Some s /\ sp_type s = TPtr i.

Section Whole.
  Variable public : xname -> string.
  Variable exported : string -> bool.
  Variable declares : xattr -> bool.
  Variable fa : option (attribute -> bool).
  Variable fe : option (element -> bool).
  Variable st : store.
  (* Go names of types are neither those of Go nor of helper types *)
  Definition go_names : Prop := forall n, String.prefix "[]" (public n) = false /\ ~ In (public n) go_types /\ forall b, non_trivial b = true -> public n <> helper_name b.
  (* no struct has the name of a simple type *)
  Definition kinds_apart (decls : list (string * spec)) : Prop := forall i j c s, struct_for_type decls i -> nth_error st i = Some (DC c) -> nth_error st j = Some (DS s) -> public (ct_name c) <> public (sd_name s).
  (* the names of fields: for elements, for attributes, for text *)
  Definition item_name (e : element) : string := if el_plural e then "Items" else "Item".
  Definition given (es : list element) (ats : list attribute) : list string := (map (fun e => public (el_name e)) es ++ map (fun a => public (at_name a)) ats)%list.
  Definition text_name (i : nat) (x : string) : Prop :=
    x = "Value" /\ (exists b, ancestor st (TPtr i) (TB b) /\ b <> 0%Z) \/
    exists k s, ancestor st (TPtr i) (TPtr k) /\ nth_error st k = Some (DS s) /\ x = public (sd_name s).
  Definition usable (x : string) : Prop := exported x = true /\ x <> "XMLName".
  (* the elements and attributes of a type *)
  Record clear_type (i : nat) (c : complexT) (es : list element) (ats : list attribute) : Prop := mkClearType {
    (* they have different Go names, all of them exported, and other names than the text has *)
    ct_given : NoDup (given es ats);
    ct_elements : forall e, In e es -> if el_wild e then usable (item_name e) /\ ~ In (item_name e) (given es ats) else usable (public (el_name e));
    ct_attributes : forall a, In a ats -> usable (public (at_name a));
    ct_text : ct_mixed c = true -> forall x, text_name i x -> usable x /\ ~ In x (given es ats) /\ forall e, In e es -> el_wild e = true -> x <> item_name e;
    (* their names can be in tags, and be told apart *)
    ct_etags : forall e, In e es -> el_wild e = false -> tag_ok (el_name e);
    ct_atags : forall a, In a ats -> tag_ok (at_name a);
    ct_apart : all_apart (map el_key es);
    ct_aapart : all_apart (map at_key ats);
    (* elements that occur more than once have no default, and are not dates, times, binary data or lists *)
    ct_over : forall e, In e es -> el_default e <> "" \/ (exists b, kept fa st (el_type e) (TB b) /\ non_trivial b = true) -> el_plural e = false /\ el_wild e = false;
    ct_lists : forall e b g, In e es -> el_plural e = true -> kept fa st (el_type e) (TB b) -> builtin_expr b = Returns (Some (GArray g)) -> g = "byte";
    (* attributes are of simple types, and text is no list *)
    ct_simple : forall a, In a ats -> is_complex st (at_type a) = false;
    ct_chars : ct_mixed c = true -> forall b g, ancestor st (TPtr i) (TB b) -> builtin_expr b = Returns (Some (GArray g)) -> g = "byte";
    (* no attribute is taken for the declaration of a prefix *)
    ct_decl : forall a x, In a ats -> declares x = true -> nlocal (aname x) = nlocal (at_name a) -> qualified a = true /\ nspace (at_name a) <> "" /\ nspace (aname x) <> nspace (at_name a) }.
  (* the types for which there are structs, with all that they inherit, what is ignored left out *)
  Definition clear_code (decls : list (string * spec)) : Prop := kinds_apart decls /\ forall i c es ats, struct_for_type decls i -> nth_error st i = Some (DC c) -> inherits st i es ats ->
    clear_type i c (filter (fun e => negb (filtered fe e)) es) (filter (fun a => negb (filtered fa a)) ats).
End Whole.
(* an element or attribute for another: all but the type is the same *)
Definition el_for (fa : option (attribute -> bool)) (st : store) (e e' : element) : Prop := kept fa st (el_type e) (el_type e') /\ e' = retype_el e (el_type e').
Definition at_for (fa : option (attribute -> bool)) (st : store) (a a' : attribute) : Prop := kept fa st (at_type a) (at_type a') /\ a' = retype_at a (at_type a').
