(* What a declaration looks like, in terms of the types before anything is done to them. *)
From Verif Require Import Base ScopeModel TreeModel BuiltinModel XsdModel TypesModel TypesSpec GenModel SgModel SgStruct SgFlatSpec SgExpandSpec SgGenSpec.
Local Open Scope string_scope.

(* a complex type that others are derived from is one that no simple type can stand for: it has an
   attribute, or no text; or there is nothing to inherit from it *)
Definition firm (fa : option (attribute -> bool)) (st : store) : Prop := forall i j, derives st i j -> stays fa st (TPtr j) \/ inherits st j [] [].
(* no simple type can stand for any of the complex types that i is derived from *)
Definition settled_bases (fa : option (attribute -> bool)) (st : store) (i : nat) : Prop := forall k j, lineage st i k -> derives st k j -> stays fa st (TPtr j).
(* the first type that is not complex among those i is derived from *)
Inductive text_of (st : store) : nat -> ty -> Prop :=
| tx_own i c : nth_error st i = Some (DC c) -> is_complex st (ct_base c) = false -> text_of st i (ct_base c)
| tx_up i j v : derives st i j -> text_of st j v -> text_of st i v.
Section Shape.
  Variable public : xname -> string.
  Variable fa : option (attribute -> bool).
  Variable fe : option (element -> bool).
  Variable st : store.
  (* the Go type for t *)
  Definition go_type (t : ty) (g : gexpr) : Prop :=
    match t with
    | TB b => exists x, builtin_expr b = Returns (Some x) /\ g = of_gotype x
    | TPtr i => exists n, type_name st t = Some n /\ g = EId (public n)
    | _ => False
    end.
  (* the field for an element; wildcards of anyType are kept as text *)
  Definition elem_field (e : element) (f : sfield) : Prop := exists u g, kept fa st (el_type e) u /\ go_type u g /\
    sf_tag f = (if el_wild e then quoted ",any" else element_tag e) /\
    exists g', (el_wild e = true /\ u = TB 0 /\ g' = EId "string" \/ ~ (el_wild e = true /\ u = TB 0) /\ g' = g) /\ sf_expr f = if el_plural e then EArr g' else g'.
  Definition attr_field (a : attribute) (f : sfield) : Prop := exists u, kept fa st (at_type a) u /\ go_type u (sf_expr f) /\ sf_tag f = attribute_tag a.
  (* the field for text: none if there is no text, or anything goes *)
  Definition text_field (i : nat) (c : complexT) (fs : list sfield) : Prop :=
    if ct_mixed c then exists v u, text_of st i v /\ ancestor st v u /\ is_complex st u = false /\ (settled_bases fa st i -> kept fa st v u) /\ (u = TB 0 /\ fs = [] \/ u <> TB 0 /\ exists f, fs = [f] /\ sf_tag f = quoted ",chardata" /\ go_type u (sf_expr f))
    else fs = [].
  (* a struct: text, elements, attributes, those inherited included and those ignored left out *)
  Definition struct_for (i : nat) (c : complexT) (fs : list sfield) : Prop := exists es ats ts efs afs, inherits st i es ats /\ fs = (ts ++ efs ++ afs)%list /\
    text_field i c ts /\ Forall2 elem_field (filter (fun e => negb (filtered fe e)) es) efs /\ Forall2 attr_field (filter (fun a => negb (filtered fa a)) ats) afs.
  (* any other type: a list is a slice, a union a string, and all else the Go type of the Builtin *)
  Definition expr_for (i : nat) (s : sdef) (g : gexpr) : Prop := exists b x, ancestor st (TPtr i) (TB b) /\ builtin_expr b = Returns (Some x) /\
    (sd_list s = true /\ g = EArr (of_gotype x) \/ sd_list s = false /\ sd_union s <> [] /\ g = EId "string" \/ sd_list s = false /\ sd_union s = [] /\ g = of_gotype x).
  Definition shape (i : nat) (sp : spec) : Prop := sp_type sp = TPtr i /\
    match nth_error st i with
    | Some (DC c) => sp_name sp = public (ct_name c) /\ sp_doc sp = ct_doc c /\ sp_expr sp = None /\ exists fs, sp_struct sp = Some fs /\ struct_for i c fs
    | Some (DS s) => sp_name sp = public (sd_name s) /\ sp_struct sp = None /\ exists g, sp_expr sp = Some g /\ expr_for i s g
    | None => False
    end.
End Shape.
