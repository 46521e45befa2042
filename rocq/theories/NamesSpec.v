(* What UseFieldNames is about: anonymous types and the elements and attributes they describe. *)
From Verif Require Import Base ScopeModel TreeModel EqualModel BuiltinModel XsdModel TypesModel GenModel SgModel NamesModel.
Local Open Scope string_scope.

(* an element, or an attribute, of one of the types is called n and has the type k *)
Definition elem_called (st : store) (l : list ty) (n : xname) (k : nat) : Prop :=
  exists i c e, In (TPtr i) l /\ nth_error st i = Some (DC c) /\ In e (ct_elems c) /\ el_name e = n /\ el_type e = TPtr k.
Definition attr_called (st : store) (l : list ty) (n : xname) (k : nat) : Prop :=
  exists i c a, In (TPtr i) l /\ nth_error st i = Some (DC c) /\ In a (ct_attrs c) /\ at_name a = n /\ at_type a = TPtr k.
Definition called (st : store) (l : list ty) (n : xname) (k : nat) : Prop := elem_called st l n k \/ attr_called st l n k.
Definition is_anon (st : store) (k : nat) : Prop := exists d, nth_error st k = Some d /\ anonymous d = true.
(* all but the name and whether it is anonymous *)
Definition same_type (d d' : def) : Prop :=
  match d, d' with
  | DC c, DC c' => ct_doc c' = ct_doc c /\ ct_base c' = ct_base c /\ ct_elems c' = ct_elems c /\ ct_attrs c' = ct_attrs c /\ ct_abstract c' = ct_abstract c /\ ct_extends c' = ct_extends c /\ ct_mixed c' = ct_mixed c
  | DS s, DS s' => sd_base s' = sd_base s /\ sd_union s' = sd_union s /\ sd_list s' = sd_list s /\ sd_doc s' = sd_doc s /\ sd_enum s' = sd_enum s /\ sd_pattern s' = sd_pattern s /\ sd_len s' = sd_len s /\
                   sd_minlen s' = sd_minlen s /\ sd_maxlen s' = sd_maxlen s /\ sd_rdoc s' = sd_rdoc s
  | _, _ => False
  end.
(* an anonymous type has one name, and if it is complex no other type has it *)
Definition one_name (st : store) (all l : list ty) : Prop := forall k n, is_anon st k -> called st l n k ->
  (forall n', called st l n' k -> n' = n) /\
  (is_complex st (TPtr k) = true -> (forall t, In t all -> type_name st t <> Some n) /\ forall k', is_anon st k' -> called st l n k' -> k' = k).
(* no two anonymous types have the same name, and no other type has it *)
Definition names_unused (st : store) (l : list ty) : Prop := forall k n, is_anon st k -> called st l n k ->
  (forall n', called st l n' k -> n' = n) /\ (forall k', is_anon st k' -> called st l n k' -> k' = k) /\
  (forall j d, nth_error st j = Some d -> def_name d <> n) /\ (forall b, b_name b <> n).
