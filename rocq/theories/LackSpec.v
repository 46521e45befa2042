(* Vocabulary for the errors of xsdgen. *)
From Verif Require Import Base ScopeModel TreeModel EqualModel BuiltinModel XsdModel TypesModel GenModel SgModel SgStruct SliceModel SgGen LackModel.
Local Open Scope string_scope.

(* v is the end of the chain of base types of t, and every type before it is ok *)
Inductive chain_to (ok : ty -> bool) (st : store) : ty -> ty -> Prop :=
| chain_end t : base_of st t = TNil -> chain_to ok st t t
| chain_more t v : base_of st t <> TNil -> ok t = true -> chain_to ok st (base_of st t) v -> chain_to ok st t v.
(* a built-in that Go has no type for *)
Definition no_type (b : Z) : Prop := builtin_expr b = Returns None.
Section Spec.
  Variable public : xname -> string.
  Variable fa : option (attribute -> bool).
  Variable fe : option (element -> bool).
  Variable helpers : list Z.
  (* a built-in with a helper type that is not to be had *)
  Definition no_help (b : Z) : Prop := non_trivial b = true /\ ~ In b helpers.
  Definition complex_at (st : store) (t : ty) (c : complexT) : Prop := exists i, t = TPtr i /\ nth_error st i = Some (DC c).
  Definition simple_at (st : store) (t : ty) (s : sdef) : Prop := exists i, t = TPtr i /\ nth_error st i = Some (DS s).
  (* t has content of the built-in type b *)
  Definition has_value (st : store) (t : ty) (c : complexT) (b : Z) : Prop :=
    complex_at st t c /\ ct_mixed c = true /\ b <> 0%Z /\ chain_to (fun u => negb (is_simple st u)) st (ct_base c) (TB b).
  Definition has_element (st : store) (t : ty) (el : xname) (b : Z) : Prop :=
    exists c x, complex_at st t c /\ In x (ct_elems c) /\ filtered fe x = false /\ el_name x = el /\ el_type x = TB b.
  Definition has_attr (st : store) (t : ty) (at_ : xname) (b : Z) : Prop :=
    exists c x, complex_at st t c /\ In x (ct_attrs c) /\ filtered fa x = false /\ at_name x = at_ /\ at_type x = TB b.
  Definition has_base (st : store) (t : ty) (s : sdef) (b : Z) : Prop := simple_at st t s /\ sd_list s = false /\ sd_union s = [] /\ sd_base s = TB b.
  (* t is a list, and b the built-in its items derive from *)
  Definition has_items (st : store) (t : ty) (s : sdef) (b : Z) : Prop := simple_at st t s /\ sd_list s = true /\ chain_to (fun _ => true) st (sd_base s) (TB b).
  (* what is told is so *)
  Definition lacking (st : store) (t : ty) (e : lack) : Prop :=
    match e with
    | LUnknownValue n b => no_type b /\ exists c, has_value st t c b /\ type_name st (ct_base c) = Some n
    | LValue b => no_help b /\ exists c, has_value st t c b
    | LUnknownElement n b => no_type b /\ has_element st t n b
    | LElement n => exists b, no_help b /\ has_element st t n b
    | LUnknownAttr n b => no_type b /\ has_attr st t n b
    | LAttr n => exists b, no_help b /\ has_attr st t n b
    | LUnknownBase n b => no_type b /\ n = b_name b /\ exists s, has_base st t s b
    | LBase b => no_help b /\ exists s, has_base st t s b
    | LUnknownItem b => no_type b /\ exists s, simple_at st t s /\ sd_list s = true /\ sd_base s = TB b
    | LItem b => list_codec b = None /\ exists s, has_items st t s b
    | LBody n => exists s b c, has_items st t s b /\ list_codec b = Some c /\ body_parses c = false /\ n = public (sd_name s)
    end.
End Spec.
(* types keep what they have *)
Definition grown (st st' : store) : Prop :=
  List.length st' = List.length st /\
  forall i d, nth_error st i = Some d ->
    match d with
    | DS s => nth_error st' i = Some (DS s)
    | DC c => exists c', nth_error st' i = Some (DC c') /\ ct_name c' = ct_name c /\ ct_base c' = ct_base c /\ ct_mixed c' = ct_mixed c /\
                incl (ct_elems c) (ct_elems c') /\ incl (ct_attrs c) (ct_attrs c')
    end.
(* no line breaks *)
Definition one_line (s : string) : Prop := s_in "010" s = false.
