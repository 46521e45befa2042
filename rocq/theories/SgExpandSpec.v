(* The fields a complex type gets from the types it is derived from. *)
From Verif Require Import Base ScopeModel TreeModel BuiltinModel XsdModel TypesModel TypesSpec.
Local Open Scope string_scope.

(* every type is derived from a Builtin *)
Definition rooted (st : store) : Prop := forall i d, nth_error st i = Some d -> exists b, ancestor st (TPtr i) (TB b).
(* no two types have the same name, and none has the name of a Builtin *)
Definition apart (st : store) : Prop := forall i d t, nth_error st i = Some d -> type_name st t = Some (def_name d) ->
  match t with TPtr j => j = i | TB _ => False | _ => True end.
Definition complex_at (st : store) (i : nat) : Prop := exists c, nth_error st i = Some (DC c).
(* i is derived from the complex type j *)
Definition derives (st : store) (i j : nat) : Prop := exists c, nth_error st i = Some (DC c) /\ ct_base c = TPtr j /\ complex_at st j.
(* i itself and the complex types it is derived from, up to the first that is not derived from a complex type *)
Inductive lineage (st : store) : nat -> nat -> Prop :=
| li_self i : complex_at st i -> lineage st i i
| li_step i j k : derives st i j -> lineage st j k -> lineage st i k.

(* those of l that are not called like one of own *)
Definition others {A} (name : A -> xname) (own l : list A) : list A :=
  filter (fun x => negb (existsb (fun y => xname_eqb (name y) (name x)) own)) l.
(* elements of the base come before the type's own, attributes of the base after them *)
Inductive inherits (st : store) : nat -> list element -> list attribute -> Prop :=
| inh_root i c : nth_error st i = Some (DC c) -> (forall j, ~ derives st i j) -> inherits st i (ct_elems c) (ct_attrs c)
| inh_derived i j c es ats : nth_error st i = Some (DC c) -> derives st i j -> inherits st j es ats ->
    inherits st i (others el_name (ct_elems c) es ++ ct_elems c)%list (ct_attrs c ++ others at_name (ct_attrs c) ats)%list.
(* only the fields and Extends are new *)
Definition with_fields (c : complexT) (es : list element) (ats : list attribute) : complexT :=
  mkComplex (ct_doc c) (ct_name c) (ct_base c) (ct_anon c) es ats (ct_abstract c) false (ct_mixed c).
(* i is one of the types of l, or one of these is derived from it *)
Definition wanted (st : store) (l : list ty) (i : nat) : Prop := exists t, In t l /\ ancestor st t (TPtr i).

(* a field of i comes from the nearest type of its lineage that has a field of this name *)
Definition owns {A} (get : complexT -> list A) (st : store) (i : nat) (x : A) : Prop := exists c, nth_error st i = Some (DC c) /\ In x (get c).
Definition nearest {A} (name : A -> xname) (get : complexT -> list A) (st : store) (i k : nat) (x : A) : Prop := lineage st i k /\ owns get st k x /\
  forall m y, lineage st i m -> lineage st m k -> m <> k -> owns get st m y -> name y <> name x.
