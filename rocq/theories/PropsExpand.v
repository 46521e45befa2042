(* C44 and C75: inheritance. *)
From Verif Require Import Base ScopeModel TreeModel BuiltinModel XsdModel TypesModel TypesSpec GenModel SgModel SgExamples SgFlatSpec SgFlatten SgFlatExamples SgExpandSpec SgExpand SgExpandFields SgExpandExamples.
Local Open Scope string_scope.

(* C44. Every type of the list and every type one of them is derived from gets the fields of its
   bases; nothing else is changed. *)
Theorem C44_expand st l : rooted st -> apart st -> NoDup l -> (forall t, In t l -> known st t) -> exists st', expand_types st l = Ret st' /\ List.length st' = List.length st /\
  (forall i j c, nth_error st i = Some (DC c) -> wanted st l i -> derives st i j ->
     exists es ats, inherits st i es ats /\ nth_error st' i = Some (DC (with_fields c es ats))) /\
  (forall i, ~ wanted st l i \/ (forall j, ~ derives st i j) -> nth_error st' i = nth_error st i).
Proof. exact (expand_main st l). Qed.
Print Assumptions C44_expand.
Example C44_case : (rooted sports /\ apart sports /\ NoDup sport_types /\ forall t, In t sport_types -> known sports t) /\
  (derives sports 0 1 /\ derives sports 1 2 /\ (forall j, ~ derives sports 2 j) /\ wanted sports sport_types 1) /\
  match expand_types sports sport_types with Ret st => (fields_at st 0, fields_at st 1, fields_at st 2, fields_at st 3) | _ => ([], [], [], []) end =
  ([("wheels", TB 38); ("note", TB 28); ("doors", TB 38); ("turbo", TB 38); ("id", TB 28); ("plate", TB 38); ("year", TB 38)],
   [("wheels", TB 38); ("note", TB 28); ("doors", TB 38); ("plate", TB 38); ("id", TB 38); ("year", TB 38)],
   [("wheels", TB 38); ("note", TB 38); ("id", TB 38); ("year", TB 38)], [("car", TPtr 1)]).
Proof. exact (conj sports_ok (conj sports_derive sports_expanded)). Qed.
(* The inherited fields are, for each name, those of the nearest type that has this name. *)
Theorem C44_nearest st i es ats : rooted st -> inherits st i es ats ->
  (forall e, In e es <-> exists k, nearest el_name ct_elems st i k e) /\ (forall a, In a ats <-> exists k, nearest at_name ct_attrs st i k a).
Proof. exact (inherits_nearest st i es ats). Qed.
Print Assumptions C44_nearest.
(* Schemas are expanded one after the other over shared types: expanding again, for any types, leaves
   the types that were expanded before as they are. *)
Theorem C44_again st l st' : rooted st -> apart st -> NoDup l -> (forall t, In t l -> known st t) -> expand_types st l = Ret st' ->
  forall l2, NoDup l2 -> (forall t, In t l2 -> known st t) -> exists st2, expand_types st' l2 = Ret st2 /\ forall i, wanted st l i -> nth_error st2 i = nth_error st' i.
Proof. exact (expand_again st l st'). Qed.
Print Assumptions C44_again.
(* What flatten returns qualifies. *)
Theorem C44_after_flatten fa ft allow st types : (forall a t, filtered fa (retype_at a t) = filtered fa a) -> complete st -> apart st -> (forall t, In t types -> known st t) ->
  exists st1 l st2, flatten_types fa ft allow st types = Ret (st1, l) /\ expand_types st1 l = Ret st2 /\ rooted st1 /\ apart st1 /\ NoDup l /\ forall t, In t l -> known st1 t.
Proof. exact (analysed fa ft allow st types). Qed.
Print Assumptions C44_after_flatten.
(* Types are found by name: with a second type B in the list, the real B is not expanded and C, derived
   from it, lacks the element x of B's base. *)
Theorem C44_same_name_refuted : rooted ghost /\ exists st l es ats, (l = [TPtr 3; TPtr 2]) /\ expand_types ghost l = Ret st /\ inherits ghost 3 es ats /\
  map (fun e => nlocal (el_name e)) es = ["x"; "y"; "z"] /\ fields_at st 3 = [("y", TB 38); ("z", TB 38)].
Proof. exact ghost_lost. Qed.
Print Assumptions C44_same_name_refuted.
(* Types derived from each other: the loop over the bases never ends. *)
Theorem C44_ring_refuted : forall f s, add_bases f ring (TPtr 0) s = Loops /\ add_bases f ring (TPtr 1) s = Loops.
Proof. exact ring_loops. Qed.
Print Assumptions C44_ring_refuted.
(* A restriction gets back the elements it leaves out. *)
Theorem C44_restriction_refuted : rooted narrow /\ apart narrow /\ ct_extends plain_v = false /\
  exists st, expand_types narrow [TPtr 0] = Ret st /\ fields_at narrow 0 = [("wheels", TB 38)] /\ fields_at st 0 = [("note", TB 38); ("wheels", TB 38)].
Proof. exact narrow_wide. Qed.
Print Assumptions C44_restriction_refuted.

(* C75. With the inherited fields too, the types of all fields are in the list. *)
Theorem C75_fields fa ft allow h st types : (forall a t, filtered fa (retype_at a t) = filtered fa a) -> complete st -> apart st -> ranked h st -> (forall i, h i <= N.to_nat 1000) -> (forall t, In t types -> known st t) ->
  exists st1 l st2, flatten_types fa ft allow st types = Ret (st1, l) /\ expand_types st1 l = Ret st2 /\
    forall i c u, In (TPtr i) l -> nth_error st2 i = Some (DC c) -> In u (map el_type (ct_elems c) ++ map at_type (ct_attrs c))%list -> listed st2 l u.
Proof. exact (closed_fields fa ft allow h st types). Qed.
Print Assumptions C75_fields.
Example C75_fields_case : apart cars.
Proof. exact (apartb_ok cars eq_refl). Qed.
