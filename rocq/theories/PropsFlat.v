(* C48, C75, C76 and C51: flattening. *)
From Coq Require Import Permutation.
From Verif Require Import Base ScopeModel TreeModel BuiltinModel XsdModel TypesModel TypesSpec GenModel SgModel SgExamples SgFlatSpec SgFlatten SgFlatExamples.
Local Open Scope string_scope.

(* C48. One simple type: it gets the Builtin at the end of its chain as base, and so do the simple
   types in between, which are pushed; a plain one is replaced by the Builtin. *)
Theorem C48_simple_type fa k st i s b : complete st -> nth_error st i = Some (DS s) -> ancestor st (TPtr i) (TB b) ->
  exists st' p v s', flatten1 fa (S k) st (TPtr i) = Ret (st', p, v) /\
    (plain s b -> v = TB b) /\ (~ plain s b -> v = TPtr i) /\
    nth_error st' i = Some (DS s') /\ sd_base s' = TB b /\ documented s b (sd_doc s') /\
    (forall x, In x p <-> is_simple st x = true /\ ancestor st (sd_base s) x) /\
    (forall j sj, In (TPtr j) p -> nth_error st' j = Some (DS sj) -> sd_base sj = TB b).
Proof. exact (flatten_simple_type fa k st i s b). Qed.
Print Assumptions C48_simple_type.
(* All types, recursive ones too: flatten returns; it changes nothing but types of fields, bases and
   documentation; a type of a field stays or becomes a Builtin or simple type above it; every type
   keeps its Builtin; the types asked for are in the result, each name once. *)
Theorem C48_flatten fa ft allow st types : (forall a t, filtered fa (retype_at a t) = filtered fa a) -> complete st -> (forall t, In t types -> known st t) ->
  exists st' l, flatten_types fa ft allow st types = Ret (st', l) /\
    (forall i d, nth_error st i = Some d -> exists d', nth_error st' i = Some d' /\ flattened fa st d d') /\ List.length st' = List.length st /\
    (forall i b, ancestor st (TPtr i) (TB b) -> ancestor st' (TPtr i) (TB b)) /\ complete st' /\ (forall x, In x l -> known st' x) /\
    (forall t n, In t types -> type_name st t = Some n -> picked ft allow n -> exists v, kept fa st t v /\ listed st' l v) /\
    (forall l1 v l2 w, l = (l1 ++ v :: l2)%list -> In w l1 -> type_name st' w <> type_name st' v).
Proof. exact (flatten_picked fa ft allow st types). Qed.
Print Assumptions C48_flatten.
(* the filters of IgnoreAttributes qualify *)
Example C48_filters names : forall a t, filtered (Some (ignore_attributes names)) (retype_at a t) = filtered (Some (ignore_attributes names)) a.
Proof. exact (by_name names). Qed.
Example C48_case : complete cars /\ (forall t, In t car_types -> known cars t) /\
  match flatten_types None None None cars car_types with
  | Ret (st, l) => (l, fields_at st 3, fields_at st 4, bases st)
  | _ => ([], [], [], []) end =
  ([TPtr 1; TPtr 0; TB 38; TPtr 3; TPtr 4],
   [("color", TPtr 0); ("owner", TB 38); ("note", TB 38); ("id", TB 38)], [("trailer", TPtr 3)], [TB 38; TB 38; TPtr 1; TB 0; TPtr 3]).
Proof. exact (conj cars_complete (conj cars_known cars_flat)). Qed.
(* "a type of a field becomes a Builtin above it" can change what the field holds: Widths restricts a
   list type without facets, and a field of type Widths ends up with the type of the items *)
Theorem C48_list_refuted : exists st l st', complete st /\ flatten_types None None None st [TPtr 2] = Ret (st', l) /\
  (exists s, nth_error st 0 = Some (DS s) /\ sd_list s = true) /\ ancestor st (TPtr 1) (TPtr 0) /\
  fields_at st 2 = [("sizes", TPtr 0); ("widths", TPtr 1)] /\ fields_at st' 2 = [("sizes", TPtr 0); ("widths", TB 28)].
Proof. exact list_lost. Qed.
Print Assumptions C48_list_refuted.

(* C75. Types that do not contain themselves: the result is closed. *)
Theorem C75_closed fa ft allow h st types : (forall a t, filtered fa (retype_at a t) = filtered fa a) -> complete st -> ranked h st -> (forall i, h i <= N.to_nat 1000) ->
  (forall t, In t types -> known st t) ->
  exists st' l, flatten_types fa ft allow st types = Ret (st', l) /\ forall t, In t l -> ready st' l t.
Proof. exact (flatten_closed fa ft allow h st types). Qed.
Print Assumptions C75_closed.
Example C75_case : complete cars /\ (ranked car_rank cars /\ forall i, car_rank i <= N.to_nat 1000) /\ forall t, In t car_types -> known cars t.
Proof. exact (conj cars_complete (conj cars_ranked cars_known)). Qed.
(* With recursive types it is not: T1 and T2 contain each other, and T2 has an element of type X,
   which is text of a plain simple type S. X is in the result although it is no longer used, S is not. *)
Theorem C75_recursive_refuted : complete knot /\ exists st l c, flatten_types None None None knot knot_types = Ret (st, l) /\
  In (TPtr 2) l /\ nth_error st 2 = Some (DC c) /\ ct_mixed c = true /\ ~ listed st l (ct_base c).
Proof. exact (conj knot_complete knot_open). Qed.
Print Assumptions C75_recursive_refuted.

(* C76. flatten1 returns, whatever the types and the depth left; *)
Theorem C76_returns fa : (forall a t, filtered fa (retype_at a t) = filtered fa a) -> forall k st t, complete st -> known st t -> exists st' p v,
  flatten1 fa k st t = Ret (st', p, v) /\ kept fa st t v /\ forall x, In x p -> known st x.
Proof. exact (flatten1_returns fa). Qed.
Print Assumptions C76_returns.
(* but the depth is the only limit. A type with two elements of its own type: with k levels left
   flatten1 pushes 2^(k+1) - 2 types, and flatten starts with 1001 levels. *)
Theorem C76_doubles fa : forall k, exists p, flatten1 fa k twice (TPtr 0) = Ret (twice, p, TPtr 0) /\ N.of_nat (List.length p) = (2 ^ N.of_nat (S k) - 2)%N.
Proof. exact (twice_doubles fa). Qed.
Print Assumptions C76_doubles.
Example C76_case : complete twice /\ known twice (TPtr 0) /\ match flatten1 None 10 twice (TPtr 0) with Ret (_, p, _) => List.length p | _ => 0 end = 2046.
Proof. exact (conj twice_complete (conj (le_n 1) twice_ten)). Qed.

(* C51. The declarations depend on the order in which flatten meets the types, which is that of a Go
   map: X.c is a string in one and a C in the other. *)
Theorem C51_flatten_order_refuted : exists types types' st l st' l', Permutation types types' /\
  flatten_types None None None heirs types = Ret (st, l) /\ flatten_types None None None heirs types' = Ret (st', l') /\
  fields_at st 2 = [("c", TB 38)] /\ fields_at st' 2 = [("c", TPtr 1)].
Proof. exact heirs_permuted. Qed.
Print Assumptions C51_flatten_order_refuted.
Example C51_flatten_case : complete heirs /\ ranked (fun i => i) heirs.
Proof. exact heirs_complete. Qed.
