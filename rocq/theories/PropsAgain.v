(* Normalising again: C95. All statements hold for every way of growing slices. *)
From Verif Require Import Base ScopeModel TreeModel TreeSpec BuiltinModel XsdModel NormModel NormMem NormOps NormSpec NormUnpackAll NormExamples NormFixed NormAgain NormAgainExamples NormPlainDocs.
Local Open Scope string_scope.

(* C95. Schemas in normal form are left alone, to the last byte of memory, even if they share parts of it. *)
Theorem C95_normal_unchanged grow agrow fuel h roots es : Forall2 (shows h) roots es -> Forall (fun e => height e <= fuel /\ normal e) es ->
  normalize grow agrow fuel roots h = Done h.
Proof. exact (fixed grow agrow fuel h roots es). Qed.
(* Plain schemas get types (C27) and optional choices (C28), and then the long form (C29); the result is in normal form. *)
Theorem C95_reaches_normal grow agrow fuel roots es h : stands h roots es -> Forall (fun e => 3 * height e <= fuel /\ plain e) es ->
  exists h' es2, normalize grow agrow fuel roots h = Done h' /\ stands h' roots (map (below expand_el) es2) /\ Forall2 prepared es es2 /\
    Forall (fun e => height e <= fuel /\ normal e) (map (below expand_el) es2).
Proof. exact (normalised grow agrow fuel roots es h). Qed.
Theorem C95_twice grow agrow fuel roots es h : stands h roots es -> Forall (fun e => 3 * height e <= fuel /\ plain e) es ->
  exists h', normalize grow agrow fuel roots h = Done h' /\ normalize grow agrow fuel roots h' = Done h'.
Proof. exact (again grow agrow fuel roots es h). Qed.
(* A plain schema beside others, of whatever kind (those of the package have references and groups): if Normalize succeeds, it is in normal form too. *)
Theorem C95_among grow agrow fuel h roots es h' : stands h roots es -> normalize grow agrow fuel roots h = Done h' ->
  Forall2 (fun r e => plain e -> 3 * height e <= fuel -> exists e2 x, prepared e e2 /\ load h' r = Some x /\ rep h' (below expand_el e2) x /\ normal (below expand_el e2)) roots es.
Proof. exact (plain_each grow agrow fuel h roots es h'). Qed.
Print Assumptions C95_normal_unchanged.
Print Assumptions C95_reaches_normal.
Print Assumptions C95_twice.
Print Assumptions C95_among.

Example C95_plain : 3 * height plain_schema <= 20 /\ plain plain_schema /\ normalized [plain_schema] = Done [Some plain_result] /\ normalized [plain_result] = Done [Some plain_result].
Proof. exact plain_schema_ok. Qed.
Example C95_beside_groups : 3 * height plain_schema <= 20 /\ plain plain_schema /\ exists e', normalized [group_choice; plain_schema] = Done [Some e'; Some plain_result].
Proof. exact beside_groups. Qed.

(* With groups it is not so: the members of a group in a choice stay required, and become optional the second time. *)
Theorem C95_group_in_choice_refuted : exists e' d d2, normalized [group_choice] = Done [Some e'] /\ normalized [e'] <> Done [Some e'] /\
  sub e' [1; 0; 0; 0] = Some d /\ e_name d = xs "choice" /\ sub e' [1; 0; 0; 0; 0; 0] = Some d2 /\ e_name d2 = xs "element" /\ attr d2 "" "name" = "q" /\ attr d2 "" "minOccurs" = "".
Proof. exact group_required. Qed.
Print Assumptions C95_group_in_choice_refuted.
