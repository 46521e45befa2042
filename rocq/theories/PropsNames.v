(* Anonymous types named after elements and attributes. *)
From Verif Require Import Base ScopeModel TreeModel EqualModel BuiltinModel XsdModel XsdProofs TypesModel TypesSpec GenModel SgModel SgStruct SgExamples SgFlatSpec SgExpandSpec SgGen SgGenSpec SgGenExamples NamesModel NamesSpec NamesProofs NamesExamples.
Local Open Scope string_scope.

(* C85: UseFieldNames gives an anonymous type the name of an element or attribute that has the type; it
   changes nothing else *)
Theorem C85_kept st all l st' : use_all st all l = Ret st' -> List.length st' = List.length st /\ forall k d, nth_error st k = Some d -> exists d', nth_error st' k = Some d' /\ same_type d d' /\
  (d' = d \/ (anonymous d = true /\ anonymous d' = false /\ called st l (def_name d') k)).
Proof. exact (kept st all l st'). Qed.
Print Assumptions C85_kept.
Example C85_kept_case : use_all garage garage_types garage_types = Ret named_garage.
Proof. exact garage_named. Qed.
(* C85: it returns *)
Theorem C85_returns st all l : (forall u, In u all -> type_name st u <> None) -> exists st', use_all st all l = Ret st'.
Proof. exact (returns st all l). Qed.
Print Assumptions C85_returns.
(* C85: a type stays anonymous only if it has no element or attribute, or if it is complex and another type has the name of its element *)
Theorem C85_still_anonymous st all l st' k : use_all st all l = Ret st' -> is_anon st' k -> (forall n, ~ attr_called st l n k) /\
  (forall n, elem_called st l n k -> is_complex st (TPtr k) = true /\ exists t, In t all /\ (type_name st' t = Some n \/ type_name st t = Some n)).
Proof. exact (fun H => still_anonymous st all l st' H k). Qed.
Print Assumptions C85_still_anonymous.
Example C85_still_anonymous_case : exists st', use_all two two_types two_types = Ret st' /\ is_anon st' 3 /\ elem_called two two_types (mkName "urn:a" "engine") 3.
Proof. exact two_left. Qed.
(* C85: if there are no conflicts, every anonymous type has the name of its element or attribute afterwards *)
Theorem C85_named st all l st' : use_all st all l = Ret st' -> one_name st all l ->
  forall k n, is_anon st k -> called st l n k -> exists d', nth_error st' k = Some d' /\ def_name d' = n /\ anonymous d' = false.
Proof. exact (all_named st all l st'). Qed.
Print Assumptions C85_named.
Example C85_named_case : one_name garage garage_types garage_types /\ is_anon garage 1 /\ called garage garage_types (mkName "urn:a" "engine") 1 /\ is_anon garage 2 /\ called garage garage_types (mkName "urn:a" "kind") 2.
Proof. exact (conj garage_one_name garage_anon). Qed.
(* C85: and the order in which the types are looked at does not matter *)
Theorem C85_any_order st all l l' st1 st2 : Permutation.Permutation l l' -> one_name st all l -> use_all st all l = Ret st1 -> use_all st all l' = Ret st2 -> st1 = st2.
Proof. exact (any_order st all l l' st1 st2). Qed.
Print Assumptions C85_any_order.
(* C85: if the names are not in use either, code can be generated as before *)
Theorem C85_generable st all l st' h : use_all st all l = Ret st' -> generable h st -> names_unused st l -> generable h st'.
Proof. exact (fun H => stays_generable st all l st' H h). Qed.
Print Assumptions C85_generable.
Example C85_generable_case : (generable garage_rank garage /\ forall i, garage_rank i <= N.to_nat 1000) /\ names_unused garage garage_types.
Proof. exact (conj garage_generable garage_unused). Qed.
(* C85: with conflicts, which type is named depends on the order in which Go ranges over a map *)
Theorem C85_order_refuted : exists l l' st1 st2, Permutation.Permutation l l' /\ use_all two l l = Ret st1 /\ use_all two l l' = Ret st2 /\
  map (fun d => nlocal (def_name d)) st1 = ["Car"; "Truck"; "engine"; "_anon2"] /\ map (fun d => nlocal (def_name d)) st2 = ["Car"; "Truck"; "_anon1"; "engine"].
Proof. exact depends. Qed.
Print Assumptions C85_order_refuted.
(* C85: simple types are named even if the name is taken: one of two types is not declared, and which one depends on the order *)
Theorem C85_clash_refuted : exists st', (generable kinds_rank kinds /\ forall i, kinds_rank i <= N.to_nat 1000) /\ use_all kinds two_types two_types = Ret st' /\
  declarations (gen pub None None None None all_helpers false kinds [two_types]) = [("_anon1", ["string"]); ("Car", ["_anon1"]); ("_anon2", ["int"]); ("Truck", ["_anon2"])] /\
  declarations (gen pub None None None None all_helpers false st' [two_types]) = [("kind", ["string"]); ("Car", ["kind"]); ("Truck", ["kind"])] /\
  declarations (gen pub None None None None all_helpers false st' [[TPtr 1; TPtr 0; TPtr 2; TPtr 3]]) = [("kind", ["int"]); ("Truck", ["kind"]); ("Car", ["kind"])].
Proof. exact clash. Qed.
Print Assumptions C85_clash_refuted.
