(* Cases for UseFieldNames. *)
From Verif Require Import Base ScopeModel TreeModel EqualModel BuiltinModel XsdModel XsdProofs TypesModel TypesSpec GenModel SgModel SgStruct SgExamples SgFlatSpec SgExpandSpec SgGen SgGenSpec SgGenExamples NamesModel NamesSpec NamesProofs.
Local Open Scope string_scope.

Definition anon_c (local : string) (els : list element) (ats : list attribute) : complexT := mkComplex "" (mkName "urn:a" local) (TB 0) true els ats false false false.
Definition anon_s (local : string) (base : ty) (enum : list string) : sdef := mkSdef (mkName "urn:a" local) base [] false true "" enum None 0 0 0 "".

(* a car has an engine and a kind, both of anonymous types *)
Definition garage : store :=
  [DC (ct_of "Car" (TB 0) [el_of "engine" (TPtr 1); el_of "doors" (TB 28)] [at_of "kind" (TPtr 2)] false);
   DC (anon_c "_anon1" [] [at_of "power" (TB 28)]); DS (anon_s "_anon2" (TB 38) ["small"; "large"])].
Definition garage_types : list ty := [TPtr 0; TPtr 1; TPtr 2].
Definition garage_rank (i : nat) : nat := match i with 0 => 1 | _ => 0 end.
Definition named_garage : store :=
  [DC (ct_of "Car" (TB 0) [el_of "engine" (TPtr 1); el_of "doors" (TB 28)] [at_of "kind" (TPtr 2)] false);
   DC (ct_of "engine" (TB 0) [] [at_of "power" (TB 28)] false);
   DS (mkSdef (mkName "urn:a" "kind") (TB 38) [] false false "" ["small"; "large"] None 0 0 0 "")].
Example garage_named : use_all garage garage_types garage_types = Ret named_garage.
Proof. reflexivity. Qed.
Lemma garage_called n k : called garage garage_types n k -> (n = mkName "urn:a" "engine" /\ k = 1) \/ (n = mkName "urn:a" "kind" /\ k = 2) \/ (n = mkName "urn:a" "power" /\ False).
Proof.
  intros [(i & c & e & _ & Hc & I & <- & T)|(i & c & e & _ & Hc & I & <- & T)]; (destruct i as [|[|[|[|i]]]]; cbn in Hc; try discriminate; injection Hc as <-; cbn in I;
    repeat match goal with X : _ \/ _ |- _ => destruct X as [X|X] end; subst; try contradiction; try discriminate; cbn in T; try discriminate; injection T as <-; auto).
Qed.
Lemma b_name_space b l : b_name b <> mkName "urn:a" l.
Proof. unfold b_name. destruct (memb b upper_names); [discriminate|]. destruct (memb b xml_names); discriminate. Qed.
Lemma garage_unused : names_unused garage garage_types.
Proof.
  intros k n (d & Hk & An) C. assert (X : forall n' k', called garage garage_types n' k' -> (n' = mkName "urn:a" "engine" /\ k' = 1) \/ (n' = mkName "urn:a" "kind" /\ k' = 2)).
  { intros n' k' C'. destruct (garage_called n' k' C') as [E|[E|[_ []]]]; auto. }
  split; [intros n' C'; destruct (X _ _ C) as [[-> ->]|[-> ->]], (X _ _ C') as [[-> E]|[-> E]]; congruence|]. split; [intros k' _ C'; destruct (X _ _ C) as [[-> ->]|[-> ->]], (X _ _ C') as [[E ->]|[E ->]]; congruence|].
  split; [|intros b; destruct (X _ _ C) as [[-> _]|[-> _]]; apply b_name_space]. intros j e Hj. destruct (X _ _ C) as [[-> _]|[-> _]]; (destruct j as [|[|[|[|j]]]]; cbn in Hj; try discriminate; injection Hj as <-; discriminate).
Qed.
Lemma garage_one_name : one_name garage garage_types garage_types.
Proof.
  intros k n An C. destruct (garage_unused k n An C) as (U1 & U2 & U3 & _). split; [exact U1|]. intros _. split; [|exact U2]. intros t It. destruct It as [<-|[<-|[<-|[]]]]; cbn [type_name]; (destruct (nth_error garage _) as [d|] eqn:E; [|discriminate]); cbn [option_map]; specialize (U3 _ _ E); congruence.
Qed.
Lemma garage_generable : generable garage_rank garage /\ forall i, garage_rank i <= N.to_nat 1000.
Proof. split; [apply (generableb_ok 4); vm_compute; reflexivity|]. intros [|i]; cbn [garage_rank]; lia. Qed.
Lemma garage_anon : is_anon garage 1 /\ called garage garage_types (mkName "urn:a" "engine") 1 /\ is_anon garage 2 /\ called garage garage_types (mkName "urn:a" "kind") 2.
Proof.
  split; [eexists; split; reflexivity|]. split; [left; eexists 0, _, _; split; [left; reflexivity|]; split; [reflexivity|]; split; [left; reflexivity|]; split; reflexivity|].
  split; [eexists; split; reflexivity|]. right. eexists 0, _, _. split; [left; reflexivity|]. split; [reflexivity|]. split; [left; reflexivity|]. split; reflexivity.
Qed.

(* two types with an element of the same name: the first that is looked at gives its name *)
Definition two : store :=
  [DC (ct_of "Car" (TB 0) [el_of "engine" (TPtr 2)] [] false); DC (ct_of "Truck" (TB 0) [el_of "engine" (TPtr 3)] [] false);
   DC (anon_c "_anon1" [] [at_of "power" (TB 28)]); DC (anon_c "_anon2" [] [at_of "axles" (TB 28)])].
Definition two_types : list ty := [TPtr 0; TPtr 1; TPtr 2; TPtr 3].
Lemma depends : exists l l' st1 st2, Permutation.Permutation l l' /\ use_all two l l = Ret st1 /\ use_all two l l' = Ret st2 /\
  map (fun d => nlocal (def_name d)) st1 = ["Car"; "Truck"; "engine"; "_anon2"] /\ map (fun d => nlocal (def_name d)) st2 = ["Car"; "Truck"; "_anon1"; "engine"].
Proof. exists two_types, [TPtr 1; TPtr 0; TPtr 2; TPtr 3]. eexists. eexists. split; [apply Permutation.perm_swap|]. split; [reflexivity|]. split; [reflexivity|]. split; reflexivity. Qed.
Example two_left : exists st', use_all two two_types two_types = Ret st' /\ is_anon st' 3 /\ elem_called two two_types (mkName "urn:a" "engine") 3.
Proof. eexists. split; [reflexivity|]. split; [eexists; split; reflexivity|]. eexists 1, _, _. split; [right; left; reflexivity|]. split; [reflexivity|]. split; [left; reflexivity|]. split; reflexivity. Qed.

(* two types with an attribute of the same name and different simple types: one is lost *)
Definition kinds : store :=
  [DC (ct_of "Car" (TB 0) [] [at_of "kind" (TPtr 2)] false); DC (ct_of "Truck" (TB 0) [] [at_of "kind" (TPtr 3)] false);
   DS (anon_s "_anon1" (TB 38) ["small"; "large"]); DS (anon_s "_anon2" (TB 28) ["1"; "2"])].
Definition kinds_rank (i : nat) : nat := match i with 0 | 1 => 1 | _ => 0 end.
Definition declarations (r : run (list xname + code)) : list (string * list string) :=
  match r with Ret (inr c) => map (fun p => (fst p, spec_ids (snd p))) (co_decls c) | _ => [] end.
Lemma clash : exists st', (generable kinds_rank kinds /\ forall i, kinds_rank i <= N.to_nat 1000) /\ use_all kinds two_types two_types = Ret st' /\
  declarations (gen pub None None None None all_helpers false kinds [two_types]) = [("_anon1", ["string"]); ("Car", ["_anon1"]); ("_anon2", ["int"]); ("Truck", ["_anon2"])] /\
  declarations (gen pub None None None None all_helpers false st' [two_types]) = [("kind", ["string"]); ("Car", ["kind"]); ("Truck", ["kind"])] /\
  declarations (gen pub None None None None all_helpers false st' [[TPtr 1; TPtr 0; TPtr 2; TPtr 3]]) = [("kind", ["int"]); ("Truck", ["kind"]); ("Car", ["kind"])].
Proof.
  eexists. split; [split; [apply (generableb_ok 4); vm_compute; reflexivity|intros [|[|i]]; cbn [kinds_rank]; lia]|]. split; [reflexivity|]. split; [vm_compute; reflexivity|]. split; vm_compute; reflexivity.
Qed.
