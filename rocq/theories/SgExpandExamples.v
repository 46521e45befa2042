(* Inheritance: cases and counterexamples. *)
From Verif Require Import Base SortLib ScopeModel TreeModel EqualModel BuiltinModel XsdModel XsdProofs TypesModel TypesSpec TypesProofs GraphModel GraphSpec GenModel SgModel SgExamples SgFlat SgFlatSpec SgFlatten SgFlatExamples SgExpandSpec SgExpand SgExpandFields.
Local Open Scope string_scope.

Definition xmlXSD := "http://www.w3.org/2009/01/xml.xsd".
Lemma builtin_space b : nspace (b_name b) = schemaNS \/ nspace (b_name b) = xmlXSD.
Proof. unfold b_name. destruct (memb b upper_names); [left; reflexivity|]. destruct (memb b xml_names); [right|left]; reflexivity. Qed.
(* no two types called alike, and none in the namespaces of the Builtins *)
Fixpoint distinct (l : list xname) : bool := match l with [] => true | n :: l' => (negb (mem_name n l') && distinct l')%bool end.
Lemma distinct_ok l : distinct l = true -> NoDup l.
Proof.
  induction l as [|n l IH]; cbn [distinct]; intros H; [constructor|]. apply andb_true_iff in H as [H1 H2]. constructor; [|exact (IH H2)]. intros Hn. apply negb_true_iff in H1.
  assert (mem_name n l = true); [|congruence]. apply existsb_exists. exists n. split; [exact Hn|]. apply xname_eqb_eq. reflexivity.
Qed.
Definition apartb (st : store) : bool :=
  (distinct (map def_name st) && forallb (fun d => negb (String.eqb (nspace (def_name d)) schemaNS) && negb (String.eqb (nspace (def_name d)) xmlXSD)) st)%bool.
Lemma apartb_ok st : apartb st = true -> apart st.
Proof.
  intros H. apply andb_true_iff in H as [H1 H2]. apply distinct_ok in H1. rewrite forallb_forall in H2. intros i d t Hi Ht. destruct t as [|b|n|j]; auto.
  - cbn [type_name] in Ht. injection Ht as Ht. specialize (H2 d (nth_error_In _ _ Hi)). rewrite <- Ht in H2. apply andb_true_iff in H2 as [X Y]. destruct (builtin_space b) as [E|E]; rewrite E in *; [vm_compute in X|vm_compute in Y]; discriminate.
  - cbn [type_name] in Ht. destruct (nth_error st j) as [dj|] eqn:Ej; [|discriminate]. injection Ht as Ht. apply (proj1 (NoDup_nth_error (map def_name st)) H1).
    + rewrite map_length. apply nth_error_Some. congruence.
    + rewrite !nth_error_map, Ej, Hi. cbn. congruence.
Qed.

(* ---------- a hierarchy ---------- *)
(* Sport extends Car, which has its own note, and Car extends Vehicle; Fleet is not derived *)
Definition sports : store :=
  [DC (ct_of "Sport" (TPtr 1) [el_of "turbo" (TB 38)] [at_of "id" (TB 28)] false);
   DC (ct_of "Car" (TPtr 2) [el_of "note" (TB 28); el_of "doors" (TB 38)] [at_of "plate" (TB 38)] false);
   DC (ct_of "Vehicle" (TB 0) [el_of "wheels" (TB 38); el_of "note" (TB 38)] [at_of "id" (TB 38); at_of "year" (TB 38)] false);
   DC (ct_of "Fleet" (TB 0) [el_of "car" (TPtr 1)] [] false)].
Definition sport_types : list ty := [TPtr 0; TPtr 3].
Lemma sports_ok : rooted sports /\ apart sports /\ NoDup sport_types /\ forall t, In t sport_types -> known sports t.
Proof.
  split; [apply complete_rooted, (completeb_ok 5); reflexivity|]. split; [apply apartb_ok; reflexivity|]. split.
  - constructor; [intros [X|[]]; discriminate|]. constructor; [intros []|constructor].
  - intros t H. apply knownb_ok. revert t H. apply forallb_forall. reflexivity.
Qed.
Lemma sports_expanded : match expand_types sports sport_types with Ret st => (fields_at st 0, fields_at st 1, fields_at st 2, fields_at st 3) | _ => ([], [], [], []) end =
  ([("wheels", TB 38); ("note", TB 28); ("doors", TB 38); ("turbo", TB 38); ("id", TB 28); ("plate", TB 38); ("year", TB 38)],
   [("wheels", TB 38); ("note", TB 28); ("doors", TB 38); ("plate", TB 38); ("id", TB 38); ("year", TB 38)],
   [("wheels", TB 38); ("note", TB 38); ("id", TB 38); ("year", TB 38)], [("car", TPtr 1)]).
Proof. vm_compute. reflexivity. Qed.
Lemma sports_derive : derives sports 0 1 /\ derives sports 1 2 /\ (forall j, ~ derives sports 2 j) /\ wanted sports sport_types 1.
Proof.
  split; [exists (ct_of "Sport" (TPtr 1) [el_of "turbo" (TB 38)] [at_of "id" (TB 28)] false); repeat split; eexists; reflexivity|].
  split; [eexists; split; [reflexivity|]; split; [reflexivity|eexists; reflexivity]|]. split.
  - intros j [c [H1 [H2 _]]]. injection H1 as <-. discriminate.
  - exists (TPtr 0). split; [left; reflexivity|]. apply an_base; [discriminate|constructor].
Qed.

(* ---------- two types of one name ---------- *)
(* C extends B, B extends A; another type is called B too *)
Definition ghost : store :=
  [DC (ct_of "A" (TB 0) [el_of "x" (TB 38)] [] false); DC (ct_of "B" (TPtr 0) [el_of "y" (TB 38)] [] false);
   DC (ct_of "B" (TB 0) [] [] false); DC (ct_of "C" (TPtr 1) [el_of "z" (TB 38)] [] false)].
Lemma ghost_lost : rooted ghost /\ exists st l es ats, (l = [TPtr 3; TPtr 2]) /\ expand_types ghost l = Ret st /\ inherits ghost 3 es ats /\
  map (fun e => nlocal (el_name e)) es = ["x"; "y"; "z"] /\ fields_at st 3 = [("y", TB 38); ("z", TB 38)].
Proof.
  split; [apply complete_rooted, (completeb_ok 5); reflexivity|]. eexists. eexists. do 2 eexists. split; [reflexivity|]. split; [vm_compute; reflexivity|]. split.
  - eapply (inh_derived ghost 3 1); [reflexivity|eexists; split; [reflexivity|]; split; [reflexivity|eexists; reflexivity]|].
    eapply (inh_derived ghost 1 0); [reflexivity|eexists; split; [reflexivity|]; split; [reflexivity|eexists; reflexivity]|].
    apply inh_root; [reflexivity|]. intros j [c [H1 [H2 _]]]. injection H1 as <-. discriminate.
  - split; reflexivity.
Qed.

(* ---------- types derived from each other ---------- *)
Definition ring : store := [DC (ct_of "A" (TPtr 1) [] [] false); DC (ct_of "B" (TPtr 0) [] [] false)].
Lemma ring_loops : forall f s, add_bases f ring (TPtr 0) s = Loops /\ add_bases f ring (TPtr 1) s = Loops.
Proof.
  induction f as [|f IH]; intros s; [split; reflexivity|]. split; cbn [add_bases ring type_name base_of nth_error option_map def_base ct_of ct_base].
  - exact (proj2 (IH _)).
  - exact (proj1 (IH _)).
Qed.
(* ---------- restrictions ---------- *)
(* Plain restricts Vehicle to its wheels *)
Definition plain_v : complexT := ct_of "Plain" (TPtr 1) [el_of "wheels" (TB 38)] [] false.
Definition narrow : store := [DC plain_v; DC (ct_of "Vehicle" (TB 0) [el_of "wheels" (TB 38); el_of "note" (TB 38)] [] false)].
Lemma narrow_wide : rooted narrow /\ apart narrow /\ ct_extends plain_v = false /\ exists st, expand_types narrow [TPtr 0] = Ret st /\ fields_at narrow 0 = [("wheels", TB 38)] /\ fields_at st 0 = [("note", TB 38); ("wheels", TB 38)].
Proof.
  split; [apply complete_rooted, (completeb_ok 5); reflexivity|]. split; [apply apartb_ok; reflexivity|]. split; [reflexivity|]. eexists. split; [vm_compute; reflexivity|]. split; reflexivity.
Qed.
