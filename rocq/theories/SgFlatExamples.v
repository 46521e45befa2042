(* Flattening: cases and counterexamples. *)
From Coq Require Import Permutation.
From Verif Require Import Base SortLib ScopeModel TreeModel EqualModel Utf8 Decimal BuiltinModel CodecModel XsdModel XsdProofs TypesModel TypesSpec TypesProofs NormAttr GraphModel GenModel SgModel SgProofs SgNames SgExamples SgFlat SgClosed SgFlatSpec SgFlatten.
Local Open Scope string_scope.

(* deciding complete and ranked for a given store *)
Fixpoint leads (fuel : nat) (st : store) (t : ty) : option Z :=
  match t with TB b => Some b | TPtr _ => match fuel with 0 => None | S f => leads f st (base_of st t) end | _ => None end.
Lemma leads_ok st : forall fuel t b, leads fuel st t = Some b -> ancestor st t (TB b).
Proof.
  induction fuel as [|f IH]; intros t b; destruct t as [|x|n|i]; cbn [leads]; try discriminate; try (intros [= ->]; constructor).
  intros H. apply an_base; [|exact (IH _ _ H)]. intros E. rewrite E in H. destruct f; discriminate.
Qed.
Definition knownb (st : store) (t : ty) : bool := match t with TB _ => true | TPtr j => Nat.ltb j (List.length st) | _ => false end.
Lemma knownb_ok st t : knownb st t = true -> known st t.
Proof. destruct t; cbn [knownb known]; try discriminate; auto. apply Nat.ltb_lt. Qed.
Definition completeb (fuel : nat) (st : store) : bool :=
  forallb (fun id => match leads fuel st (TPtr (fst id)) with Some _ => forallb (knownb st) (uses (snd id)) | None => false end) (combine (seq 0 (List.length st)) st).
Lemma combine_nth {A} (l : list A) : forall n i d, nth_error l i = Some d -> In (n + i, d) (combine (seq n (List.length l)) l).
Proof.
  induction l as [|x l IH]; intros n i d H; [destruct i; discriminate|]. cbn [List.length seq combine]. destruct i as [|i]; cbn [nth_error] in H.
  - injection H as <-. left. f_equal. lia.
  - right. replace (n + S i) with (S n + i) by lia. exact (IH (S n) i d H).
Qed.
Lemma completeb_ok fuel st : completeb fuel st = true -> complete st.
Proof.
  intros H i d E. unfold completeb in H. rewrite forallb_forall in H. specialize (H _ (combine_nth st 0 i d E)). cbn [fst snd Nat.add] in H.
  destruct (leads fuel st (TPtr i)) as [b|] eqn:L; [|discriminate]. split; [exists b; exact (leads_ok _ _ _ _ L)|]. intros u Hu. rewrite forallb_forall in H. apply knownb_ok, H, Hu.
Qed.
Definition rankedb (h : nat -> nat) (st : store) : bool :=
  forallb (fun id => forallb (fun u => match u with TPtr j => Nat.ltb (h j) (h (fst id)) | _ => true end) (uses (snd id))) (combine (seq 0 (List.length st)) st).
Lemma rankedb_ok h st : rankedb h st = true -> ranked h st.
Proof.
  intros H i d j E Hj. unfold rankedb in H. rewrite forallb_forall in H. specialize (H _ (combine_nth st 0 i d E)). cbn [fst snd Nat.add] in H. rewrite forallb_forall in H. specialize (H _ Hj). apply Nat.ltb_lt. exact H.
Qed.

(* ---------- a schema ---------- *)
Definition enum_of (local : string) (base : ty) (values : list string) : sdef := mkSdef (mkName "urn:a" local) base [] false false "" values None 0 0 0 "".
(* Color: enumeration of Name; Name: plain string; Note: text of type Name and no attributes; Car has
   elements of these types; Truck extends Car *)
Definition cars : store :=
  [DS (enum_of "Color" (TPtr 1) ["red"; "blue"]); DS (simple_of "Name" (TB 38)); DC (ct_of "Note" (TPtr 1) [] [] true);
   DC (ct_of "Car" (TB 0) [el_of "color" (TPtr 0); el_of "owner" (TPtr 1); el_of "note" (TPtr 2)] [at_of "id" (TPtr 1)] false);
   DC (ct_of "Truck" (TPtr 3) [el_of "trailer" (TPtr 3)] [] false)].
Definition car_types : list ty := [TPtr 4; TPtr 2; TPtr 0; TPtr 3; TPtr 1].
Definition car_rank (i : nat) : nat := match i with 0 => 1 | 1 => 0 | 2 => 1 | 3 => 2 | _ => 3 end.
Lemma cars_complete : complete cars.
Proof. apply (completeb_ok 5). reflexivity. Qed.
Lemma cars_ranked : ranked car_rank cars /\ forall i, car_rank i <= N.to_nat 1000.
Proof. split; [apply rankedb_ok; reflexivity|]. intros i. do 5 (destruct i as [|i]; [cbn [car_rank]; lia|]). cbn [car_rank]. lia. Qed.
Lemma cars_known : forall t, In t car_types -> known cars t.
Proof. intros t H. apply knownb_ok. revert t H. apply forallb_forall. reflexivity. Qed.
Definition fields_at (st : store) (i : nat) : list (string * ty) :=
  match nth_error st i with Some (DC c) => (map (fun e => (nlocal (el_name e), el_type e)) (ct_elems c) ++ map (fun a => (nlocal (at_name a), at_type a)) (ct_attrs c))%list | _ => [] end.
Definition bases (st : store) : list ty := map def_base st.
Lemma cars_flat : match flatten_types None None None cars car_types with
  | Ret (st, l) => (l, fields_at st 3, fields_at st 4, bases st)
  | _ => ([], [], [], []) end =
  ([TPtr 1; TPtr 0; TB 38; TPtr 3; TPtr 4],
   [("color", TPtr 0); ("owner", TB 38); ("note", TB 38); ("id", TB 38)], [("trailer", TPtr 3)], [TB 38; TB 38; TPtr 1; TB 0; TPtr 3]).
Proof. vm_compute. reflexivity. Qed.

(* ---------- a list type is forgotten ---------- *)
Definition list_of (local : string) (base : ty) : sdef := mkSdef (mkName "urn:a" local) base [] true false "" [] None 0 0 0 "".
(* Sizes is a list of integers, Widths restricts it and T has an element of each *)
Definition ints : store := [DS (list_of "Sizes" (TB 28)); DS (simple_of "Widths" (TPtr 0)); DC (ct_of "T" (TB 0) [el_of "sizes" (TPtr 0); el_of "widths" (TPtr 1)] [] false)].
Lemma list_lost : exists st l st', complete st /\ flatten_types None None None st [TPtr 2] = Ret (st', l) /\
  (exists s, nth_error st 0 = Some (DS s) /\ sd_list s = true) /\ ancestor st (TPtr 1) (TPtr 0) /\
  fields_at st 2 = [("sizes", TPtr 0); ("widths", TPtr 1)] /\ fields_at st' 2 = [("sizes", TPtr 0); ("widths", TB 28)].
Proof.
  exists ints. eexists. eexists. split; [apply (completeb_ok 5); reflexivity|]. split; [vm_compute; reflexivity|]. split; [eexists; split; reflexivity|].
  split; [apply an_base; [discriminate|constructor]|]. split; reflexivity.
Qed.

(* ---------- types that contain themselves ---------- *)
(* T1 has an element of type T2, which has one of type T1 and one of type X; X is text of the plain
   type S *)
Definition knot : store :=
  [DC (ct_of "T1" (TB 0) [el_of "t2" (TPtr 1)] [] false); DC (ct_of "T2" (TB 0) [el_of "t1" (TPtr 0); el_of "x" (TPtr 2)] [] false);
   DC (ct_of "X" (TPtr 3) [] [] true); DS (simple_of "S" (TB 38))].
Definition knot_types : list ty := [TPtr 1; TPtr 0; TPtr 2; TPtr 3].
Lemma knot_complete : complete knot.
Proof. apply (completeb_ok 5). reflexivity. Qed.
Notation knot_end := (flatten_types None None None knot knot_types).
Lemma knot_flat : match knot_end with Ret (st, l) => (l, bases st) | _ => ([], []) end = ([TPtr 0; TPtr 2; TPtr 1; TB 38], [TB 0; TB 0; TPtr 3; TB 38]).
Proof. vm_compute. reflexivity. Qed.

(* a type with two elements of its own type: every level doubles the work *)
Definition twice_c := ct_of "T" (TB 0) [el_of "left" (TPtr 0); el_of "right" (TPtr 0)] [] false.
Definition twice : store := [DC twice_c].
Lemma twice_doubles fa : forall k, exists p, flatten1 fa k twice (TPtr 0) = Ret (twice, p, TPtr 0) /\ N.of_nat (List.length p) = (2 ^ N.of_nat (S k) - 2)%N.
Proof.
  induction k as [|k [p [E L]]]; [exists []; split; reflexivity|].
  exists (([] ++ p ++ [TPtr 0]) ++ p ++ [TPtr 0])%list. split.
  - assert (G : get_c twice 0 = Some twice_c) by reflexivity.
    assert (V : forall s q, In s [SE 0; SE 1] -> visit (flatten1 fa k) 0 (twice, q) s = Ret (twice, (q ++ p ++ [TPtr 0])%list)).
    { intros s q Hs. unfold visit. rewrite G. assert (Es : slot_ty twice_c s = Some (TPtr 0) /\ put_c twice 0 (slot_set twice_c s (TPtr 0)) = twice) by (destruct Hs as [<-|[<-|[]]]; split; reflexivity).
      destruct Es as [E1 E2]. rewrite E1, E. cbn [andthen]. rewrite G, E2. reflexivity. }
    cbn [flatten1]. change (nth_error twice 0) with (Some (DC twice_c)). cbn beta iota. change (unpacks fa twice twice_c) with false. change (slots twice_c) with [SE 0; SE 1]. cbn beta iota.
    cbn [foldr].
    rewrite V by (left; reflexivity). cbn [andthen]. rewrite V by (right; left; reflexivity). cbn [andthen]. rewrite G. change (ct_base twice_c) with (TB 0).
    assert (Eb : flatten1 fa k twice (TB 0) = Ret (twice, [], TB 0)) by (destruct k; reflexivity). rewrite Eb. cbn [andthen]. rewrite G.
    change (ct_mixed (set_base twice_c (TB 0))) with false. change (put_c twice 0 (set_base twice_c (TB 0))) with twice. cbn [app]. rewrite app_nil_r. reflexivity.
  - cbn [app]. rewrite !app_length. cbn [List.length]. rewrite (Nat2N.inj_succ (S k)), N.pow_succ_r'. assert (2 <= 2 ^ N.of_nat (S k))%N by (rewrite Nat2N.inj_succ, N.pow_succ_r'; pose proof (N.pow_nonzero 2 (N.of_nat k)); lia). lia.
Qed.

(* ---------- the order of the types matters ---------- *)
(* B is text and no attributes, C extends B, X has an element of type C *)
Definition heirs : store := [DC (ct_of "B" (TB 38) [] [] true); DC (ct_of "C" (TPtr 0) [] [] true); DC (ct_of "X" (TB 0) [el_of "c" (TPtr 1)] [] false)].
Lemma heirs_differ : match flatten_types None None None heirs [TPtr 0; TPtr 1; TPtr 2], flatten_types None None None heirs [TPtr 2; TPtr 1; TPtr 0] with
  | Ret (st, l), Ret (st', l') => (fields_at st 2, fields_at st' 2) | _, _ => ([], []) end = ([("c", TB 38)], [("c", TPtr 1)]).
Proof. vm_compute. reflexivity. Qed.
Lemma by_name l : forall a t, filtered (Some (ignore_attributes l)) (retype_at a t) = filtered (Some (ignore_attributes l)) a.
Proof. reflexivity. Qed.
Definition knot_store : store := Eval vm_compute in match knot_end with Ret (st, _) => st | _ => [] end.
Lemma knot_run : knot_end = Ret (knot_store, [TPtr 0; TPtr 2; TPtr 1; TB 38]).
Proof. vm_compute. reflexivity. Qed.
Lemma knot_open : exists st l c, knot_end = Ret (st, l) /\ In (TPtr 2) l /\ nth_error st 2 = Some (DC c) /\ ct_mixed c = true /\ ~ listed st l (ct_base c).
Proof.
  exists knot_store, [TPtr 0; TPtr 2; TPtr 1; TB 38]. eexists. split; [exact knot_run|]. split; [right; left; reflexivity|]. split; [reflexivity|]. split; [reflexivity|].
  intros [w [Hw Hn]]. revert Hn. destruct Hw as [<-|[<-|[<-|[<-|[]]]]]; vm_compute; discriminate.
Qed.
Lemma heirs_orders : exists st l st' l', flatten_types None None None heirs [TPtr 0; TPtr 1; TPtr 2] = Ret (st, l) /\ flatten_types None None None heirs [TPtr 2; TPtr 1; TPtr 0] = Ret (st', l') /\
  fields_at st 2 = [("c", TB 38)] /\ fields_at st' 2 = [("c", TPtr 1)].
Proof. do 4 eexists. split; [vm_compute; reflexivity|]. split; [vm_compute; reflexivity|]. split; reflexivity. Qed.
Lemma heirs_complete : complete heirs /\ ranked (fun i => i) heirs.
Proof. split; [apply (completeb_ok 5); reflexivity|apply rankedb_ok; reflexivity]. Qed.
Lemma heirs_permuted : exists types types' st l st' l', Permutation types types' /\
  flatten_types None None None heirs types = Ret (st, l) /\ flatten_types None None None heirs types' = Ret (st', l') /\
  fields_at st 2 = [("c", TB 38)] /\ fields_at st' 2 = [("c", TPtr 1)].
Proof. destruct heirs_orders as [a [b [c [d H]]]]. exists [TPtr 0; TPtr 1; TPtr 2], [TPtr 2; TPtr 1; TPtr 0], a, b, c, d. split; [exact (Permutation_rev [TPtr 0; TPtr 1; TPtr 2])|exact H]. Qed.
Lemma twice_complete : complete twice.
Proof. apply (completeb_ok 5). reflexivity. Qed.
Lemma twice_ten : match flatten1 None 10 twice (TPtr 0) with Ret (_, p, _) => List.length p | _ => 0 end = 2046.
Proof. vm_compute. reflexivity. Qed.
