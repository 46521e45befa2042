(* Unpacking groups. The memory may share arrays, as it does after references are resolved. *)
From Verif Require Import Base ScopeModel TreeModel TreeSpec TreeProofs BuiltinModel XsdModel XsdProofs NormModel NormMem NormOps NormPath NormAttr NormSpec NormDefaults.
Local Open Scope string_scope.

Lemma ptr_eq_dec (p q : ptr) : {p = q} + {p <> q}.
Proof. decide equality; apply Nat.eq_dec. Qed.
Lemma flat_map_ext_in' {A B} (f g : A -> list B) l : (forall a, In a l -> f a = g a) -> flat_map f l = flat_map g l.
Proof. induction l as [|a l IH]; intros H; cbn [flat_map]; auto. rewrite (H a (or_introl eq_refl)), IH; auto. intros b Hb. apply H. right. auto. Qed.
Definition new_kids (h : heap) (y : node) : list node := flat_map (fun c => if is_group c then kids h c else [c]) (kids h y).
Definition opened (h H : heap) (q : ptr) : Prop :=
  exists y a l, load h q = Some y /\ load H q = Some (with_kids y a (List.length (new_kids h y))) /\ List.length h <= a /\ nth_error H a = Some (Els l) /\
    List.length (new_kids h y) <= List.length l /\ firstn (List.length (new_kids h y)) l = new_kids h y.
Definition opening (h H : heap) : Prop :=
  List.length h <= List.length H /\
  (forall a l, nth_error h a = Some (Ats l) -> nth_error H a = Some (Ats l)) /\
  (forall a l, nth_error h a = Some (Els l) -> exists l', nth_error H a = Some (Els l') /\ List.length l' = List.length l) /\
  (forall q y, load h q = Some y -> load H q = Some y \/ (existsb is_group (kids h y) = true /\ opened h H q)).

Lemma opening_refl h : opening h h.
Proof. split; [auto|]. split; [auto|]. split; [eauto|auto]. Qed.
Lemma rep_group h d y : rep h d y -> group_el d = is_group y.
Proof. intros R. unfold group_el, is_group. rewrite !(rep_is h d y _ R). reflexivity. Qed.
Lemma reps_group h ks ys : Forall2 (rep h) ks ys -> existsb group_el ks = existsb is_group ys.
Proof. induction 1 as [|k y ks ys R B IH]; cbn [existsb]; auto. rewrite IH, (rep_group h k y R). reflexivity. Qed.
Lemma rep_has_groups h d y : rep h d y -> has_groups d = existsb is_group (kids h y).
Proof. intros R. unfold has_groups. apply rep_eq in R. destruct R as (_ & _ & _ & _ & _ & B). exact (reps_group h _ _ B). Qed.

Lemma kids_at h y j c : kids_ok h y -> nth_error (kids h y) j = Some c -> load h (n_arr y, j) = Some c.
Proof.
  intros (l & E & Hl) H. unfold kids, load, cells in *. cbn [fst snd]. rewrite E in *.
  assert (Hj : j < n_len y). { assert (j < List.length (firstn (n_len y) l)) by (apply nth_error_Some; congruence). rewrite firstn_length_le in H0; auto. }
  rewrite <- H. clear -Hj. revert j Hj. generalize (n_len y). induction l as [|z l IH]; intros [|n] [|j] Hj; cbn [firstn nth_error]; auto; try lia. apply IH. lia.
Qed.
Lemma kids_eq h H y : kids_ok h y -> kids_ok H y -> (forall j c, nth_error (kids h y) j = Some c -> load H (n_arr y, j) = Some c) -> kids H y = kids h y.
Proof.
  intros K1 K2 F. apply nth_ext with (d := zero_node) (d' := zero_node); [rewrite !kids_length; auto|].
  intros j Hj. rewrite (kids_length H y K2) in Hj. rewrite <- (kids_length h y K1) in Hj. destruct (nth_error (kids h y) j) as [c|] eqn:E; [|apply nth_error_None in E; lia].
  rewrite (nth_error_nth _ _ _ E). apply nth_error_nth. specialize (F j c E). destruct K2 as (l & E2 & L2). rewrite kids_length in Hj by auto.
  rewrite <- F. unfold kids, load, cells. cbn [fst snd]. rewrite E2. clear -Hj. revert j Hj. generalize (n_len y). induction l as [|z l IH]; intros [|n] [|j] Hj; cbn [firstn nth_error]; auto; try lia. apply IH. lia.
Qed.
Lemma opening_kids_ok h H y : opening h H -> kids_ok h y -> kids_ok H y.
Proof. intros (_ & _ & O & _) (l & E & L). destruct (O _ _ E) as (l' & E' & L'). exists l'. split; auto. lia. Qed.
Lemma opening_kids h H d y : opening h H -> rep h d y -> (forall k, In k (e_children d) -> has_groups k = false) -> kids H y = kids h y.
Proof.
  intros O R Hk. pose proof R as R'. apply rep_eq in R'. destruct R' as (_ & _ & _ & _ & K & B). apply kids_eq; auto; [eapply opening_kids_ok; eauto|].
  intros j c E. pose proof (kids_at h y j c K E) as L. destruct O as (_ & _ & _ & O). destruct (O _ _ L) as [L'|[G _]]; auto.
  exfalso. assert (Hj : j < List.length (e_children d)) by (rewrite (Forall2_len _ _ _ B); apply nth_error_Some; congruence).
  destruct (nth_error (e_children d) j) as [k|] eqn:Ek; [|apply nth_error_None in Ek; lia].
  destruct (rep_kid h d y j k R Ek) as (c' & E1 & R1 & _). assert (c' = c) by congruence. subst c'.
  rewrite <- (rep_has_groups h k c R1) in G. rewrite Hk in G; [discriminate|]. eapply nth_error_In; eauto.
Qed.

Section Growing.
  Variable grow : nat -> nat -> nat.
  Notation unpack_one := (unpack_one grow).
  (* what is needed of an element that has groups *)
  Definition spaced (d : elem) : Prop := forall k, In k (e_children d) -> has_groups k = false /\ (group_el k = true -> forall k', In k' (e_children k) -> has_groups k' = false).

  Lemma flat_map_id (H : heap) l : existsb is_group l = false -> flat_map (fun c => if is_group c then kids H c else [c]) l = l.
  Proof. induction l as [|c l IH]; cbn [existsb flat_map]; auto. intros E. apply orb_false_iff in E. destruct E as [E1 E2]. rewrite E1, IH; auto. Qed.
  Lemma unpack_step h H q y d : opening h H -> load h q = Some y -> rep h d y -> has_groups d = true -> spaced d ->
    opening h (unpack_one H q) /\ opened h (unpack_one H q) q /\ (forall q', opened h H q' -> opened h (unpack_one H q) q').
  Proof.
    intros O L R G Sp. set (new := new_kids h y). pose proof R as R'. apply rep_eq in R'. destruct R' as (_ & _ & _ & _ & K & B).
    (* none of the new children is a group *)
    assert (Hng : existsb is_group new = false).
    { unfold new, new_kids. clear -Sp B R. assert (G : forall ks ys, Forall2 (rep h) ks ys -> (forall k, In k ks -> has_groups k = false) -> existsb is_group (flat_map (fun c => if is_group c then kids h c else [c]) ys) = false).
      { induction 1 as [|k z ks ys Rk B' IH]; intros Hk; cbn [flat_map existsb]; auto. rewrite existsb_app, IH by (intros k' Hk'; apply Hk; right; auto).
        rewrite orb_false_r. destruct (is_group z) eqn:Ez; [rewrite <- (rep_has_groups h k z Rk); apply Hk; left; auto|]. cbn [existsb]. rewrite Ez. reflexivity. }
      apply (G _ _ B). intros k Hk. apply Sp. exact Hk. }
    (* the present node of q, and its new children *)
    assert (Hel : exists el, load H q = Some el /\ (forall a n, with_kids el a n = with_kids y a n) /\ flat_map (fun c => if is_group c then kids H c else [c]) (kids H el) = new).
    { pose proof O as (O1 & O2 & O3 & O4). destruct (O4 q y L) as [L'|[_ (y' & a & l & A1 & A2 & A3 & A4 & A5 & A6)]].
      - exists y. split; [auto|]. split; [auto|]. rewrite (opening_kids h H d y O R) by (intros k Hk; apply Sp; auto).
        unfold new, new_kids. apply flat_map_ext_in'. intros c Hc. destruct (is_group c) eqn:Ec; auto.
        apply In_nth_error in Hc. destruct Hc as (j & Hj). assert (Hl : j < List.length (e_children d)) by (rewrite (Forall2_len _ _ _ B); apply nth_error_Some; congruence).
        destruct (nth_error (e_children d) j) as [k|] eqn:Ek; [|apply nth_error_None in Ek; lia].
        destruct (rep_kid h d y j k R Ek) as (c' & E1 & R1 & _). assert (c' = c) by congruence. subst c'. apply (opening_kids h H k c O R1).
        apply (Sp k); [eapply nth_error_In; eauto|]. rewrite (rep_group h k c R1). exact Ec.
      - assert (y' = y) by congruence. subst y'. fold new in A2, A5, A6. exists (with_kids y a (List.length new)). split; [auto|]. split; [auto|].
        assert (Ek : kids H (with_kids y a (List.length new)) = new) by (unfold kids, cells; cbn [n_arr n_len with_kids]; rewrite A4; exact A6).
        rewrite Ek. apply flat_map_id. exact Hng. }
    destruct Hel as (el & Le & We & En). unfold NormModel.unpack_one. rewrite Le, En. unfold alloc. rewrite We.
    set (A := (new ++ repeat zero_node _)%list). set (H1 := (H ++ [Els A])%list). pose proof O as (O1 & O2 & O3 & O4).
    assert (LA : List.length new <= List.length A) by (unfold A; rewrite app_length; lia).
    assert (FA : firstn (List.length new) A = new) by (unfold A; rewrite firstn_app, Nat.sub_diag, firstn_O, app_nil_r; apply firstn_all).
    pose proof (load_bound _ _ _ L) as Lb. pose proof (load_bound _ _ _ Le) as Leb.
    assert (L1 : load H1 q = Some el) by (unfold load, cells, H1; rewrite nth_error_app1 by auto; exact Le).
    assert (N1 : nth_error (put H1 q (with_kids y (List.length H) (List.length new))) (List.length H) = Some (Els A)).
    { rewrite put_other by lia. unfold H1. rewrite nth_error_app2, Nat.sub_diag by lia. reflexivity. }
    assert (Oq : opened h (put H1 q (with_kids y (List.length H) (List.length new))) q).
    { exists y, (List.length H), A. split; [auto|]. split; [eapply load_put; eauto|]. split; [auto|]. split; [exact N1|]. split; auto. }
    assert (Ld : forall q' z, q' <> q -> load H q' = Some z -> load (put H1 q (with_kids y (List.length H) (List.length new))) q' = Some z).
    { intros q' z Hn Lz. pose proof (load_bound _ _ _ Lz) as Bz. assert (L2 : load H1 q' = Some z) by (unfold load, cells, H1; rewrite nth_error_app1 by auto; exact Lz).
      destruct (put_same_but H1 q el (with_kids y (List.length H) (List.length new)) L1) as (_ & S2 & l1 & l2 & S3 & S4 & S5 & S6).
      unfold load, cells in *. destruct (Nat.eq_dec (fst q') (fst q)) as [E|E].
      - rewrite E in *. rewrite S4. rewrite S3 in L2. rewrite S6; auto. intros E2. apply Hn. destruct q, q'; cbn in *; congruence.
      - rewrite put_other by auto. exact L2. }
    assert (Nf : forall a, a <> fst q -> a < List.length H -> nth_error (put H1 q (with_kids y (List.length H) (List.length new))) a = nth_error H a).
    { intros a Hn Ha. rewrite put_other by auto. unfold H1. apply nth_error_app1. exact Ha. }
    assert (Om : forall q', opened h H q' -> opened h (put H1 q (with_kids y (List.length H) (List.length new))) q').
    { intros q' (z & a & l & A1 & A2 & A3 & A4 & A5 & A6). destruct (ptr_eq_dec q' q) as [-> |Hn]; [exact Oq|].
      exists z, a, l. split; [auto|]. split; [apply Ld; auto|]. split; [auto|]. split; [|auto]. rewrite Nf; auto; [lia|apply nth_error_Some; congruence]. }
    split; [|split; auto]. split; [rewrite put_length; unfold H1; rewrite app_length; lia|]. split; [|split].
    - intros a l E. assert (a < List.length h) by (apply nth_error_Some; congruence). rewrite Nf; auto; [|lia]. intros ->. destruct (load_array _ _ _ L) as (l' & E' & _). congruence.
    - intros a l E. assert (Ha : a < List.length h) by (apply nth_error_Some; congruence). destruct (O3 a l E) as (l' & E' & Hl). destruct (Nat.eq_dec a (fst q)) as [-> |Hn].
      + destruct (put_same_but H1 q el (with_kids y (List.length H) (List.length new)) L1) as (_ & S2 & l1 & l2 & S3 & S4 & S5 & S6).
        exists l2. split; auto. unfold H1 in S3. rewrite nth_error_app1 in S3 by lia. assert (l1 = l') by congruence. subst. lia.
      + exists l'. split; auto. rewrite Nf; auto. lia.
    - intros q' z Lz. destruct (ptr_eq_dec q' q) as [-> |Hn].
      + right. split; [|exact Oq]. assert (z = y) by congruence. subst z. rewrite <- (rep_has_groups h d y R). exact G.
      + destruct (O4 q' z Lz) as [L'|[G' O']]; [left; apply Ld; auto|right; auto].
  Qed.

  Lemma unpack_each h (P : ptr -> Prop) : (forall q, P q -> exists y d, load h q = Some y /\ rep h d y /\ has_groups d = true /\ spaced d) ->
    forall ps H, opening h H -> (forall q, In q ps -> P q) ->
    opening h (each unpack_one H ps) /\ (forall q, In q ps \/ opened h H q -> opened h (each unpack_one H ps) q).
  Proof.
    intros HP. induction ps as [|q ps IH]; intros H O Hin; cbn [each]; [split; [auto|intros q [[]|Hq]; auto]|].
    destruct (HP q (Hin q (or_introl eq_refl))) as (y & d & L & R & G & Sp). destruct (unpack_step h H q y d O L R G Sp) as (O1 & O2 & O3).
    destruct (IH (unpack_one H q) O1 (fun q' Hq => Hin q' (or_intror Hq))) as (I1 & I2). split; auto.
    intros q' [[<-|Hq]|Hq]; apply I2; auto.
  Qed.
End Growing.

Lemma hits_kids_in g h b : forall ks xs i q, In q (hits_kids g h b ks xs i) <-> exists j k y, nth_error ks j = Some k /\ nth_error xs j = Some y /\ In q (hits g h k (b, i + j) y).
Proof.
  induction ks as [|k ks IH]; intros xs i q; cbn [hits_kids].
  - split; [intros []|]. intros (j & k & y & E & _). destruct j; discriminate.
  - destruct xs as [|y xs]; [split; [intros []|]; intros (j & k' & y & _ & E & _); destruct j; discriminate|]. rewrite in_app_iff, IH. split.
    + intros [Hq|(j & k' & y' & E1 & E2 & Hq)]; [exists 0, k, y; rewrite Nat.add_0_r; auto|]. exists (S j), k', y'. rewrite Nat.add_succ_r. auto.
    + intros ([|j] & k' & y' & E1 & E2 & Hq); cbn [nth_error] in E1, E2; [left; injection E1 as <-; injection E2 as <-; rewrite Nat.add_0_r in Hq; auto|].
      right. exists j, k', y'. rewrite Nat.add_succ_r in Hq. auto.
Qed.
(* each pointer found is that of a node *)
Lemma hit_node g h : forall e p x q, load h p = Some x -> rep h e x -> In q (hits g h e p x) ->
  exists s d y, sub e s = Some d /\ load h q = Some y /\ rep h d y /\ g d = true.
Proof.
  induction e as [n a s c ks IH] using elem_ind'. intros p x q L R Hq. rewrite hits_eq in Hq. apply in_app_or in Hq. destruct Hq as [Hq|Hq].
  - destruct (g (Elem n a s c ks)) eqn:E; [|destruct Hq]. destruct Hq as [<-|[]]. exists [], (Elem n a s c ks), x. auto.
  - cbn [e_children] in Hq. apply hits_kids_in in Hq. destruct Hq as (j & k & y & E1 & E2 & Hq). cbn [Nat.add] in Hq.
    destruct (rep_kid h _ x j k R E1) as (y' & E3 & R3 & L3 & _). assert (y' = y) by congruence. subst y'.
    destruct (IH k (nth_error_In _ _ E1) _ y q L3 R3 Hq) as (s' & d & z & A & B). exists (j :: s'), d, z. split; auto. cbn [sub e_children]. rewrite E1. exact A.
Qed.

Lemma height_kid e k : In k (e_children e) -> height k < height e.
Proof. intros H. rewrite (height_eq e). enough (height k <= heights (e_children e)) by lia. induction (e_children e) as [|z ks IH]; [destruct H|]. cbn [heights]. destruct H as [-> |H]; [lia|]. specialize (IH H). lia. Qed.
Lemma height_sub : forall s e d, sub e s = Some d -> s <> [] -> height d < height e.
Proof.
  induction s as [|i s IH]; intros e d H Hn; [congruence|]. cbn [sub] in H. destruct (nth_error (e_children e) i) as [k|] eqn:E; [|discriminate].
  pose proof (height_kid e k (nth_error_In _ _ E)). destruct s; [cbn [sub] in H; injection H as <-; auto|]. assert (height d < height k) by (apply IH; [auto|discriminate]). lia.
Qed.

Definition with_kids_el (e : elem) (ks : list elem) : elem := let '(Elem n a s c _) := e in Elem n a s c ks.
Definition opened_kids (ks : list elem) : list elem := flat_map (fun k => if group_el k then map unpack_el (e_children k) else [unpack_el k]) ks.
Lemma unpack_el_eq e : unpack_el e = with_kids_el e (opened_kids (e_children e)).
Proof. destruct e as [n a s c ks]. cbn [unpack_el with_kids_el e_children]. f_equal. apply flat_map_ext_in'. intros [n' a' s' c' ks'] _. reflexivity. Qed.
Lemma below_eq f e : below f e = with_kids_el e (map f (e_children e)).
Proof. destruct e. reflexivity. Qed.
Lemma unpack_no_groups e : has_groups e = false -> unpack_el e = below unpack_el e.
Proof.
  intros H. rewrite unpack_el_eq, below_eq. f_equal. unfold has_groups in H. unfold opened_kids. induction (e_children e) as [|k ks IH]; auto. cbn [existsb] in H.
  apply orb_false_iff in H. destruct H as [H1 H2]. cbn [flat_map map]. rewrite H1, IH; auto.
Qed.
Lemma with_kids_el_parts e ks : e_name (with_kids_el e ks) = e_name e /\ e_attrs (with_kids_el e ks) = e_attrs e /\ e_scope (with_kids_el e ks) = e_scope e /\
  e_content (with_kids_el e ks) = e_content e /\ e_children (with_kids_el e ks) = ks.
Proof. destruct e. cbn. auto. Qed.

(* reading the memory once every element with groups is done *)
Lemma opened_rep h H : opening h H -> forall n d y, height d <= n -> rep h d y ->
  (forall q, In q (hits_kids has_groups h (n_arr y) (e_children d) (kids h y) 0) -> opened h H q) ->
  (forall q d' k, descendant d q d' -> has_groups d' = true -> In k (e_children d') -> has_groups k = false /\ (group_el k = true -> forall k', In k' (e_children k) -> has_groups k' = false)) ->
  rep H (below unpack_el d) y.
Proof.
  intros O. induction n as [|n IH]; intros d y Hn R Op Ap; [rewrite height_eq in Hn; lia|].
  pose proof O as (O1 & O2 & O3 & O4). pose proof R as R'. apply rep_eq in R'. destruct R' as (R1 & R2 & R3 & R4 & K & B).
  (* a kid, wherever it now stands *)
  assert (Sub : forall k, In k (e_children d) -> forall z, rep h k z ->
    (forall q, In q (hits_kids has_groups h (n_arr z) (e_children k) (kids h z) 0) -> opened h H q) -> rep H (below unpack_el k) z).
  { intros k Hk z Rz Hz. apply IH; auto; [pose proof (height_kid d k Hk); lia|]. intros q d' k' (Hq & Sq). apply In_nth_error in Hk. destruct Hk as (i & Ei).
    apply (Ap (i :: q) d' k'). split; [discriminate|]. cbn [sub]. rewrite Ei. exact Sq. }
  assert (Kid : forall j k z, nth_error (e_children d) j = Some k -> nth_error (kids h y) j = Some z -> exists z', load H (n_arr y, j) = Some z' /\ rep H (unpack_el k) z').
  { intros j k z Ej Ez. destruct (rep_kid h d y j k R Ej) as (z1 & Ez1 & Rz & Lz & _). assert (z1 = z) by congruence. subst z1.
    assert (Hz : forall q, In q (hits_kids has_groups h (n_arr z) (e_children k) (kids h z) 0) -> opened h H q).
    { intros q Hq. apply Op. apply hits_kids_in. exists j, k, z. split; [auto|]. split; [auto|]. rewrite hits_eq. apply in_or_app. auto. }
    assert (Dk : descendant d [j] k) by (split; [discriminate|]; cbn [sub]; rewrite Ej; reflexivity).
    destruct (has_groups k) eqn:Gk.
    - (* opened *)
      assert (Oz : opened h H (n_arr y, j)).
      { apply Op. apply hits_kids_in. exists j, k, z. split; [auto|]. split; [auto|]. rewrite hits_eq, Gk. left. reflexivity. }
      destruct Oz as (z' & a & l & A1 & A2 & A3 & A4 & A5 & A6). assert (z' = z) by congruence. subst z'. eexists. split; [exact A2|].
      apply rep_eq. rewrite unpack_el_eq. destruct (with_kids_el_parts k (opened_kids (e_children k))) as (P1 & P2 & P3 & P4 & P5). rewrite P1, P2, P3, P4, P5.
      pose proof Rz as Rz'. apply rep_eq in Rz'. destruct Rz' as (Z1 & Z2 & Z3 & Z4 & Kz & Bz). cbn [with_kids n_name n_content n_scope n_arr n_len].
      split; [auto|]. split; [auto|]. split; [auto|]. split; [destruct Z4 as (l0 & Z4 & Z5); exists l0; split; [apply O2|]; auto|].
      assert (Ek : kids H (with_kids z a (List.length (new_kids h z))) = new_kids h z) by (unfold kids, cells; cbn [n_arr n_len with_kids]; rewrite A4; exact A6).
      split; [exists l; cbn [n_arr n_len with_kids]; auto|]. rewrite Ek. unfold new_kids, opened_kids.
      assert (Gen : forall ks zs i, Forall2 (rep h) ks zs -> (forall i' c, nth_error ks i' = Some c -> nth_error (e_children k) (i + i') = Some c) ->
        (forall i' c, nth_error zs i' = Some c -> nth_error (kids h z) (i + i') = Some c) ->
        Forall2 (rep H) (flat_map (fun k0 => if group_el k0 then map unpack_el (e_children k0) else [unpack_el k0]) ks)
          (flat_map (fun c => if is_group c then kids h c else [c]) zs)).
      { induction ks as [|c ks IHk]; intros zs i Bk Nk Nz; inversion Bk; subst; cbn [flat_map]; [constructor|]. rename y0 into w. apply Forall2_app.
        2: { apply (IHk _ (S i)); auto; intros i' c' E; [apply Nk in E || specialize (Nk (S i') c' E)|specialize (Nz (S i') c' E)]; rewrite Nat.add_succ_comm; auto. }
        specialize (Nk 0 c eq_refl). specialize (Nz 0 w eq_refl). rewrite Nat.add_0_r in Nk, Nz. pose proof (nth_error_In _ _ Nk) as Inc.
        destruct (Ap _ _ _ Dk Gk Inc) as [Gc1 Gc2]. rewrite (rep_group h c w) by auto.
        assert (Hc : forall q, In q (hits_kids has_groups h (n_arr w) (e_children c) (kids h w) 0) -> opened h H q).
        { intros q Hq. apply Hz. apply hits_kids_in. exists i, c, w. split; [auto|]. split; [auto|]. rewrite hits_eq. apply in_or_app. auto. }
        destruct (is_group w) eqn:Ew.
        - (* its children are taken over *)
          assert (Rw : rep h c w) by auto. pose proof Rw as Rw'. apply rep_eq in Rw'. destruct Rw' as (_ & _ & _ & _ & Kw & Bw).
          assert (Gc : group_el c = true) by (rewrite (rep_group h c w Rw); auto). specialize (Gc2 Gc).
          assert (Gen2 : forall cs ws j', Forall2 (rep h) cs ws -> (forall i' c', nth_error cs i' = Some c' -> nth_error (e_children c) (j' + i') = Some c') ->
            (forall i' c', nth_error ws i' = Some c' -> nth_error (kids h w) (j' + i') = Some c') -> Forall2 (rep H) (map unpack_el cs) ws).
          { induction cs as [|c' cs IHc]; intros ws j' Bc Nc Nw; inversion Bc; subst; cbn [map]; constructor.
            2: { apply (IHc _ (S j')); auto; intros i' c2 E; [specialize (Nc (S i') c2 E)|specialize (Nw (S i') c2 E)]; rewrite Nat.add_succ_comm; auto. }
            specialize (Nc 0 c' eq_refl). specialize (Nw 0 y0 eq_refl). rewrite Nat.add_0_r in Nc, Nw. pose proof (nth_error_In _ _ Nc) as Inc'.
            rewrite unpack_no_groups by (apply Gc2; auto). apply IH; auto.
            - pose proof (height_kid d k (nth_error_In _ _ Ej)). pose proof (height_kid k c Inc). pose proof (height_kid c c' Inc'). lia.
            - intros q Hq. apply Hc. apply hits_kids_in. exists j', c', y0. split; [auto|]. split; [auto|]. rewrite hits_eq. apply in_or_app. auto.
            - intros q d' k' (Hq & Sq). apply (Ap (j :: i :: j' :: q) d' k'). split; [discriminate|]. cbn [sub]. rewrite Ej, Nk, Nc. exact Sq. }
          apply (Gen2 _ _ 0 Bw); auto.
        - constructor; [|constructor]. rewrite unpack_no_groups by auto. apply IH; auto.
          + pose proof (height_kid d k (nth_error_In _ _ Ej)). pose proof (height_kid k c Inc). lia.
          + intros q d' k' (Hq & Sq). apply (Ap (j :: i :: q) d' k'). split; [discriminate|]. cbn [sub]. rewrite Ej, Nk. exact Sq. }
      apply (Gen _ _ 0 Bz); auto.
    - exists z. split; [|rewrite unpack_no_groups by auto; apply Sub; auto; eapply nth_error_In; eauto].
      destruct (O4 _ _ Lz) as [L'|[G' _]]; auto. rewrite <- (rep_has_groups h k z Rz) in G'. congruence. }
  apply rep_eq. rewrite below_eq. destruct (with_kids_el_parts d (map unpack_el (e_children d))) as (P1 & P2 & P3 & P4 & P5). rewrite P1, P2, P3, P4, P5.
  split; [auto|]. split; [auto|]. split; [auto|]. split; [destruct R4 as (l0 & Z4 & Z5); exists l0; split; [apply O2|]; auto|].
  pose proof (opening_kids_ok h H y O K) as K'. split; [auto|].
  assert (Hlen : List.length (kids H y) = List.length (e_children d)) by (rewrite (kids_length H y K'), <- (kids_length h y K); symmetry; exact (Forall2_len _ _ _ B)).
  assert (Hat : forall j k, nth_error (e_children d) j = Some k -> exists z, nth_error (kids H y) j = Some z /\ rep H (unpack_el k) z).
  { intros j k Ej. destruct (rep_kid h d y j k R Ej) as (z & Ez & _ & _ & Hj). destruct (Kid j k z Ej Ez) as (z' & L' & R'). exists z'. split; auto.
    destruct (nth_error (kids H y) j) as [z2|] eqn:E2; [|apply nth_error_None in E2; rewrite (kids_length H y K') in E2; lia]. rewrite (kids_at H y j z2 K' E2) in L'. congruence. }
  clear -Hlen Hat. revert Hlen Hat. generalize (kids H y). induction (e_children d) as [|k ks IHk]; intros [|z zs] Hlen Hat; try discriminate; cbn [map]; constructor.
  - destruct (Hat 0 k eq_refl) as (z' & E & R). cbn [nth_error] in E. congruence.
  - apply IHk; [cbn [List.length] in Hlen; congruence|]. intros j k' E. destruct (Hat (S j) k' E) as (z' & E' & R). exists z'. auto.
Qed.

Lemma rep_fun h : forall e d x, rep h e x -> rep h d x -> e = d.
Proof.
  induction e as [n a s c ks IH] using elem_ind'. intros [n' a' s' c' ks'] x R1 R2. apply rep_eq in R1, R2. cbn [e_name e_attrs e_scope e_content e_children] in *.
  destruct R1 as (A1 & A2 & A3 & (l1 & A4 & A5) & _ & A7), R2 as (B1 & B2 & B3 & (l2 & B4 & B5) & _ & B7).
  assert (l1 = l2) by congruence. subst l2. assert (ks = ks'). 2: { subst. f_equal; try congruence; intuition congruence. }
  clear -IH A7 B7. revert ks' B7. induction A7 as [|k y ks ys R A IHA]; intros ks' B7; inversion B7; subst; auto. f_equal; [eapply IH; [left; auto| |]; eauto|]. apply IHA; auto. intros e He. apply IH. right. auto.
Qed.
Lemma load_put_other (h : heap) (A : list node) q el z root x : load h q = Some el -> root <> q -> load h root = Some x -> load (put (h ++ [Els A])%list q z) root = Some x.
Proof.
  intros Lq Hn L. pose proof (load_bound _ _ _ L) as Bz. pose proof (load_bound _ _ _ Lq) as Bq. set (H1 := (h ++ [Els A])%list).
  assert (L1 : load H1 q = Some el) by (unfold load, cells, H1; rewrite nth_error_app1 by auto; exact Lq).
  assert (L2 : load H1 root = Some x) by (unfold load, cells, H1; rewrite nth_error_app1 by auto; exact L).
  destruct (put_same_but H1 q el z L1) as (_ & S2 & l1 & l2 & S3 & S4 & S5 & S6).
  unfold load, cells in *. destruct (Nat.eq_dec (fst root) (fst q)) as [E|E].
  - rewrite E in *. rewrite S4. rewrite S3 in L2. rewrite S6; auto. intros E2. apply Hn. destruct q, root; cbn in *; congruence.
  - rewrite put_other by auto. exact L2.
Qed.
(* unpackGroups *)
Lemma unpack_groups_ok grow fuel h root e x : load h root = Some x -> rep h e x -> height e <= fuel -> groups_apart e ->
  exists h', unpack_groups grow fuel root h = Done h' /\ load h' root = Some x /\ rep h' (below unpack_el e) x.
Proof.
  intros L R Hf Ap. unfold unpack_groups. rewrite (search_heap_hits _ has_groups h (fun d y Rd => eq_sym (rep_has_groups h d y Rd)) e fuel root x L R Hf).
  eexists. split; [reflexivity|]. set (ps := hits_kids _ _ _ _ _ _).
  assert (Pn : forall q, In q ps -> exists s d y, descendant e s d /\ load h q = Some y /\ rep h d y /\ has_groups d = true).
  { intros q Hq. unfold ps in Hq. apply hits_kids_in in Hq. destruct Hq as (j & k & y & E1 & E2 & Hq). cbn [Nat.add] in Hq.
    destruct (rep_kid h e x j k R E1) as (y' & E3 & R3 & L3 & _). assert (y' = y) by congruence. subst y'.
    destruct (hit_node _ h k _ y q L3 R3 Hq) as (s & d & z & A & B). exists (j :: s), d, z. split; [split; [discriminate|]; cbn [sub]; rewrite E1; exact A|exact B]. }
  destruct (unpack_each grow h (fun q => In q ps)) with (ps := ps) (H := h) as (O & Op); auto.
  { intros q Hq. destruct (Pn q Hq) as (s & d & y & D & Lq & Rq & G). exists y, d. repeat (split; [assumption|]). intros k Hk. exact (Ap s d k D G Hk). }
  { apply opening_refl. }
  split; [|apply (opened_rep h _ O (height e)); auto; intros q Hq; apply Op; auto].
  (* the root is not below itself *)
  assert (Hr : forall q, In q ps -> q <> root).
  { intros q Hq ->. destruct (Pn root Hq) as (s & d & y & (D1 & D2) & Lq & Rq & _). assert (y = x) by congruence. subst y.
    pose proof (height_sub s e d D2 D1). assert (d = e) by (eapply rep_fun; eauto). subst d. lia. }
  clear -L Hr. revert L Hr. generalize h at 1 2. induction ps as [|q ps IH]; intros h0 L Hr; cbn [each]; auto. apply IH.
  - unfold unpack_one. destruct (load h0 q) as [el|] eqn:E; auto. unfold alloc. eapply load_put_other; [exact E| |exact L]. intros ->. apply (Hr q); [left|]; auto.
  - intros q' Hq'. apply Hr. right. auto.
Qed.

(* a finite tree is never taken for a cycle *)
Lemma cyclic_finite h : forall n e p x fuel vis, height e <= n -> load h p = Some x -> rep h e x -> height e <= fuel ->
  (forall v, In v vis -> exists d y, load h v = Some y /\ rep h d y /\ height e < height d) -> cyclic fuel h p vis = Some false.
Proof.
  induction n as [|n IH]; intros e p x fuel vis Hn L R Hf Hv; [rewrite height_eq in Hn; lia|]. destruct fuel as [|f]; [rewrite height_eq in Hf; lia|].
  cbn [cyclic]. rewrite L. assert (Hs : forall i, In i (seq 0 (n_len x)) -> i < n_len x) by (intros i Hi; apply in_seq in Hi; lia).
  induction (seq 0 (n_len x)) as [|i l IHl]; auto.
  assert (Hi : i < List.length (e_children e)) by (rewrite <- (rep_len h e x R); apply Hs; left; auto).
  destruct (nth_error (e_children e) i) as [k|] eqn:Ek; [|apply nth_error_None in Ek; lia].
  destruct (rep_kid h e x i k R Ek) as (y & Ey & Ry & Ly & _). pose proof (height_kid e k (nth_error_In _ _ Ek)) as Hk.
  assert (Hp : forall v, In v (p :: vis) -> exists d y, load h v = Some y /\ rep h d y /\ height k < height d).
  { intros v [<-|Hin]; [exists e, x; auto|]. destruct (Hv v Hin) as (d & z & A & B & C). exists d, z. repeat split; auto. lia. }
  assert (E : existsb (ptr_eqb (n_arr x, i)) (p :: vis) = false).
  { destruct (existsb _ _) eqn:E; auto. apply existsb_exists in E. destruct E as (v & Hin & Ev). destruct (Hp v Hin) as (d & z & A & B & C).
    unfold ptr_eqb in Ev. apply andb_prop in Ev. destruct Ev as [Ev1 Ev2]. apply Nat.eqb_eq in Ev1, Ev2. destruct v as [v1 v2]. cbn [fst snd] in Ev1, Ev2. subst v1 v2.
    assert (z = y) by congruence. subst z. assert (d = k) by (eapply rep_fun; eauto). subst d. lia. }
  cbn [existsb] in E. cbn [existsb]. rewrite E. rewrite (IH k (n_arr x, i) y f (p :: vis)); auto; try lia.
  apply IHl. intros j Hj. apply Hs. right. auto.
Qed.
Lemma with_kids_el_group e ks : group_el (with_kids_el e ks) = group_el e.
Proof. destruct e. reflexivity. Qed.
Lemma unpack_el_group e : group_el (unpack_el e) = group_el e.
Proof. rewrite unpack_el_eq. apply with_kids_el_group. Qed.
(* what is left has no groups below the top level *)
Lemma unpacked_none : forall e, (forall q d k, sub e q = Some d -> In k (e_children d) -> group_el k = true -> has_groups k = false) ->
  forall q d, sub (unpack_el e) q = Some d -> has_groups d = false.
Proof.
  intros e. remember (height e) as n eqn:Hn. assert (Hle : height e <= n) by lia. clear Hn. revert e Hle. induction n as [|n IH]; intros e Hle Ng q d Hq; [rewrite height_eq in Hle; lia|].
  destruct q as [|i q].
  - cbn [sub] in Hq. injection Hq as <-. rewrite unpack_el_eq. unfold has_groups. destruct (with_kids_el_parts e (opened_kids (e_children e))) as (_ & _ & _ & _ & ->).
    assert (G : forall ks, (forall k, In k ks -> group_el k = true -> has_groups k = false) -> existsb group_el (opened_kids ks) = false).
    { induction ks as [|k ks IHk]; intros Hk; auto. unfold opened_kids. cbn [flat_map]. rewrite existsb_app. fold (opened_kids ks). rewrite IHk by (intros k' Hk'; apply Hk; right; auto). rewrite orb_false_r.
      destruct (group_el k) eqn:Gk; [|cbn [existsb]; rewrite unpack_el_group, Gk; reflexivity]. specialize (Hk k (or_introl eq_refl) Gk). unfold has_groups in Hk.
      induction (e_children k) as [|c cs IHc]; auto. cbn [existsb map] in *. apply orb_false_iff in Hk. rewrite unpack_el_group. destruct Hk as [-> H2]. auto. }
    apply G. intros k Hk. apply (Ng [] e k); auto.
  - cbn [sub] in Hq. rewrite unpack_el_eq in Hq. destruct (with_kids_el_parts e (opened_kids (e_children e))) as (_ & _ & _ & _ & E). rewrite E in Hq. clear E.
    destruct (nth_error (opened_kids (e_children e)) i) as [k|] eqn:Ek; [|discriminate]. apply nth_error_In in Ek. unfold opened_kids in Ek. apply in_flat_map in Ek.
    destruct Ek as (c & Hc & Ek). apply In_nth_error in Hc. destruct Hc as (j & Ec). pose proof (height_kid e c (nth_error_In _ _ Ec)) as Hh.
    destruct (group_el c).
    + apply in_map_iff in Ek. destruct Ek as (c' & <- & Hc'). pose proof (height_kid c c' Hc'). apply In_nth_error in Hc'. destruct Hc' as (j' & Ec').
      apply (IH c') with (q := q); auto; [lia|]. intros q' d' k' S'. apply (Ng (j :: j' :: q')). cbn [sub]. rewrite Ec, Ec'. exact S'.
    + destruct Ek as [<-|[]]. apply (IH c) with (q := q); auto; [lia|]. intros q' d' k' S'. apply (Ng (j :: q')). cbn [sub]. rewrite Ec. exact S'.
Qed.
Lemma groups_apart_none e : groups_apart e -> forall q d, descendant (below unpack_el e) q d -> has_groups d = false.
Proof.
  intros Ap [|i q] d (Hn & Hq); [congruence|]. rewrite below_eq in Hq. cbn [sub] in Hq. destruct (with_kids_el_parts e (map unpack_el (e_children e))) as (_ & _ & _ & _ & E). rewrite E in Hq.
  rewrite nth_error_map in Hq. destruct (nth_error (e_children e) i) as [k|] eqn:Ek; [|discriminate]. cbn [option_map] in Hq.
  apply (unpacked_none k) with (q := q); auto. intros q' d' k' S' Hk Gk.
  assert (D : descendant e (i :: q') d') by (split; [discriminate|]; cbn [sub]; rewrite Ek; exact S').
  assert (G : has_groups d' = true) by (unfold has_groups; apply existsb_exists; exists k'; auto).
  exact (proj1 (Ap (i :: q') d' k' D G Hk)).
Qed.
(* the height does not grow *)
Lemma unpack_height : forall n e, height e <= n -> height (unpack_el e) <= height e.
Proof.
  induction n as [|n IH]; intros e Hn; [rewrite height_eq in Hn; lia|]. rewrite (height_eq (unpack_el e)), (height_eq e). rewrite unpack_el_eq.
  destruct (with_kids_el_parts e (opened_kids (e_children e))) as (_ & _ & _ & _ & ->). apply le_n_S.
  assert (G : forall ks, (forall k, In k ks -> height k <= n) -> heights (opened_kids ks) <= heights ks).
  { induction ks as [|k ks IHk]; intros Hk; auto. unfold opened_kids. cbn [flat_map heights]. fold (opened_kids ks).
    assert (Ha : forall a b, heights (a ++ b)%list <= Nat.max (heights a) (heights b)). { induction a as [|z a IHa]; intros b; cbn [app heights]; [lia|]. specialize (IHa b). lia. }
    specialize (Ha (if group_el k then map unpack_el (e_children k) else [unpack_el k]) (opened_kids ks)). specialize (IHk (fun k' Hk' => Hk k' (or_intror Hk'))).
    assert (Hh : heights (if group_el k then map unpack_el (e_children k) else [unpack_el k]) <= height k).
    { pose proof (Hk k (or_introl eq_refl)) as Hkn. destruct (group_el k); [|cbn [heights]; specialize (IH k Hkn); lia].
      rewrite (height_eq k) in *. assert (Hm : forall l, (forall c, In c l -> height c <= n) -> heights (map unpack_el l) <= heights l).
      { induction l as [|c l IHl]; intros Hl; cbn [map heights]; auto. specialize (IH c (Hl c (or_introl eq_refl))). specialize (IHl (fun c' H' => Hl c' (or_intror H'))). lia. }
      enough (heights (map unpack_el (e_children k)) <= heights (e_children k)) by lia. apply Hm. intros c Hc. pose proof (height_kid k c Hc) as Q. rewrite (height_eq k) in Q. lia. }
    lia. }
  apply G. intros k Hk. pose proof (height_kid e k Hk). lia.
Qed.
Lemma unpack_below_height e : height (below unpack_el e) <= height e.
Proof.
  rewrite below_eq, (height_eq e), height_eq. destruct (with_kids_el_parts e (map unpack_el (e_children e))) as (_ & _ & _ & _ & ->). apply le_n_S.
  induction (e_children e) as [|k ks IH]; cbn [map heights]; auto. pose proof (unpack_height (height k) k (le_n _)). lia.
Qed.
(* with the check for cycles that follows *)
Lemma unpack_all_one grow fuel h root e x : load h root = Some x -> rep h e x -> height e <= fuel -> groups_apart e ->
  exists h', unpack_all grow fuel [root] h = Done h' /\ load h' root = Some x /\ rep h' (below unpack_el e) x.
Proof.
  intros L R Hf Ap. destruct (unpack_groups_ok grow fuel h root e x L R Hf Ap) as (h' & E & L' & R'). exists h'. split; auto. cbn [unpack_all]. rewrite E.
  pose proof (unpack_below_height e). rewrite (cyclic_finite h' _ _ root x fuel [] (le_n _) L' R'); auto; [lia|]. intros v [].
Qed.
(* without groups nothing happens *)
Lemma unpack_nothing grow fuel h root e x : load h root = Some x -> rep h e x -> height e <= fuel -> (forall q d, descendant e q d -> has_groups d = false) ->
  unpack_groups grow fuel root h = Done h.
Proof.
  intros L R Hf Ng. unfold unpack_groups. rewrite (search_heap_hits _ has_groups h (fun d y Rd => eq_sym (rep_has_groups h d y Rd)) e fuel root x L R Hf).
  destruct (hits_kids has_groups h (n_arr x) (e_children e) (kids h x) 0) as [|q ps] eqn:E; [reflexivity|]. exfalso.
  assert (Hq : In q (hits_kids has_groups h (n_arr x) (e_children e) (kids h x) 0)) by (rewrite E; left; auto).
  apply hits_kids_in in Hq. destruct Hq as (j & k & y & E1 & E2 & Hq). cbn [Nat.add] in Hq.
  destruct (rep_kid h e x j k R E1) as (y' & E3 & R3 & L3 & _). assert (y' = y) by congruence. subst y'.
  destruct (hit_node _ h k _ y q L3 R3 Hq) as (s & d & z & A & _ & _ & B). rewrite (Ng (j :: s) d) in B; [discriminate|]. split; [discriminate|]. cbn [sub]. rewrite E1. exact A.
Qed.
