(* Unpacking the groups of several schemas in turn, in memory that they may share. *)
From Verif Require Import Base ScopeModel TreeModel TreeSpec TreeProofs BuiltinModel XsdModel XsdProofs NormModel NormMem NormOps NormPath NormAttr NormSpec NormDefaults NormUnpack.
Local Open Scope string_scope.

(* ---------- lists side by side ---------- *)
Definition paired {A B} (l : list A) (m : list B) (a : A) (b : B) : Prop := exists i, nth_error l i = Some a /\ nth_error m i = Some b.
Lemma paired_cons {A B} (x : A) (y : B) l m a b : paired (x :: l) (y :: m) a b <-> (a = x /\ b = y) \/ paired l m a b.
Proof.
  split.
  - intros ([|i] & H1 & H2); cbn [nth_error] in *; [left; split; congruence|right; exists i; auto].
  - intros [[-> ->]|(i & H1 & H2)]; [exists 0; auto|exists (S i); auto].
Qed.
Lemma paired_app {A B} (l1 l2 : list A) (m1 m2 : list B) a b : List.length l1 = List.length m1 ->
  (paired (l1 ++ l2) (m1 ++ m2) a b <-> paired l1 m1 a b \/ paired l2 m2 a b).
Proof.
  revert m1. induction l1 as [|x l1 IH]; intros [|y m1] H; try discriminate; cbn [app].
  - split; [auto|]. intros [([|i] & H1 & _)|H2]; auto; discriminate.
  - cbn [List.length] in H. rewrite !paired_cons, (IH m1) by congruence. tauto.
Qed.
Lemma Forall2_paired {A B} (R : A -> B -> Prop) l m : Forall2 R l m <-> List.length l = List.length m /\ forall a b, paired l m a b -> R a b.
Proof.
  revert m. induction l as [|x l IH]; intros [|y m]; split; intros H; try discriminate; try (inversion H; fail); try (destruct H; discriminate).
  - split; auto. intros a b (i & E & _). destruct i; discriminate.
  - constructor.
  - inversion H; subst. apply IH in H5. destruct H5 as [E F]. split; [cbn [List.length]; congruence|]. intros a b P. apply paired_cons in P. destruct P as [[-> ->]|P]; auto.
  - destruct H as [E F]. constructor; [apply F, paired_cons; auto|]. apply IH. split; [cbn [List.length] in E; congruence|]. intros a b P. apply F, paired_cons. auto.
Qed.
Lemma paired_flat_map {A B C D} (f : A -> list C) (g : B -> list D) : forall l m, Forall2 (fun a b => List.length (f a) = List.length (g b)) l m ->
  List.length (flat_map f l) = List.length (flat_map g m) /\
  forall c d, paired (flat_map f l) (flat_map g m) c d <-> exists a b, paired l m a b /\ paired (f a) (g b) c d.
Proof.
  intros l m H. induction H as [|a b l m E H (IH1 & IH2)]; cbn [flat_map].
  - split; auto. intros c d. split; [intros (i & X & _); destruct i; discriminate|]. intros (a & b & (i & X & _) & _). destruct i; discriminate.
  - split; [rewrite !app_length; lia|]. intros c d. rewrite paired_app, IH2 by auto. split.
    + intros [P|(a' & b' & P & Q)]; [exists a, b; split; auto; apply paired_cons; auto|exists a', b'; split; auto; apply paired_cons; auto].
    + intros (a' & b' & P & Q). apply paired_cons in P. destruct P as [[-> ->]|P]; [auto|right; eauto].
Qed.
Lemma build_list {A B} (P : nat -> A -> B -> Prop) : forall l i, (forall j a, nth_error l j = Some a -> exists b, P (i + j) a b) ->
  exists m, List.length m = List.length l /\ forall j a b, nth_error l j = Some a -> nth_error m j = Some b -> P (i + j) a b.
Proof.
  induction l as [|a l IH]; intros i H.
  - exists []. split; auto. intros [|j] a b E; discriminate.
  - destruct (H 0 a eq_refl) as (b & Hb). destruct (IH (S i)) as (m & E & F). { intros j a' E. destruct (H (S j) a' E) as (b' & Hb'). exists b'. rewrite Nat.add_succ_comm. exact Hb'. }
    exists (b :: m). split; [cbn [List.length]; congruence|]. intros [|j] a' b' E1 E2; cbn [nth_error] in *; [injection E1 as <-; injection E2 as <-; auto|].
    specialize (F j a' b' E1 E2). rewrite Nat.add_succ_comm in F. exact F.
Qed.
Lemma hits_kids_paired g h b ks xs q : In q (hits_kids g h b ks xs 0) <-> exists j k y, nth_error ks j = Some k /\ nth_error xs j = Some y /\ In q (hits g h k (b, j) y).
Proof. exact (hits_kids_in g h b ks xs 0 q). Qed.
Lemma hits_kids_below g h b ks xs k y q : paired ks xs k y -> In q (hits_kids g h (n_arr y) (e_children k) (kids h y) 0) -> In q (hits_kids g h b ks xs 0).
Proof. intros (j & E1 & E2) H. apply hits_kids_paired. exists j, k, y. split; auto. split; auto. rewrite hits_eq. apply in_or_app. auto. Qed.

Definition opened_list (ks : list elem) : list elem := flat_map (fun c => if group_el c then e_children c else [c]) ks.
Notation below_hits h d y := (hits_kids has_groups h (n_arr y) (e_children d) (kids h y) 0).

Lemma opened_list_ok h k z : rep h k z -> spaced k ->
  Forall2 (fun c w => rep h c w /\ has_groups c = false /\ group_el c = false /\ height c < height k /\ (forall q d, sub c q = Some d -> exists q', q' <> [] /\ sub k q' = Some d) /\
    (forall q, In q (below_hits h c w) -> In q (below_hits h k z))) (opened_list (e_children k)) (new_kids h z) /\
  (forall q, In q (below_hits h k z) -> exists c w, paired (opened_list (e_children k)) (new_kids h z) c w /\ In q (below_hits h c w)).
Proof.
  intros R Sp. pose proof R as R'. apply rep_eq in R'. destruct R' as (_ & _ & _ & _ & K & B). pose proof (proj1 (Forall2_paired _ _ _) B) as (Bl & Bp).
  assert (HL : Forall2 (fun c w => List.length (if group_el c then e_children c else [c]) = List.length (if is_group w then kids h w else [w])) (e_children k) (kids h z)).
  { apply Forall2_paired. split; auto. intros c w P. specialize (Bp c w P). rewrite (rep_group h c w Bp). destruct (is_group w); auto. apply rep_eq in Bp. destruct Bp as (_ & _ & _ & _ & _ & Bw). exact (Forall2_len _ _ _ Bw). }
  destruct (paired_flat_map _ _ _ _ HL) as (E1 & E2). fold (opened_list (e_children k)) in E1, E2. fold (new_kids h z) in E1, E2. split.
  - apply Forall2_paired. split; auto. intros c w P. apply E2 in P. destruct P as (c0 & w0 & P & Q). pose proof (Bp c0 w0 P) as R0. destruct P as (j & P1 & P2). pose proof (nth_error_In _ _ P1) as I0.
    destruct (Sp c0 I0) as [S1 S2]. rewrite (rep_group h c0 w0 R0) in *. pose proof (height_kid k c0 I0) as H0.
    assert (Up : forall q, In q (below_hits h c0 w0) -> In q (below_hits h k z)) by (intros q Hq; eapply hits_kids_below; [exists j; eauto|exact Hq]).
    destruct (is_group w0) eqn:G.
    + pose proof R0 as R0'. apply rep_eq in R0'. destruct R0' as (_ & _ & _ & _ & K0 & B0). apply Forall2_paired in B0. destruct B0 as (_ & B0). specialize (B0 c w Q).
      destruct Q as (i & Q1 & Q2). pose proof (nth_error_In _ _ Q1) as I1. pose proof (height_kid c0 c I1). split; [auto|]. split; [apply S2; auto|].
      split. { destruct (group_el c) eqn:Gc; auto. exfalso. assert (has_groups c0 = true) by (unfold has_groups; apply existsb_exists; eauto). congruence. }
      split; [lia|]. split; [intros q d Hd; exists (j :: i :: q); split; [discriminate|]; cbn [sub]; rewrite P1, Q1; exact Hd|].
      intros q Hq. apply Up. eapply hits_kids_below; [exists i; eauto|exact Hq].
    + destruct Q as ([|i] & Q1 & Q2); [|destruct i; discriminate]. cbn [nth_error] in Q1, Q2. injection Q1 as <-. injection Q2 as <-.
      split; [auto|]. split; [auto|]. split; [rewrite (rep_group h c0 w0 R0); auto|]. split; [auto|]. split; [|auto]. intros q d Hd. exists (j :: q). split; [discriminate|]. cbn [sub]. rewrite P1. exact Hd.
  - intros q Hq. apply hits_kids_paired in Hq. destruct Hq as (j & c0 & w0 & P1 & P2 & Hq). pose proof (nth_error_In _ _ P1) as I0. destruct (Sp c0 I0) as [S1 S2].
    assert (R0 : rep h c0 w0) by (apply Bp; exists j; auto). rewrite hits_eq, S1 in Hq. cbn [app] in Hq. destruct (is_group w0) eqn:G.
    + rewrite <- (rep_group h c0 w0 R0) in G. specialize (S2 G). apply hits_kids_paired in Hq. destruct Hq as (i & c & w & Q1 & Q2 & Hq).
      rewrite hits_eq, (S2 c (nth_error_In _ _ Q1)) in Hq. cbn [app] in Hq. exists c, w. split; auto. apply E2. exists c0, w0. split; [exists j; auto|].
      rewrite <- (rep_group h c0 w0 R0), G. exists i. auto.
    + exists c0, w0. split; auto. apply E2. exists c0, w0. split; [exists j; auto|]. rewrite (rep_group h c0 w0 R0), G. exists 0. auto.
Qed.

(* what a tree has become when some of the work is done, and what is left to do *)
Definition mid (h H : heap) (d d' : elem) (y : node) : Prop :=
  rep H d' y /\ height d' <= height d /\ group_el d' = group_el d /\ has_groups d' = has_groups d /\
  (forall q, In q (below_hits h d y) -> opened h H q \/ In q (below_hits H d' y)) /\
  (forall q, In q (below_hits H d' y) -> In q (below_hits h d y)).
Definition apart_below (d : elem) : Prop := forall q d', descendant d q d' -> has_groups d' = true -> spaced d'.

Lemma heights_le : forall ks n, (forall k, In k ks -> height k <= n) -> heights ks <= n.
Proof. induction ks as [|k ks IH]; intros n H; cbn [heights]; [lia|]. pose proof (H k (or_introl eq_refl)). specialize (IH n (fun k' Hk => H k' (or_intror Hk))). lia. Qed.
Lemma kids_assembled H y (P : nat -> elem -> Prop) ks : kids_ok H y -> n_len y = List.length ks ->
  (forall j k, nth_error ks j = Some k -> exists z, load H (n_arr y, j) = Some z /\ rep H k z) -> Forall2 (rep H) ks (kids H y).
Proof.
  intros K Hl F. apply Forall2_paired. split; [rewrite (kids_length H y K); auto|]. intros k z (j & E1 & E2). destruct (F j k E1) as (z' & L & R). rewrite (kids_at H y j z K E2) in L. congruence.
Qed.

Lemma opened_mid h H : opening h H -> forall n d y, height d <= n -> rep h d y -> apart_below d -> exists d', mid h H d d' y.
Proof.
  intros O. induction n as [|n IH]; intros d y Hn R Ap; [rewrite height_eq in Hn; lia|].
  pose proof O as (O1 & O2 & O3 & O4). pose proof R as R'. apply rep_eq in R'. destruct R' as (R1 & R2 & R3 & R4 & K & B).
  pose proof (opening_kids_ok h H y O K) as K'.
  assert (Kid : forall j k, nth_error (e_children d) j = Some k -> exists k', exists z z', nth_error (kids h y) j = Some z /\ load H (n_arr y, j) = Some z' /\ rep H k' z' /\ height k' <= height k /\ group_el k' = group_el k /\
    (forall q, In q (hits has_groups h k (n_arr y, j) z) -> opened h H q \/ In q (hits has_groups H k' (n_arr y, j) z')) /\
    (forall q, In q (hits has_groups H k' (n_arr y, j) z') -> In q (hits has_groups h k (n_arr y, j) z))).
  { intros j k Ej. destruct (rep_kid h d y j k R Ej) as (z & Ez & Rz & Lz & _). pose proof (height_kid d k (nth_error_In _ _ Ej)) as Hk.
    assert (Dk : descendant d [j] k) by (split; [discriminate|]; cbn [sub]; rewrite Ej; reflexivity).
    assert (Apk : apart_below k). { intros q d' (Hq & Sq). apply (Ap (j :: q)). split; [discriminate|]. cbn [sub]. rewrite Ej. exact Sq. }
    destruct (O4 _ _ Lz) as [L'|[G' (z1 & a & l & A1 & A2 & A3 & A4 & A5 & A6)]].
    - destruct (IH k z) as (k' & M1 & M2 & M3 & M4 & M5 & M6); auto; [lia|]. exists k', z, z. repeat (split; [assumption|]). split.
      + intros q. rewrite !hits_eq, M4, !in_app_iff. intros [Hq|Hq]; [auto|]. destruct (M5 q Hq); auto.
      + intros q. rewrite !hits_eq, M4, !in_app_iff. intros [Hq|Hq]; auto.
    - assert (z1 = z) by congruence. subst z1. rewrite <- (rep_has_groups h k z Rz) in G'. destruct (opened_list_ok h k z Rz (Ap _ _ Dk G')) as (L1 & L2).
      apply Forall2_paired in L1. destruct L1 as (L0 & L1).
      assert (Lst : exists m, List.length m = List.length (opened_list (e_children k)) /\
        forall i c c', nth_error (opened_list (e_children k)) i = Some c -> nth_error m i = Some c' -> forall w, nth_error (new_kids h z) i = Some w -> mid h H c c' w).
      { apply (build_list (fun i c c' => forall w, nth_error (new_kids h z) i = Some w -> mid h H c c' w) (opened_list (e_children k)) 0). cbn [Nat.add]. intros i c Ei.
        destruct (nth_error (new_kids h z) i) as [w|] eqn:Ew. 2: { exists c. intros w Hw. discriminate. }
        destruct (L1 c w) as (Q1 & Q2 & Q3 & Q4 & Q5 & Q6); [exists i; auto|]. destruct (IH c w) as (c' & M); auto; [lia| |exists c'; intros w' E; injection E as <-; exact M].
        intros q d' (Hq & Sq). destruct (Q5 _ _ Sq) as (q' & N' & S'). apply (Ap (j :: q')). split; [discriminate|]. cbn [sub]. rewrite Ej. exact S'. }
      destruct Lst as (m & Lm & Hm).
      set (z' := with_kids z a (List.length (new_kids h z))) in *.
      assert (Ek : kids H z' = new_kids h z) by (unfold z', kids, cells; cbn [n_arr n_len with_kids]; rewrite A4; exact A6).
      assert (Pm : forall c' w, paired m (new_kids h z) c' w -> exists c, paired (opened_list (e_children k)) (new_kids h z) c w /\ mid h H c c' w).
      { intros c' w (i & E1 & E2). destruct (nth_error (opened_list (e_children k)) i) as [c|] eqn:Ec; [|exfalso; apply nth_error_None in Ec; assert (i < List.length m) by (apply nth_error_Some; congruence); lia].
        exists c. split; [exists i; auto|]. eapply Hm; eauto. }
      assert (Rm : rep H (with_kids_el k m) z').
      { apply rep_eq. destruct (with_kids_el_parts k m) as (P1 & P2 & P3 & P4 & P5). rewrite P1, P2, P3, P4, P5.
        pose proof Rz as Rz'. apply rep_eq in Rz'. destruct Rz' as (Z1 & Z2 & Z3 & Z4 & Kz & Bz). unfold z' at 1 2 3. cbn [with_kids n_name n_content n_scope].
        split; [auto|]. split; [auto|]. split; [auto|]. split; [destruct Z4 as (l0 & Z4 & Z5); exists l0; split; [apply O2|]; auto|].
        split; [exists l; unfold z'; cbn [n_arr n_len with_kids]; auto|]. rewrite Ek. apply Forall2_paired. split; [lia|]. intros c' w P. destruct (Pm c' w P) as (c & _ & M). apply M. }
      assert (Gm : has_groups (with_kids_el k m) = false).
      { unfold has_groups. destruct (with_kids_el_parts k m) as (_ & _ & _ & _ & ->). destruct (existsb group_el m) eqn:E; auto. exfalso. apply existsb_exists in E. destruct E as (c' & I' & E').
        apply In_nth_error in I'. destruct I' as (i & Ei). destruct (nth_error (new_kids h z) i) as [w|] eqn:Ew; [|apply nth_error_None in Ew; assert (i < List.length m) by (apply nth_error_Some; congruence); lia].
        destruct (Pm c' w) as (c & Pc & M); [exists i; auto|]. destruct M as (_ & _ & M3 & _). destruct (L1 c w Pc) as (_ & _ & Q3 & _). congruence. }
      exists (with_kids_el k m), z, z'. split; [auto|]. split; [exact A2|]. split; [exact Rm|]. split.
      { rewrite (height_eq (with_kids_el k m)), (height_eq k). destruct (with_kids_el_parts k m) as (_ & _ & _ & _ & ->). apply le_n_S. apply heights_le. intros c' I'.
        apply In_nth_error in I'. destruct I' as (i & Ei). destruct (nth_error (new_kids h z) i) as [w|] eqn:Ew; [|apply nth_error_None in Ew; assert (i < List.length m) by (apply nth_error_Some; congruence); lia].
        destruct (Pm c' w) as (c & Pc & M); [exists i; auto|]. destruct M as (_ & M2 & _). destruct (L1 c w Pc) as (_ & _ & _ & Q4 & _). rewrite (height_eq k) in Q4. lia. }
      split; [apply with_kids_el_group|]. split.
      + intros q. rewrite !hits_eq, G', Gm. cbn [app]. intros [<-|Hq]; [left; exists z, a, l; auto 10|]. destruct (L2 q Hq) as (c & w & (i & E1 & E2) & Hc).
        destruct (nth_error m i) as [c'|] eqn:Ec; [|exfalso; apply nth_error_None in Ec; assert (i < List.length (opened_list (e_children k))) by (apply nth_error_Some; congruence); lia].
        destruct (Hm i c c' E1 Ec w E2) as (_ & _ & _ & _ & M5 & _). destruct (M5 q Hc) as [Hc'|Hc']; auto. right.
        destruct (with_kids_el_parts k m) as (_ & _ & _ & _ & ->). rewrite Ek. eapply hits_kids_below; [exists i; eauto|exact Hc'].
      + intros q. rewrite (hits_eq _ H), Gm. cbn [app]. destruct (with_kids_el_parts k m) as (_ & _ & _ & _ & ->). rewrite Ek. intros Hq. apply hits_kids_paired in Hq.
        destruct Hq as (i & c' & w & E1 & E2 & Hq). destruct (Pm c' w) as (c & Pc & M); [exists i; auto|]. destruct M as (_ & _ & _ & M4 & _ & M6).
        destruct (L1 c w Pc) as (_ & Q2 & _ & _ & _ & Q6). rewrite hits_eq, M4, Q2 in Hq. cbn [app] in Hq. rewrite hits_eq. apply in_or_app. right. apply Q6. apply M6. exact Hq. }
  destruct (build_list (fun j k k' => exists z z', nth_error (kids h y) j = Some z /\ load H (n_arr y, j) = Some z' /\ rep H k' z' /\ height k' <= height k /\ group_el k' = group_el k /\
    (forall q, In q (hits has_groups h k (n_arr y, j) z) -> opened h H q \/ In q (hits has_groups H k' (n_arr y, j) z')) /\
    (forall q, In q (hits has_groups H k' (n_arr y, j) z') -> In q (hits has_groups h k (n_arr y, j) z))) (e_children d) 0 Kid) as (m & Lm & Hm). cbn [Nat.add] in Hm.
  assert (At : forall j k', nth_error m j = Some k' -> exists k, nth_error (e_children d) j = Some k).
  { intros j k' E. destruct (nth_error (e_children d) j) as [k|] eqn:Ek; [eauto|]. apply nth_error_None in Ek. assert (j < List.length m) by (apply nth_error_Some; congruence). lia. }
  assert (Rm : Forall2 (rep H) m (kids H y)).
  { apply (kids_assembled H y (fun _ _ => True)); auto; [rewrite Lm; exact (rep_len h d y R)|]. intros j k' E. destruct (At j k' E) as (k & Ek). destruct (Hm j k k' Ek E) as (z & z' & _ & A & A2 & _). eauto. }
  assert (Nz : forall j z', nth_error (kids H y) j = Some z' -> load H (n_arr y, j) = Some z') by (intros j z'; apply kids_at; auto).
  exists (with_kids_el d m). destruct (with_kids_el_parts d m) as (P1 & P2 & P3 & P4 & P5). split; [|split; [|split; [|split; [|split]]]].
  - apply rep_eq. rewrite P1, P2, P3, P4, P5. split; [auto|]. split; [auto|]. split; [auto|]. split; [destruct R4 as (l0 & Z4 & Z5); exists l0; split; [apply O2|]; auto|]. split; auto.
  - rewrite (height_eq (with_kids_el d m)), (height_eq d), P5. apply le_n_S, heights_le. intros k' I'. apply In_nth_error in I'. destruct I' as (j & E). destruct (At j k' E) as (k & Ek).
    destruct (Hm j k k' Ek E) as (z & z' & _ & _ & _ & A & _). pose proof (height_kid d k (nth_error_In _ _ Ek)) as Q. rewrite (height_eq d) in Q. lia.
  - apply with_kids_el_group.
  - unfold has_groups. rewrite P5. clear -Hm Lm. revert m Lm Hm. generalize (e_children d). intros ks.
    assert (G : forall m ks, List.length m = List.length ks -> (forall j k k', nth_error ks j = Some k -> nth_error m j = Some k' -> group_el k' = group_el k) -> existsb group_el m = existsb group_el ks).
    { induction m as [|k' m IHm]; intros [|k ks0] L F; try discriminate; auto. cbn [existsb]. rewrite (F 0 k k' eq_refl eq_refl), (IHm ks0); auto. intros j a b A1 A2. apply (F (S j)); auto. }
    intros m Lm Hm. apply G; auto. intros j k k' E1 E2. destruct (Hm j k k' E1 E2) as (z & z' & _ & _ & _ & _ & A & _). exact A.
  - intros q Hq. rewrite P5. apply hits_kids_paired in Hq. destruct Hq as (j & k & z & E1 & E2 & Hq). destruct (nth_error m j) as [k'|] eqn:Ek'; [|exfalso; apply nth_error_None in Ek'; assert (j < List.length (e_children d)) by (apply nth_error_Some; congruence); lia].
    destruct (Hm j k k' E1 Ek') as (z1 & z' & A1 & A2 & A3 & A4 & A5 & A6 & A7). assert (z1 = z) by congruence. subst z1. destruct (A6 q Hq) as [X|X]; auto. right. apply hits_kids_paired. exists j, k', z'. split; auto. split; auto.
    assert (Hj : j < List.length (kids H y)) by (rewrite <- (Forall2_len _ _ _ Rm); apply nth_error_Some; congruence). destruct (nth_error (kids H y) j) as [z2|] eqn:E3; [|apply nth_error_None in E3; lia]. pose proof (Nz j z2 E3) as L2. congruence.
  - intros q. rewrite P5. intros Hq. apply hits_kids_paired in Hq. destruct Hq as (j & k' & z' & E1 & E2 & Hq). destruct (At j k' E1) as (k & Ek). destruct (Hm j k k' Ek E1) as (z & z2 & A1 & A2 & A3 & A4 & A5 & A6 & A7).
    pose proof (Nz j z' E2). assert (z2 = z') by congruence. subst z2. apply hits_kids_paired. exists j, k, z. auto.
Qed.

(* the trees at some roots *)
Definition shows (h : heap) (r : ptr) (e : elem) : Prop := exists x, load h r = Some x /\ rep h e x.
Lemma unpack_one_other grow h q r x : q <> r -> load h r = Some x -> load (unpack_one grow h q) r = Some x.
Proof. intros Hn L. unfold unpack_one. destruct (load h q) as [el|] eqn:E; auto. unfold alloc. eapply load_put_other; eauto. Qed.
Lemma unpack_each_other grow r x : forall ps h, ~ In r ps -> load h r = Some x -> load (each (unpack_one grow) h ps) r = Some x.
Proof. induction ps as [|q ps IH]; intros h Hn L; cbn [each]; auto. apply IH; [intros Hi; apply Hn; right; auto|]. apply unpack_one_other; auto. intros ->. apply Hn. left. auto. Qed.

Lemma apart_all e : groups_apart e -> apart_below e.
Proof. intros H q d D G k Hk. exact (H q d k D G Hk). Qed.

Lemma unpack_all_from grow fuel h (R : list ptr) (P : ptr -> Prop) :
  (forall q, P q -> exists y d, load h q = Some y /\ rep h d y /\ has_groups d = true /\ spaced d) ->
  (forall r q, In r R -> P q -> q <> r) ->
  forall roots es H, opening h H -> (forall r x, In r R -> load h r = Some x -> load H r = Some x) -> (forall r, In r roots -> In r R) ->
  Forall2 (fun r e => height e <= fuel /\ groups_apart e /\ exists x, load h r = Some x /\ rep h e x /\ forall q, In q (below_hits h e x) -> P q) roots es ->
  exists H', unpack_all grow fuel roots H = Done H' /\ opening h H' /\ (forall r x, In r R -> load h r = Some x -> load H' r = Some x) /\ (forall q, opened h H q -> opened h H' q) /\
    Forall2 (fun r e => exists x, load h r = Some x /\ rep h e x /\ forall q, In q (below_hits h e x) -> opened h H' q) roots es.
Proof.
  intros HP HR. induction roots as [|r roots IH]; intros es H O Rt Sub B; inversion B as [|r' e roots' es' (Hf & Ap & x & L & Re & Hx) B' E1 E2]; subst; cbn [unpack_all].
  - exists H. split; [reflexivity|]. split; auto.
  - destruct (opened_mid h H O (height e) e x (le_n _) Re (apart_all e Ap)) as (e' & M1 & M2 & M3 & M4 & M5 & M6).
    assert (Lr : load H r = Some x) by (apply Rt; auto; apply Sub; left; auto).
    unfold unpack_groups. rewrite (search_heap_hits _ has_groups H (fun d y Rd => eq_sym (rep_has_groups H d y Rd)) e' fuel r x Lr M1) by lia.
    set (ps := below_hits H e' x) in *. assert (Hps : forall q, In q ps -> P q) by (intros q Hq; apply Hx, M6, Hq).
    destruct (unpack_each grow h P HP ps H O Hps) as (O2 & Op2). set (H2 := each (unpack_one grow) H ps) in *.
    assert (Rt2 : forall r0 x0, In r0 R -> load h r0 = Some x0 -> load H2 r0 = Some x0).
    { intros r0 x0 I0 L0. unfold H2. apply unpack_each_other; auto. intros Hi. exact (HR r0 r0 I0 (Hps _ Hi) eq_refl). }
    assert (Hop : forall q, In q (below_hits h e x) -> opened h H2 q) by (intros q Hq; apply Op2; destruct (M5 q Hq); auto).
    assert (R2 : rep H2 (below unpack_el e) x) by (apply (opened_rep h H2 O2 (height e)); auto).
    assert (L2 : load H2 r = Some x) by (apply Rt2; auto; apply Sub; left; auto).
    pose proof (unpack_below_height e) as Hh. rewrite (cyclic_finite H2 _ _ r x fuel [] (le_n _) L2 R2); [|lia|intros v []].
    destruct (IH es' H2 O2 Rt2 (fun r0 I0 => Sub r0 (or_intror I0)) B') as (H' & F1 & F2 & F3 & F4 & F5).
    exists H'. split; [exact F1|]. split; [auto|]. split; [auto|]. split; [intros q Hq; apply F4, Op2; auto|]. constructor; auto. exists x. auto.
Qed.

(* the roots are not below any root *)
Definition aloof (h : heap) (roots : list ptr) (es : list elem) : Prop :=
  forall r r' e x q, In r roots -> paired roots es r' e -> load h r' = Some x -> In q (hits_kids (fun _ => true) h (n_arr x) (e_children e) (kids h x) 0) -> q <> r.
Lemma hits_all g h : forall e p x q, In q (hits g h e p x) -> In q (hits (fun _ => true) h e p x).
Proof.
  induction e as [n a s c ks IH] using elem_ind'. intros p x q. rewrite !hits_eq, !in_app_iff. cbn [e_children]. intros [H|H]; [destruct (g (Elem n a s c ks)); [left; exact H|destruct H]|]. right.
  apply hits_kids_in in H. apply hits_kids_in. destruct H as (j & k & y & E1 & E2 & H). exists j, k, y. split; auto. split; auto. apply (IH k); auto. eapply nth_error_In; eauto.
Qed.
Lemma unpack_all_ok grow fuel h roots es : Forall2 (shows h) roots es -> aloof h roots es -> Forall (fun e => height e <= fuel /\ groups_apart e) es ->
  exists h', unpack_all grow fuel roots h = Done h' /\ Forall2 (shows h') roots (map (below unpack_el) es) /\ opening h h'.
Proof.
  intros B Al Hc. set (P := fun q => exists r e x, paired roots es r e /\ load h r = Some x /\ rep h e x /\ In q (below_hits h e x)).
  apply Forall2_paired in B. destruct B as (Bl & B). rewrite Forall_forall in Hc.
  assert (Pe : forall r e, paired roots es r e -> In r roots /\ In e es) by (intros r e (i & E1 & E2); split; eapply nth_error_In; eauto).
  destruct (unpack_all_from grow fuel h roots P) with (roots := roots) (es := es) (H := h) as (H' & F1 & F2 & F3 & _ & F5); auto.
  - intros q (r & e & x & Pr & L & Re & Hq). destruct (Hc e (proj2 (Pe _ _ Pr))) as (_ & Ap). apply hits_kids_paired in Hq. destruct Hq as (j & k & y & E1 & E2 & Hq).
    destruct (rep_kid h e x j k Re E1) as (y' & E3 & R3 & L3 & _). assert (y' = y) by congruence. subst y'.
    destruct (hit_node _ h k _ y q L3 R3 Hq) as (s & d & z & A & B1 & B2 & B3). exists z, d. split; [auto|]. split; [auto|]. split; [auto|].
    intros c Hk. apply (Ap (j :: s) d c); auto. split; [discriminate|]. cbn [sub]. rewrite E1. exact A.
  - intros r q Hr (r' & e & x & Pr & L & Re & Hq). apply (Al r r' e x q); auto. apply hits_kids_paired in Hq. apply hits_kids_paired. destruct Hq as (j & k & y & E1 & E2 & Hq). exists j, k, y. split; auto. split; auto. eapply hits_all; eauto.
  - apply opening_refl.
  - apply Forall2_paired. split; auto. intros r e Pr. destruct (Hc e (proj2 (Pe _ _ Pr))) as (A1 & A2). split; [auto|]. split; [auto|]. destruct (B r e Pr) as (x & L & Re). exists x. split; [auto|]. split; [auto|]. intros q Hq. exists r, e, x. auto.
  - exists H'. split; [exact F1|]. split; [|exact F2]. apply Forall2_paired. split; [rewrite map_length; auto|]. intros r e' (i & E1 & E2). rewrite nth_error_map in E2. destruct (nth_error es i) as [e|] eqn:Ei; [|discriminate].
    cbn [option_map] in E2. injection E2 as <-. apply Forall2_paired in F5. destruct F5 as (_ & F5). destruct (F5 r e) as (x & L & Re & Hop); [exists i; auto|]. exists x. split; [apply F3; auto; eapply nth_error_In; eauto|].
    apply (opened_rep h H' F2 (height e)); auto. destruct (Hc e (nth_error_In _ _ Ei)) as (_ & Ap). intros q d k D G Hk. exact (Ap q d k D G Hk).
Qed.
