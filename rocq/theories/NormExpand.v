(* Expanding the short form of complex types. *)
From Verif Require Import Base ScopeModel TreeModel TreeSpec TreeProofs BuiltinModel XsdModel XsdProofs NormModel NormMem NormOps NormPath NormAttr NormSpec NormPass NormDefaults.
Local Open Scope string_scope.

(* the children are worked on, the cell itself is left alone *)
Lemma run_parent h0 e p x fs ks' os h : good h0 e p x -> plan h0 (n_arr x) 0 fs (e_children e) ks' os (kids h0 x) -> List.length h0 <= List.length h ->
  (forall a, In a (foot h0 e x) -> nth_error h a = nth_error h0 a) ->
  let h' := run fs h in let e' := with_children e ks' in
  rep h' e' x /\ NoDup (foot h' e' x) /\ grown h (foot h' e' x) (foot h0 e x) /\
  Forall2 (orep h') os (kids h0 x) /\ NoDup (ofoots h' os (kids h0 x)) /\ grown h (ofoots h' os (kids h0 x)) (foots h0 (e_children e) (kids h0 x)) /\
  List.length h <= List.length h' /\
  (forall a, a < List.length h -> ~ In a (n_arr x :: foots h0 (e_children e) (kids h0 x)) -> nth_error h' a = nth_error h a).
Proof.
  intros (L & R & N & Np) P Hl F. cbn zeta. pose proof R as R'. apply rep_eq in R'. destruct R' as (R1 & R2 & R3 & RA & RK & RB).
  rewrite foot_eq in N, Np, F. inversion N as [|? ? N1 N2]; subst. inversion N2 as [|? ? N3 N4]; subst. pose proof RK as (lc & K1 & K2).
  assert (Lc : n_arr x < List.length h0) by (apply nth_error_Some; congruence).
  assert (Fk : nth_error h (n_arr x) = nth_error h0 (n_arr x)) by (apply F; right; left; auto).
  destruct (run_kids fs (e_children e) ks' os (kids h0 x) h0 (n_arr x) 0 P RB N4 N3 Lc h Hl) as ((xs' & X1 & X2 & X3 & X4 & X5) & (O1 & O2 & O3) & (Z1 & Z2 & m & m' & Z3 & Z4 & Z5 & Z6)).
  { intros a Ha. apply F. right. right. auto. }
  { exists lc. rewrite Fk. auto. }
  { intros j Hj. unfold load, cells. cbn [fst snd]. rewrite Fk. exact (kids_loaded h0 e x R j Hj). }
  assert (Ll : List.length (kids h0 x) = n_len x) by (apply kids_length; exact RK).
  assert (Bn : n_at x < List.length h0). { destruct RA as (la & A1 & _). apply nth_error_Some. congruence. }
  assert (Fa : nth_error (run fs h) (n_at x) = nth_error h0 (n_at x)).
  { rewrite Z2; [apply F; left; auto|lia|intros H; apply N1; right; auto|intros E; apply N1; left; auto]. }
  destruct (kids_assemble h0 e x (run fs h) ks' xs') as (Q1 & Q2 & Q3); auto.
  { destruct RA as (la & A1 & A2). exists la. rewrite Fa. auto. }
  { exists m'. split; auto. rewrite Z5. assert (m = lc) by congruence. subst m. exact K2. }
  { lia. }
  { intros j Hj. apply X1. lia. }
  split; [exact Q1|]. split; [|split; [|split; [exact O1|split; [exact O2|split; [exact O3|split; [exact Z1|]]]]]].
  - rewrite Q3. constructor; [|constructor; auto].
    + intros [E|H]; [apply N1; left; auto|]. destruct (X5 _ H); [apply N1; right; auto|lia].
    + intros H. destruct (X5 _ H); [auto|lia].
  - rewrite Q3, foot_eq. intros a [<- |[<- |H]]; [left; left; auto|left; right; left; auto|]. destruct (X5 a H); [left; right; right; auto|right; auto].
  - intros a Ha Hn. apply Z2; auto; [intros H; apply Hn; right; auto|intros ->; apply Hn; left; auto].
Qed.

Lemma expand_el_eq e : expand_el e = if shorthand e then long_form (e_name e) (e_attrs e) (e_scope e) (map (below expand_el) (e_children e)) else below expand_el e.
Proof.
  destruct e as [n a s c ks]. unfold below. cbn [e_name e_attrs e_scope e_children e_content with_children]. cbn [expand_el]. destruct (shorthand _); auto.
  f_equal. apply map_ext. intros [n' a' s' c' ks']. reflexivity.
Qed.

Section Filter.
  Variables (h : heap) (f : elem -> bool) (g : node -> bool).
  Lemma filter_rep : forall ks xs, Forall2 (rep h) ks xs -> (forall k y, rep h k y -> f k = g y) -> Forall2 (rep h) (filter f ks) (filter g xs).
  Proof. induction 1 as [|k y ks ys R B IH]; intros H; cbn [filter]; [constructor|]. rewrite (H k y R). destruct (g y); auto. Qed.
  Lemma filter_foots : forall ks xs, Forall2 (rep h) ks xs -> (forall k y, rep h k y -> f k = g y) ->
    forall a, In a (foots h (filter f ks) (filter g xs)) -> In a (foots h ks xs).
  Proof.
    induction 1 as [|k y ks ys R B IH]; intros H a; cbn [filter foots]; auto. rewrite (H k y R). destruct (g y); cbn [foots]; rewrite !in_app_iff; intuition.
  Qed.
  Lemma filter_nodup : forall ks xs, Forall2 (rep h) ks xs -> (forall k y, rep h k y -> f k = g y) -> NoDup (foots h ks xs) -> NoDup (foots h (filter f ks) (filter g xs)).
  Proof.
    induction 1 as [|k y ks ys R B IH]; intros H N; cbn [filter foots] in *; auto. apply nodup_app_inv in N. destruct N as (N1 & N2 & N3).
    rewrite (H k y R). destruct (g y); cbn [foots]; auto. apply nodup_app; auto. intros a Ha Hb. eapply N3; eauto. eapply filter_foots; eauto.
  Qed.
End Filter.
Lemma filter_apart h f g : forall ks xs, Forall2 (rep h) ks xs -> (forall k y, rep h k y -> f k = g y) -> NoDup (foots h ks xs) ->
  forall a, In a (foots h (filter f ks) (filter g xs)) -> ~ In a (foots h (filter (fun k => negb (f k)) ks) (filter (fun y => negb (g y)) xs)).
Proof.
  induction 1 as [|k y ks ys R B IH]; intros H N a; cbn [filter foots] in *; auto. apply nodup_app_inv in N. destruct N as (N1 & N2 & N3).
  assert (H' : forall k y, rep h k y -> negb (f k) = negb (g y)) by (intros k' y' R'; rewrite (H k' y' R'); auto).
  pose proof (filter_foots h f g ks ys B H a) as A1. pose proof (filter_foots h _ _ ks ys B H' a) as A2. cbv beta in *.
  rewrite (H k y R). destruct (g y); cbn [foots negb]; rewrite !in_app_iff; specialize (IH H N2 a); specialize (N3 a); tauto.
Qed.

Lemma firstn_snoc {A} (l : list A) c r : firstn (List.length l + 1) (l ++ c :: r)%list = (l ++ [c])%list.
Proof. induction l as [|a l IH]; cbn [List.length Nat.add app firstn]; [reflexivity|]. rewrite IH. reflexivity. Qed.

Lemma orep_some h (f : elem -> elem) : forall ks xs, Forall2 (orep h) (map (fun k => Some (f k)) ks) xs ->
  Forall2 (rep h) (map f ks) xs /\ ofoots h (map (fun k => Some (f k)) ks) xs = foots h (map f ks) xs.
Proof.
  induction ks as [|k ks IH]; intros xs H; inversion H; subst; cbn [map ofoots foots]; auto.
  destruct (IH _ H4) as [I1 I2]. split; [constructor; auto|]. rewrite I2. reflexivity.
Qed.

Section Growing.
  Variable grow : nat -> nat -> nat.
  Notation expand_one := (expand_one grow).
  Notation is_ct := (fun d => xname_eqb (e_name d) (xs "complexType")).

  Lemma rep_stays h d y : rep h d y -> stays d = keeps y.
  Proof. intros R. apply rep_eq in R. destruct R as (E & _). unfold stays, keeps. rewrite E. reflexivity. Qed.
  Lemma rep_content h d y : rep h d y -> content_el d = is_content y.
  Proof. intros R. unfold content_el, is_content. rewrite !(rep_is h d y _ R). reflexivity. Qed.
  Lemma reps_content h ks ys : Forall2 (rep h) ks ys -> existsb content_el ks = existsb is_content ys.
  Proof. induction 1 as [|k y ks ys R B IH]; cbn [existsb]; auto. rewrite IH, (rep_content h k y R). reflexivity. Qed.

  (* one step: five new arrays, and the cell *)
  Lemma expand_step h e p x : good h e p x -> existsb content_el (e_children e) = false ->
    let ks := kids h x in let n := List.length h in
    exists x1 A C, expand_one h p = put (h ++ [Els A; Ats [mkAttr (mkName "" "base") (prefix (e_scope e) (xs "anyType"))];
         Els [mkNode (xs "restriction") (n + 1) 1 (e_scope e) "" n (List.length (filter (fun y => negb (keeps y)) ks))]; Ats []; Els C])%list p x1 /\
      firstn (List.length (filter (fun y => negb (keeps y)) ks)) A = filter (fun y => negb (keeps y)) ks /\
      List.length (filter (fun y => negb (keeps y)) ks) <= List.length A /\
      x1 = mkNode (e_name e) (n_at x) (n_alen x) (e_scope e) "" (n + 4) (List.length (filter keeps ks) + 1) /\
      firstn (List.length (filter keeps ks) + 1) C = (filter keeps ks ++ [mkNode (xs "complexContent") (n + 3) 0 (e_scope e) "" (n + 2) 1])%list /\
      List.length (filter keeps ks) + 1 <= List.length C.
  Proof.
    intros (L & R & _) Hc. cbn zeta. pose proof R as R'. apply rep_eq in R'. destruct R' as (R1 & R2 & R3 & RA & RK & RB). unfold NormModel.expand_one. rewrite L.
    rewrite (reps_content h _ _ RB) in Hc. rewrite Hc. unfold alloc, alloc_ats. rewrite !app_length. cbn [List.length]. rewrite R2. rewrite <- !app_assoc. cbn [app].
    eexists. eexists. eexists. split.
    { f_equal. }
    split; [rewrite firstn_app, Nat.sub_diag, firstn_O, app_nil_r; apply firstn_all|]. split; [rewrite app_length; lia|].
    split; [unfold with_kids, no_content; cbn [n_name n_at n_alen n_scope n_content]; f_equal; auto; lia|].
    split.
    - rewrite firstn_snoc. do 3 f_equal; lia.
    - rewrite !app_length. cbn [List.length]. lia.
  Qed.

  Lemma below_name f k : e_name (below f k) = e_name k.
  Proof. destruct k; reflexivity. Qed.

  Lemma expand_becomes : forall e h p x, good h e p x ->
    becomes h (each expand_one h (hits is_ct h e p x)) e (expand_el e) (Some (below expand_el e)) p x.
  Proof.
    induction e as [n at' s c ks IH] using elem_ind'. set (e := Elem n at' s c ks) in *. intros h p x G. pose proof G as (L & R & N & Np).
    pose proof R as R'. apply rep_eq in R'. destruct R' as (R1 & R2 & R3 & RA & RK & RB).
    set (fs := (fix go (ks : list elem) (xs : list node) (i : nat) : list (heap -> heap) :=
      match ks, xs with k :: ks', y :: xs' => (fun h' => each expand_one h' (hits is_ct h k (n_arr x, i) y)) :: go ks' xs' (S i) | _, _ => [] end) ks (kids h x) 0).
    assert (Efs : forall h', each expand_one h' (hits_kids is_ct h (n_arr x) ks (kids h x) 0) = run fs h').
    { unfold fs. generalize 0. generalize (kids h x). clear. induction ks as [|k ks IHk]; intros [|y l] i h'; cbn [hits_kids]; auto.
      rewrite each_app. unfold run in *. cbn [each]. apply IHk. }
    assert (P : plan h (n_arr x) 0 fs ks (map expand_el ks) (map (fun k => Some (below expand_el k)) ks) (kids h x)).
    { assert (Pg : forall l m i, Forall2 (rep h) l m -> (forall j k y, nth_error l j = Some k -> nth_error m j = Some y -> good h k (n_arr x, i + j) y) -> (forall k, In k l -> In k ks) ->
        plan h (n_arr x) i ((fix go (ks : list elem) (xs : list node) (i : nat) : list (heap -> heap) :=
          match ks, xs with k :: ks', y :: xs' => (fun h' => each expand_one h' (hits is_ct h k (n_arr x, i) y)) :: go ks' xs' (S i) | _, _ => [] end) l m i)
          l (map expand_el l) (map (fun k => Some (below expand_el k)) l) m).
      { induction l as [|k l IHl]; intros m i B Hg Hin; inversion B as [|? y ? m' Rk B']; subst; cbn [map]; constructor.
        - pose proof (Hg 0 k y eq_refl eq_refl) as Gk. rewrite Nat.add_0_r in Gk. intros h' F' L'. destruct Gk as (_ & _ & Nk & Npk).
          destruct (rep_frame k h h' y Rk F') as [Rk' Ef]. rewrite <- (hits_frame is_ct k h h' (n_arr x, i) y F'). apply IH; [apply Hin; left; auto|].
          split; [auto|]. split; [auto|]. rewrite Ef. auto.
        - apply IHl; auto; [|intros k' H; apply Hin; right; auto]. intros j k' y' E1 E2. specialize (Hg (S j) k' y' E1 E2). rewrite Nat.add_succ_r in Hg. exact Hg. }
      apply Pg; auto. intros j k y E1 E2. eapply kid_good; eauto. }
    assert (Eb : below expand_el e = with_children e (map expand_el ks)) by reflexivity.
    rewrite hits_eq, each_app. change (e_children e) with ks. rewrite Efs. rewrite expand_el_eq.
    destruct (shorthand e) eqn:Es.
    - (* expanded *)
      unfold shorthand in Es. apply andb_true_iff in Es. destruct Es as [E1 E2]. apply negb_true_iff in E2. rewrite E1. cbn [each].
      destruct (expand_step h e p x G E2) as (x1 & A & C & Ex & EA & LA & Ex1 & EC & LC). set (n0 := List.length h) in *.
      set (new := [Els A; Ats [mkAttr (mkName "" "base") (prefix (e_scope e) (xs "anyType"))]; Els [mkNode (xs "restriction") (n0 + 1) 1 (e_scope e) "" n0 (List.length (filter (fun y => negb (keeps y)) (kids h x)))]; Ats []; Els C]) in *.
      set (h1 := expand_one h p) in *. pose proof (load_bound _ _ _ L) as Lp.
      assert (Old : forall a, a < n0 -> nth_error (h ++ new)%list a = nth_error h a) by (intros a Ha; apply nth_error_app1; exact Ha).
      assert (L1' : load (h ++ new)%list p = Some x) by (unfold load, cells; rewrite Old by exact Lp; exact L).
      assert (H1 : forall a, a < n0 -> a <> fst p -> nth_error h1 a = nth_error h a) by (intros a Ha Hn; rewrite Ex, put_other, Old by auto; reflexivity).
      assert (Hn : forall k, nth_error h1 (n0 + k) = nth_error new k).
      { intros k. rewrite Ex, put_other by lia. rewrite nth_error_app2 by lia. f_equal. lia. }
      assert (Len : List.length h1 = n0 + 5) by (rewrite Ex, put_length, app_length; reflexivity).
      destruct (run_parent h e p x fs (map expand_el ks) (map (fun k => Some (below expand_el k)) ks) h1 G P) as (Q1 & Q2 & Q3 & Q4 & Q5 & Q6 & Q7 & Q8).
      { lia. }
      { intros a Ha. apply H1; [eapply foot_bound; eauto|]. intros ->. auto. }
      set (h' := run fs h1) in *.
      assert (Fp : ~ In (fst p) (n_arr x :: foots h (e_children e) (kids h x))) by (intros H; apply Np; rewrite foot_eq; right; auto).
      assert (Fn : forall k, k < 5 -> nth_error h' (n0 + k) = nth_error new k).
      { intros k Hk. rewrite Q8; [apply Hn|lia|]. intros H. assert (n0 + k < n0); [|lia]. apply (foot_bound e h x R). rewrite foot_eq. right. exact H. }
      assert (L1 : load h1 p = Some x1) by (rewrite Ex; eapply load_put; eauto).
      assert (L' : load h' p = Some x1). { unfold load, cells. rewrite Q8; [exact L1|lia|exact Fp]. }
      (* the copied children *)
      assert (Qg : Forall2 (rep h') (map (below expand_el) ks) (kids h x) /\ ofoots h' (map (fun k => Some (below expand_el k)) ks) (kids h x) = foots h' (map (below expand_el) ks) (kids h x)).
      { apply orep_some. exact Q4. }
      destruct Qg as [Qg Qo]. rewrite Qo in Q5, Q6.
      assert (St : forall k y, rep h' k y -> stays k = keeps y) by (intros k y; apply rep_stays).
      assert (St' : forall k y, rep h' k y -> negb (stays k) = negb (keeps y)) by (intros k y Ry; rewrite (rep_stays h' k y Ry); auto).
      pose proof (filter_rep h' _ _ _ _ Qg St) as B1. pose proof (filter_rep h' _ _ _ _ Qg St') as B2. cbv beta in *.
      set (gs := map (below expand_el) ks) in *.
      set (rn := mkNode (xs "restriction") (n0 + 1) 1 (e_scope e) "" n0 (List.length (filter (fun y => negb (keeps y)) (kids h x)))) in *.
      set (cn := mkNode (xs "complexContent") (n0 + 3) 0 (e_scope e) "" (n0 + 2) 1) in *.
      set (re := Elem (xs "restriction") [mkAttr (mkName "" "base") (prefix (e_scope e) (xs "anyType"))] (e_scope e) "" (filter (fun k => negb (stays k)) gs)).
      set (ce := Elem (xs "complexContent") [] (e_scope e) "" [re]).
      assert (Fn0 := Fn 0 ltac:(lia)). rewrite Nat.add_0_r in Fn0.
      assert (Kr : kids h' rn = filter (fun y => negb (keeps y)) (kids h x)) by (unfold kids, cells; cbn [rn n_arr n_len]; rewrite Fn0; cbn [nth_error new]; exact EA).
      assert (Rr : rep h' re rn).
      { apply rep_eq. rewrite Kr. cbn [re rn e_name e_scope e_content e_attrs e_children n_name n_scope n_content]. do 3 (split; [reflexivity|]). split; [|split].
        - exists [mkAttr (mkName "" "base") (prefix (e_scope e) (xs "anyType"))]. split; [exact (Fn 1 ltac:(lia))|]. split; [apply le_n|reflexivity].
        - exists A. split; [exact Fn0|exact LA].
        - exact B2. }
      assert (Kc : kids h' cn = [rn]) by (unfold kids, cells; cbn [cn n_arr n_len]; rewrite (Fn 2) by lia; reflexivity).
      assert (Rc : rep h' ce cn).
      { apply rep_eq. rewrite Kc. cbn [ce cn e_name e_scope e_content e_attrs e_children n_name n_scope n_content]. do 3 (split; [reflexivity|]). split; [|split].
        - exists []. split; [exact (Fn 3 ltac:(lia))|]. split; [apply le_n|reflexivity].
        - exists [rn]. split; [exact (Fn 2 ltac:(lia))|apply le_n].
        - constructor; auto. }
      assert (K1 : kids h' x1 = (filter keeps (kids h x) ++ [cn])%list) by (unfold kids, cells; rewrite Ex1; cbn [n_arr n_len]; rewrite (Fn 4) by lia; exact EC).
      set (e1 := long_form (e_name e) (e_attrs e) (e_scope e) gs).
      change (becomes h h' e e1 (Some (below expand_el e)) p x).
      assert (Ee1 : e1 = Elem (e_name e) (e_attrs e) (e_scope e) "" (filter stays gs ++ [ce])%list) by reflexivity.
      assert (Ra : rep h' e1 x1).
      { apply rep_eq. rewrite K1, Ee1. cbn [e_name e_scope e_content e_attrs e_children]. rewrite Ex1. cbn [n_name n_scope n_content]. do 3 (split; [reflexivity|]). split; [|split].
        - destruct RA as (la & A1 & A2). exists la. cbn [n_at n_alen]. split; [|exact A2]. rewrite Q8.
          + rewrite H1; [exact A1|apply nth_error_Some; congruence|]. intros E. apply Np. rewrite foot_eq, <- E. left. auto.
          + assert (n_at x < n0) by (apply nth_error_Some; congruence). lia.
          + rewrite foot_eq in N. inversion N; auto.
        - exists C. split; [exact (Fn 4 ltac:(lia))|exact LC].
        - apply Forall2_app; auto. }
      assert (Fe : foot h' e1 x1 = n_at x :: (n0 + 4) :: (foots h' (filter stays gs) (filter keeps (kids h x)) ++
         (n0 + 3) :: (n0 + 2) :: (n0 + 1) :: n0 :: foots h' (filter (fun k => negb (stays k)) gs) (filter (fun y => negb (keeps y)) (kids h x)))%list).
      { rewrite foot_eq, K1, Ee1. cbn [e_children]. rewrite Ex1 at 1 2. cbn [n_at n_arr]. do 2 f_equal.
        assert (Fa : forall l1 m1 l2 m2, List.length l1 = List.length m1 -> foots h' (l1 ++ l2)%list (m1 ++ m2)%list = (foots h' l1 m1 ++ foots h' l2 m2)%list).
        { clear. induction l1 as [|k l1 IHl]; intros [|y m1] l2 m2 H; try discriminate; cbn [app foots]; auto. rewrite IHl by (cbn in H; lia). rewrite app_assoc. reflexivity. }
        rewrite Fa by (eapply Forall2_len; exact B1). f_equal. cbn [foots]. rewrite app_nil_r, foot_eq, Kc. cbn [ce e_children cn n_at n_arr foots]. rewrite app_nil_r, foot_eq, Kr. reflexivity. }
      pose proof (filter_foots h' _ _ _ _ Qg St) as I1. pose proof (filter_foots h' _ _ _ _ Qg St') as I2. cbv beta in *.
      assert (Gr : forall a, In a (foots h' gs (kids h x)) -> (In a (foots h ks (kids h x)) /\ a < n0) \/ n0 + 5 <= a).
      { intros a Ha. destruct (Q6 a Ha) as [H|H]; [left; split; [exact H|]|right; lia]. apply (foot_bound e h x R). rewrite foot_eq. right. right. exact H. }
      rewrite foot_eq in N, Np. apply NoDup_cons_iff in N. destruct N as (N1 & N2). apply NoDup_cons_iff in N2. destruct N2 as (N3 & N4).
      assert (Bn : n_at x < n0). { destruct RA as (la & A1 & _). apply nth_error_Some. congruence. }
      split; [|split].
      + exists x1. split; [exact L'|]. split; [exact Ra|]. rewrite Fe. split.
        * constructor; [|constructor].
          -- intros [H|H]; [lia|]. apply in_app_or in H. destruct H as [H|[H|[H|[H|[H|H]]]]]; try lia; [apply I1 in H|apply I2 in H]; destruct (Gr _ H) as [[H2 _]|H2]; try lia; apply N1; right; exact H2.
          -- intros H. apply in_app_or in H. destruct H as [H|[H|[H|[H|[H|H]]]]]; try lia; [apply I1 in H|apply I2 in H]; destruct (Gr _ H) as [[_ H2]|H2]; lia.
          -- apply nodup_app; [eapply filter_nodup; eauto| |].
             ++ repeat constructor; [..|eapply (filter_nodup h' (fun k => negb (stays k)) (fun y => negb (keeps y))); eauto];
                  intros H; cbn [In] in H; repeat (destruct H as [H|H]; [lia|]); apply I2 in H; destruct (Gr _ H) as [[_ H2]|H2]; lia.
             ++ intros a Ha [H|[H|[H|[H|H]]]]; try (apply I1 in Ha; destruct (Gr _ Ha) as [[_ H2]|H2]; lia). exact (filter_apart h' stays keeps gs (kids h x) Qg St Q5 a Ha H).
        * intros a [<- |[<- |H]]; [left; rewrite foot_eq; left; auto|right; lia|]. apply in_app_or in H.
          destruct H as [H|[H|[H|[H|[H|H]]]]]; try (right; fold n0; lia); [apply I1 in H|apply I2 in H]; (destruct (Gr _ H) as [[H2 _]|H2]; [left; rewrite foot_eq; right; right; exact H2|right; fold n0; lia]).
      + cbn [orep ofoot]. rewrite Eb. split; [exact Q1|]. split; [exact Q2|]. intros a Ha. destruct (Q3 a Ha) as [H|H]; [auto|right; fold n0; lia].
      + split; [fold n0; lia|]. split.
        * intros a Ha Hx Hp. rewrite Q8; [apply H1; auto|fold n0 in Ha; lia|]. intros H. apply Hx. rewrite foot_eq. right. exact H.
        * destruct (put_same_but (h ++ new)%list p x x1 L1') as (_ & _ & l1 & l2 & S1 & S2 & S3 & S4). exists l1, l2. rewrite Old in S1 by exact Lp. split; [exact S1|]. split; [|auto].
          rewrite Q8; [rewrite Ex; exact S2|lia|exact Fp].
    - (* left alone *)
      assert (E0 : each expand_one h (if is_ct e then [p] else []) = h).
      { destruct (is_ct e) eqn:E1; auto. cbn [each]. unfold NormModel.expand_one. rewrite L. rewrite <- (reps_content h _ _ RB).
        unfold shorthand in Es. rewrite E1 in Es. cbn [andb] in Es. apply negb_false_iff in Es. rewrite Es. reflexivity. }
      rewrite E0. destruct (run_parent h e p x fs (map expand_el ks) (map (fun k => Some (below expand_el k)) ks) h G P (le_n _)) as (Q1 & Q2 & Q3 & Q4 & Q5 & Q6 & Q7 & Q8); [auto|].
      pose proof (load_bound _ _ _ L) as Lp.
      assert (Fp : ~ In (fst p) (n_arr x :: foots h (e_children e) (kids h x))) by (intros H; apply Np; rewrite foot_eq; right; auto).
      assert (L' : load (run fs h) p = Some x). { unfold load, cells. rewrite Q8; [exact L|exact Lp|exact Fp]. }
      rewrite Eb. split; [|split].
      + exists x. auto.
      + cbn [orep ofoot]. auto.
      + split; [auto|]. split.
        * intros a Ha Hx Hp. apply Q8; auto. intros H. apply Hx. rewrite foot_eq. right. exact H.
        * destruct (load_array _ _ _ L) as (lp & P1 & P2). exists lp, lp. rewrite Q8; auto.
  Qed.
End Growing.

Lemma expand_pass grow fuel : pass (expand_shorthand grow fuel) (fun e => height e <= fuel /\ e_name e <> xs "complexType") (fun e e' => e' = below expand_el e).
Proof.
  intros h e p x G (Hh & Hn). pose proof G as (L & R & _). unfold expand_shorthand. set (g := fun d => xname_eqb (e_name d) (xs "complexType")).
  rewrite (search_heap_hits _ g h) with (e := e) (x := x); auto.
  2: { intros d y Ry. unfold g. rewrite (rep_is h d y _ Ry). reflexivity. }
  eexists. exists (below expand_el e). split; [reflexivity|]. split; [reflexivity|].
  assert (E : g e = false) by (unfold g; destruct (xname_eqb (e_name e) (xs "complexType")) eqn:E; auto; apply xname_eqb_eq in E; contradiction).
  pose proof (expand_becomes grow e h p x G) as X. change (fun d : elem => xname_eqb (e_name d) (xs "complexType")) with g in X. rewrite hits_eq, E in X. cbn [app] in X.
  assert (Ee : expand_el e = below expand_el e). { rewrite expand_el_eq. unfold shorthand. unfold g in E. rewrite E. reflexivity. }
  rewrite Ee in X. destruct X as ((x' & A1 & A2 & A3 & A4) & _ & A5). exists x'. auto.
Qed.

(* ---------- what expansion gives ---------- *)
Lemma long_form_name n a s ks : e_name (long_form n a s ks) = n.
Proof. reflexivity. Qed.
Lemma expand_name e : e_name (expand_el e) = e_name e.
Proof. rewrite expand_el_eq. destruct (shorthand e); destruct e; reflexivity. Qed.
Lemma no_nested_kid e k : no_nested_ct e -> In k (e_children e) -> no_nested_ct k.
Proof. intros H Hk q d c Hq. apply In_nth_error in Hk. destruct Hk as (i & Hi). apply (H (i :: q) d c). cbn [sub]. rewrite Hi. exact Hq. Qed.
Lemma not_ct_below k : e_name k <> xs "complexType" -> expand_el k = below expand_el k.
Proof.
  intros H. rewrite expand_el_eq. unfold shorthand. destruct (xname_eqb (e_name k) (xs "complexType")) eqn:E; [apply xname_eqb_eq in E; contradiction|]. reflexivity.
Qed.
Lemma expand_el_flat e : no_nested_ct e -> expand_el e = if shorthand e then long_form (e_name e) (e_attrs e) (e_scope e) (map expand_el (e_children e)) else below expand_el e.
Proof.
  intros H. rewrite expand_el_eq. destruct (shorthand e) eqn:E; auto. f_equal. apply map_ext_in. intros k Hk. symmetry. apply not_ct_below.
  unfold shorthand in E. apply andb_true_iff in E. destruct E as [E _]. apply xname_eqb_eq in E. exact (H [] e k eq_refl E Hk).
Qed.
Lemma existsb_content_map (f : elem -> elem) l : (forall k, e_name (f k) = e_name k) -> existsb content_el (map f l) = existsb content_el l.
Proof. intros H. induction l as [|k l IH]; cbn [map existsb]; auto. rewrite IH. unfold content_el. rewrite H. reflexivity. Qed.
Lemma content_long n a s ks : existsb content_el (e_children (long_form n a s ks)) = true.
Proof. unfold long_form. cbn [e_children]. rewrite existsb_app. cbn [existsb]. apply orb_true_iff. right. reflexivity. Qed.
Lemma shorthand_expanded e : shorthand (expand_el e) = false.
Proof.
  rewrite expand_el_eq. destruct (shorthand e) eqn:E.
  - unfold shorthand. rewrite content_long. apply andb_false_r.
  - unfold shorthand, below in *. destruct e as [n a s c ks]. cbn [e_name e_children with_children] in *. rewrite existsb_content_map by apply expand_name. exact E.
Qed.
Lemma sub_long n a s ks q d : sub (long_form n a s ks) q = Some d ->
  q = [] \/ (exists k q', In k ks /\ sub k q' = Some d) \/ e_name d = xs "complexContent" \/ e_name d = xs "restriction".
Proof.
  intros H. destruct q as [|i q]; [left; auto|]. right. cbn [sub long_form e_children] in H. destruct (nth_error _ i) as [c|] eqn:E; [|discriminate].
  apply nth_error_In in E. apply in_app_or in E. destruct E as [E|[<- |[]]].
  - left. apply filter_In in E. exists c, q. tauto.
  - destruct q as [|j q]; cbn [sub e_children] in H; [injection H as <-; right; left; reflexivity|].
    destruct j as [|j]; cbn [nth_error] in H; [|destruct j; discriminate]. destruct q as [|m q]; cbn [sub e_children] in H; [injection H as <-; right; right; reflexivity|].
    destruct (nth_error _ m) as [c|] eqn:E; [|discriminate]. apply nth_error_In in E. apply filter_In in E. left. exists c, q. tauto.
Qed.
Lemma expand_all_done : forall e, no_nested_ct e -> forall q d, sub (expand_el e) q = Some d -> shorthand d = false.
Proof.
  induction e as [n a s c ks IH] using elem_ind'. intros H q d Hq. destruct q as [|i q]; [cbn [sub] in Hq; replace d with (expand_el (Elem n a s c ks)) by congruence; apply shorthand_expanded|].
  rewrite (expand_el_flat _ H) in Hq. cbn [e_name e_attrs e_scope e_children] in Hq. destruct (shorthand _).
  - destruct (sub_long _ _ _ _ _ _ Hq) as [H1|[(k & q' & H1 & H2)|[H1|H1]]]; [discriminate| | |]; try (unfold shorthand; rewrite H1; reflexivity).
    apply in_map_iff in H1. destruct H1 as (k0 & <- & Hk). eapply IH; eauto. eapply no_nested_kid; eauto.
  - cbn [below with_children e_children sub] in Hq. destruct (nth_error (map expand_el ks) i) as [k|] eqn:E; [|discriminate]. apply nth_error_In in E. apply in_map_iff in E.
    destruct E as (k0 & <- & Hk). eapply IH; eauto. eapply no_nested_kid; eauto.
Qed.
Lemma expand_twice : forall e, no_nested_ct e -> expand_el (expand_el e) = expand_el e.
Proof.
  induction e as [n a s c ks IH] using elem_ind'. intros H.
  assert (K : map expand_el (map expand_el ks) = map expand_el ks). { rewrite map_map. apply map_ext_in. intros k Hk. apply IH; auto. eapply no_nested_kid; eauto. }
  rewrite (expand_el_eq (expand_el (Elem n a s c ks))), shorthand_expanded. rewrite (expand_el_flat _ H). cbn [e_name e_attrs e_scope e_children].
  assert (F : forall f, (forall k, f (expand_el k) = f k) -> map expand_el (filter f (map expand_el ks)) = filter f (map expand_el ks)).
  { intros f Hf. rewrite <- K at 2. generalize (map expand_el ks). induction l as [|k l IHl]; cbn [filter map]; auto. rewrite Hf. destruct (f k); cbn [map]; rewrite IHl; auto. }
  destruct (shorthand _).
  - unfold below, long_form, with_children. cbn [e_name e_attrs e_scope e_content e_children]. rewrite map_app. f_equal. f_equal.
    + apply F. intros k. unfold stays. rewrite expand_name. reflexivity.
    + cbn [map]. f_equal. rewrite not_ct_below by discriminate. unfold below, with_children. cbn [e_name e_attrs e_scope e_content e_children map]. f_equal. f_equal.
      rewrite not_ct_below by discriminate. unfold below, with_children. cbn [e_name e_attrs e_scope e_content e_children]. f_equal. apply F. intros k. unfold stays. rewrite expand_name. reflexivity.
  - unfold below, with_children. cbn [e_name e_attrs e_scope e_content e_children]. rewrite K. reflexivity.
Qed.
