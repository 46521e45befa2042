(* Setting an attribute of the element at a path, in unshared memory. *)
From Verif Require Import Base ScopeModel TreeModel TreeSpec TreeProofs BuiltinModel XsdModel XsdProofs NormModel NormMem NormOps NormPath.
Local Open Scope string_scope.

Lemma set_nth_other {A} (l : list A) i x k : k <> i -> nth_error (set_nth i x l) k = nth_error l k.
Proof.
  revert i k. induction l as [|a l IH]; intros [|i] [|k] N; cbn [set_nth nth_error]; auto; try congruence.
Qed.
Lemma set_nth_same {A} (l : list A) i x : i < List.length l -> nth_error (set_nth i x l) i = Some x.
Proof. intros H. rewrite nth_error_set_nth by auto. rewrite Nat.eqb_refl. reflexivity. Qed.

Section Growing.
  Variable agrow : nat -> nat -> nat.
  Notation n_set_attr := (n_set_attr agrow).
  Notation set_attr_at := (set_attr_at agrow).

  (* the attribute list as a whole *)
  Lemma n_set_attr_ok h x e l v : rep h e x -> ~ In (n_at x) (n_arr x :: foots h (e_children e) (kids h x)) ->
    let '(h1, x1) := n_set_attr h x l v in
    attrs_ok h1 x1 (attr_set (e_attrs e) "" l v) /\
    (exists a len, x1 = with_ats x a len /\ (a = n_at x \/ List.length h = a)) /\
    List.length h <= List.length h1 /\ (forall a, a < List.length h -> a <> n_at x -> nth_error h1 a = nth_error h a) /\
    n_at x1 < List.length h1.
  Proof.
    intros R N. apply rep_eq in R. destruct R as (_ & _ & _ & A & _ & _). pose proof (attrs_ok_eq _ _ _ A) as E. destruct A as (la & A1 & A2 & A3).
    unfold NormModel.n_set_attr. rewrite E. set (l' := attr_set (e_attrs e) "" l v).
    assert (Ha : n_at x < List.length h) by (apply nth_error_Some; congruence).
    assert (Ec : ats h (n_at x) = la) by (unfold ats; rewrite A1; reflexivity). rewrite Ec.
    destruct (Nat.leb (List.length l') (List.length la)) eqn:El; [apply Nat.leb_le in El|].
    - split; [|split; [|split; [|split]]].
      + exists (l' ++ skipn (List.length l') la)%list. cbn [n_at n_alen with_ats]. split; [apply set_nth_same; auto|].
        split; [rewrite app_length; lia|]. rewrite firstn_app, Nat.sub_diag, firstn_O, app_nil_r. apply firstn_all.
      + exists (n_at x), (List.length l'). auto.
      + rewrite set_nth_length. auto.
      + intros a _ Hn. apply set_nth_other; auto.
      + cbn [n_at with_ats]. rewrite set_nth_length. auto.
    - unfold alloc_ats. split; [|split; [|split; [|split]]].
      + eexists. cbn [n_at n_alen with_ats]. split; [apply snoc_new|]. split; [rewrite app_length; lia|]. rewrite firstn_app, Nat.sub_diag, firstn_O, app_nil_r. apply firstn_all.
      + exists (List.length h), (List.length l'). auto.
      + rewrite app_length. cbn. lia.
      + intros a Hl _. apply snoc_old; auto.
      + cbn [n_at with_ats]. rewrite app_length. cbn. lia.
  Qed.

  Lemma set_attr_step h e p x l v : good h e p x ->
    let h1 := set_attr_at h p l v in
    exists x1, load h1 p = Some x1 /\ n_arr x1 = n_arr x /\ n_len x1 = n_len x /\ rep h1 (set_attr e "" l v) x1 /\
      NoDup (foot h1 (set_attr e "" l v) x1) /\ grown h (foot h1 (set_attr e "" l v) x1) (foot h e x) /\ same_but h h1 (foot h e x) p /\
      (forall a, In a (n_arr x :: foots h (e_children e) (kids h x)) -> nth_error h1 a = nth_error h a).
  Proof.
    intros (L & R & N & Np). cbn zeta. unfold NormModel.set_attr_at. rewrite L.
    rewrite foot_eq in N, Np. inversion N as [|? ? N1 N2]; subst. cbn [In] in Np.
    pose proof (n_set_attr_ok h x e l v R N1) as Ok. destruct (n_set_attr h x l v) as [h1 x1].
    destruct Ok as (A & (a & len & Ex & Ea) & Ln & Fr & Bn).
    pose proof (load_bound _ _ _ L) as Lp.
    assert (Bd : forall b, In b (n_arr x :: foots h (e_children e) (kids h x)) -> b < List.length h /\ b <> n_at x).
    { intros b Hb. split; [apply (foot_bound e h x R); rewrite foot_eq; right; auto|intros ->; auto]. }
    assert (L1 : load h1 p = Some x). { unfold load, cells. rewrite Fr; [exact L|exact Lp|]. intros E. apply Np. left. auto. }
    assert (F1 : forall b, In b (n_arr x :: foots h (e_children e) (kids h x)) -> nth_error (put h1 p x1) b = nth_error h b).
    { intros b Hb. rewrite put_other; [apply Fr; apply Bd; auto|]. intros ->. apply Np. right. exact Hb. }
    assert (Xa : n_arr x1 = n_arr x /\ n_len x1 = n_len x) by (rewrite Ex; auto). destruct Xa as [Xa Xl].
    assert (Ek : kids (put h1 p x1) x1 = kids h x). { unfold kids, cells. rewrite Xa, Xl, (F1 (n_arr x)) by (left; auto). reflexivity. }
    pose proof R as R'. apply rep_eq in R'. destruct R' as (R1 & R2 & R3 & _ & (lc & K1 & K2) & R6).
    destruct (reps_frame h (put h1 p x1) _ _ R6) as [G1 G2]; [intros b Hb; apply F1; right; auto|].
    assert (Ef : foot (put h1 p x1) (set_attr e "" l v) x1 = n_at x1 :: n_arr x :: foots h (e_children e) (kids h x)).
    { rewrite foot_eq, Ek, Xa. destruct e. cbn [set_attr with_attrs e_children] in *. rewrite G2. reflexivity. }
    assert (Ena : n_at x1 = n_at x \/ n_at x1 = List.length h). { rewrite Ex. cbn [n_at with_ats]. destruct Ea; auto. }
    exists x1. split; [eapply load_put; exact L1|]. split; [auto|]. split; [auto|]. split; [|split; [|split; [|split]]].
    - apply rep_eq. rewrite Ek. destruct e as [n at' s c ks]. cbn [set_attr with_attrs e_name e_scope e_content e_attrs e_children] in *.
      assert (En : n_name x1 = n /\ n_scope x1 = s /\ n_content x1 = c) by (rewrite Ex; cbn [n_name n_scope n_content with_ats]; auto).
      destruct En as (-> & -> & ->). do 3 (split; [reflexivity|]). split; [|split; [|exact G1]].
      + destruct A as (la & A1 & A2). exists la. rewrite put_other; [auto|]. intros E. destruct Ena as [E1|E1]; [|lia]. apply Np. left. congruence.
      + exists lc. rewrite Xa, Xl, F1 by (left; auto). auto.
    - rewrite Ef. constructor; auto. destruct Ena as [-> | ->]; auto. intros H. destruct (Bd _ H). lia.
    - rewrite Ef, foot_eq. intros b [<- |Hb]; [destruct Ena as [-> | ->]; [left; left; auto|right; auto]|left; right; exact Hb].
    - destruct (load_array _ _ _ L1) as (lp & P1 & P2). split; [rewrite put_length; auto|]. split.
      + intros b Hb Hn Hp. rewrite put_other by auto. apply Fr; [exact Hb|]. intros ->. apply Hn. rewrite foot_eq. left. auto.
      + destruct (put_same_but h1 p x x1 L1) as (_ & _ & l1 & l2 & Q1 & Q2 & Q3 & Q4). exists l1, l2. split; [|auto].
        rewrite <- Q1. symmetry. apply Fr; [exact Lp|]. intros E. apply Np. left. auto.
    - exact F1.
  Qed.

  (* doing nothing *)
  Lemma works_id h0 e p x : good h0 e p x -> works h0 (fun h => h) e e None p x.
  Proof.
    intros (L & R & N & Np) h F Lh. destruct (rep_frame e h0 h x R F) as [R1 E1]. split; [|split].
    - exists x. split; [auto|]. split; [auto|]. rewrite E1. split; [auto|]. intros a Ha. auto.
    - split; [exact I|]. split; [constructor|]. intros a [].
    - eapply same_but_refl. exact Lh.
  Qed.

  Lemma kids_assemble h e x h' ks' xs' : rep h e x -> attrs_ok h' x (e_attrs e) -> kids_ok h' x -> List.length xs' = n_len x ->
    (forall j, j < List.length xs' -> load h' (n_arr x, 0 + j) = nth_error xs' j) -> Forall2 (rep h') ks' xs' ->
    rep h' (with_children e ks') x /\ kids h' x = xs' /\ foot h' (with_children e ks') x = n_at x :: n_arr x :: foots h' ks' xs'.
  Proof.
    intros R A K Hl L B. assert (Ek : kids h' x = xs').
    { apply nth_ext with (d := zero_node) (d' := zero_node); [rewrite (kids_length h' x K); auto|]. intros j Hj. rewrite (kids_length h' x K), <- Hl in Hj.
      apply nth_error_nth. specialize (L j Hj). cbn [Nat.add] in L.
      assert (E : nth_error (kids h' x) j = nth_error xs' j). { rewrite <- L. unfold load, kids. cbn [fst snd]. rewrite Hl in Hj. clear -Hj. revert Hj. generalize (cells h' (n_arr x)) (n_len x). induction j as [|j IH]; intros [|y l] [|n] Hj; cbn [firstn nth_error]; auto; try lia. apply IH. lia. }
      rewrite E. apply nth_error_nth'. exact Hj. }
    apply rep_eq in R. destruct R as (R1 & R2 & R3 & _). split; [|split; auto].
    - apply rep_eq. destruct e. cbn [with_children e_name e_scope e_content e_attrs e_children] in *. rewrite Ek. auto 10.
    - rewrite foot_eq, Ek. destruct e. reflexivity.
  Qed.

  Lemma set_attr_path l : forall s v e h p x q, good h e p x -> ptr_at h p s = Some q ->
    let h1 := set_attr_at h q l v in let e1 := upd (fun d => set_attr d "" l v) s e in
    exists x1, load h1 p = Some x1 /\ n_arr x1 = n_arr x /\ n_len x1 = n_len x /\ rep h1 e1 x1 /\
      NoDup (foot h1 e1 x1) /\ grown h (foot h1 e1 x1) (foot h e x) /\ same_but h h1 (foot h e x) p /\
      (forall t, ptr_at h1 p t = ptr_at h p t).
  Proof.
    induction s as [|i s IH]; intros v e h p x q G Hq; cbn zeta.
    - cbn [ptr_at] in Hq. injection Hq as <-. destruct (set_attr_step h e p x l v G) as (x1 & L1 & A1 & A2 & R1 & N1 & G1 & S1 & F1).
      exists x1. cbn [upd]. repeat (split; [assumption|]). intros [|j t]; auto. cbn [ptr_at]. pose proof G as (L & R & _). rewrite L1, L, A1, A2.
      destruct (Nat.ltb j (n_len x)) eqn:Ej; auto. apply Nat.ltb_lt in Ej. rewrite (rep_len h e x R) in Ej. destruct (nth_error (e_children e) j) as [k|] eqn:Ek; [|apply nth_error_None in Ek; lia].
      destruct (rep_kid h e x j k R Ek) as (y & E1 & R2 & L2 & _). eapply ptr_frame; [eapply kid_good; eauto| |].
      + unfold load, cells. cbn [fst snd]. rewrite F1 by (left; auto). exact L2.
      + intros a Ha. apply F1. right. eapply foot_kid; eauto.
    - cbn [ptr_at] in Hq. pose proof G as (L & R & N & Np). rewrite L in Hq. destruct (Nat.ltb i (n_len x)) eqn:Ei; [|discriminate]. apply Nat.ltb_lt in Ei.
      pose proof Ei as Ei'. rewrite (rep_len h e x R) in Ei'. destruct (nth_error (e_children e) i) as [k|] eqn:Ek; [|apply nth_error_None in Ek; lia].
      destruct (rep_kid h e x i k R Ek) as (y & Ey & Ry & Ly & _). pose proof (kid_good h e p x i k y G Ek Ey) as Gy.
      cbn [upd]. rewrite Ek. set (k1 := upd (fun d => set_attr d "" l v) s k).
      (* only the i-th child is touched *)
      set (f := fun h' : heap => set_attr_at h' q l v).
      assert (W : works h f k k1 None (n_arr x, i) y).
      { intros h' F' L'. destruct Gy as (_ & _ & Ny & Npy). destruct (rep_frame k h h' y Ry F') as [Ry' Ey'].
        assert (Gy' : good h' k (n_arr x, i) y) by (unfold good; rewrite Ey'; auto).
        assert (Hq' : ptr_at h' (n_arr x, i) s = Some q) by (rewrite <- Hq; eapply ptr_frame; eauto; [split; auto]).
        destruct (IH v k h' _ y q Gy' Hq') as (y1 & B1 & _ & _ & B2 & B3 & B4 & B5 & _). split; [|split].
        - exists y1. do 3 (split; [assumption|]). exact B4.
        - split; [exact I|]. split; [constructor|]. intros a [].
        - exact B5. }
      set (fs := set_nth i f (repeat (fun h' : heap => h') (List.length (e_children e)))).
      assert (Fl : forall h', run fs h' = f h').
      { intros h'. unfold fs. clear -Ei'. revert i Ei' h'. induction (e_children e) as [|c cs IHc]; intros i Hi h'; [cbn in Hi; lia|].
        cbn [List.length repeat]. destruct i as [|i]; cbn [set_nth]; unfold run in *; cbn [each].
        - generalize (f h'). clear. induction cs as [|c cs IHc]; intros h'; cbn [List.length repeat each]; auto.
        - apply IHc. cbn in Hi. lia. }
      pose proof R as R'. apply rep_eq in R'. destruct R' as (R1 & R2 & R3 & RA & RK & RB).
      assert (P : plan h (n_arr x) 0 fs (e_children e) (set_nth i k1 (e_children e)) (repeat None (List.length (e_children e))) (kids h x)).
      { assert (Pg : forall ks ys j i0 f0 k0, List.length ks = List.length ys ->
          (forall m c z, nth_error ks m = Some c -> nth_error ys m = Some z -> good h c (n_arr x, j + m) z) ->
          (forall c z, nth_error ks i0 = Some c -> nth_error ys i0 = Some z -> works h f0 c k0 None (n_arr x, j + i0) z) ->
          plan h (n_arr x) j (set_nth i0 f0 (repeat (fun h' : heap => h') (List.length ks))) ks (set_nth i0 k0 ks) (repeat None (List.length ks)) ys).
        { clear. induction ks as [|c ks IHk]; intros [|z ys] j i0 f0 k0 Hl Hg Hw; try discriminate; cbn [List.length repeat].
          - destruct i0; constructor.
          - destruct i0 as [|i0]; cbn [set_nth]; constructor.
            + specialize (Hw c z eq_refl eq_refl). rewrite Nat.add_0_r in Hw. exact Hw.
            + specialize (IHk ys (S j) (List.length ks) (fun h' => h') c ltac:(cbn in Hl; lia)).
              assert (E : forall {A} (l : list A) n a, List.length l <= n -> set_nth n a l = l).
              { clear. induction l as [|b l IH]; intros [|n] a Hn; cbn [set_nth List.length] in *; auto; try lia. rewrite IH; auto. lia. }
              rewrite !E in IHk by (rewrite ?repeat_length; lia). apply IHk.
              * intros m c' z' H1 H2. specialize (Hg (S m) c' z' H1 H2). rewrite Nat.add_succ_r in Hg. exact Hg.
              * intros c' z' H1 _. assert (List.length ks < List.length ks) by (apply nth_error_Some; congruence). lia.
            + apply works_id. specialize (Hg 0 c z eq_refl eq_refl). rewrite Nat.add_0_r in Hg. exact Hg.
            + apply IHk; [cbn in Hl; lia| |].
              * intros m c' z' H1 H2. specialize (Hg (S m) c' z' H1 H2). rewrite Nat.add_succ_r in Hg. exact Hg.
              * intros c' z' H1 H2. specialize (Hw c' z' H1 H2). rewrite Nat.add_succ_r in Hw. exact Hw. }
        apply Pg; [eapply Forall2_len; exact RB| |].
        - intros m c z H1 H2. cbn [Nat.add]. eapply kid_good; eauto.
        - intros c z H1 H2. cbn [Nat.add]. assert (c = k) by congruence. assert (z = y) by congruence. subst c z. exact W. }
      rewrite foot_eq in N, Np. inversion N as [|? ? N1 N2]; subst. inversion N2 as [|? ? N3 N4]; subst. destruct RK as (lc & K1 & K2).
      assert (Lc : n_arr x < List.length h) by (apply nth_error_Some; congruence).
      destruct (run_kids fs (e_children e) _ _ (kids h x) h (n_arr x) 0 P RB N4 N3 Lc h (le_n _)) as ((xs' & X1 & X2 & X3 & X4 & X5) & _ & (Z1 & Z2 & m & m' & Z3 & Z4 & Z5 & Z6)); auto.
      { exists lc. auto. }
      { eapply kids_loaded. exact R. }
      rewrite Fl in *. unfold f in *. set (h1 := set_attr_at h q l v) in *.
      assert (Ll : List.length (kids h x) = n_len x) by (apply kids_length; exists lc; auto).
      assert (Bn : n_at x < List.length h). { destruct RA as (la & A1 & _). apply nth_error_Some. congruence. }
      assert (Fa : nth_error h1 (n_at x) = nth_error h (n_at x)). { apply Z2; auto; [intros H; apply N1; right; auto|intros E; apply N1; left; auto]. }
      destruct (kids_assemble h e x h1 (set_nth i k1 (e_children e)) xs') as (Q1 & Q2 & Q3); auto.
      { destruct RA as (la & A1 & A2). exists la. rewrite Fa. auto. }
      { exists m'. split; auto. rewrite Z5. assert (m = lc) by congruence. subst m. exact K2. }
      { lia. }
      { intros j Hj. apply X1. lia. }
      pose proof (load_bound _ _ _ L) as Lp. cbn [In] in Np.
      assert (L1 : load h1 p = Some x). { unfold load, cells. rewrite Z2; auto; intros E; apply Np; auto. }
      exists x. split; [auto|]. split; [auto|]. split; [auto|]. split; [auto|]. split; [|split; [|split]].
      + rewrite Q3. constructor; [|constructor; auto].
        * intros [E|H]; [apply N1; left; auto|]. destruct (X5 _ H); [apply N1; right; auto|lia].
        * intros H. destruct (X5 _ H); [auto|lia].
      + rewrite Q3, foot_eq. intros a [<- |[<- |H]]; [left; left; auto|left; right; left; auto|]. destruct (X5 a H); [left; right; right; auto|right; auto].
      + split; [lia|]. split.
        * intros a Ha Hn Hp. rewrite foot_eq in Hn. cbn [In] in Hn. apply Z2; auto.
        * destruct (load_array _ _ _ L) as (lp & P1 & P2). exists lp, lp. rewrite Z2; auto; intros E; apply Np; auto.
      + intros [|j t]; auto. cbn [ptr_at]. rewrite L1, L. destruct (Nat.ltb j (n_len x)) eqn:Ej; auto. apply Nat.ltb_lt in Ej.
        destruct (Nat.eq_dec j i) as [-> |Hji].
        * destruct (IH v k h _ y q Gy Hq) as (y1 & _ & _ & _ & _ & _ & _ & _ & B). apply B.
        * rewrite (rep_len h e x R) in Ej. destruct (nth_error (e_children e) j) as [c|] eqn:Ec; [|apply nth_error_None in Ec; lia].
          destruct (rep_kid h e x j c R Ec) as (z & E1 & R5 & L5 & _).
          (* the arrays of another child are not those of the i-th *)
          destruct (IH v k h _ y q Gy Hq) as (y1 & _ & _ & _ & _ & _ & _ & (T1 & T2 & t1 & t2 & T3 & T4 & T5 & T6) & _). cbn [fst snd] in *. fold h1 in T1, T2, T4.
          eapply ptr_frame; [eapply kid_good; eauto| |].
          -- unfold load, cells. cbn [fst snd]. rewrite T4, T6 by auto. unfold load, cells in L5. cbn [fst snd] in L5. rewrite T3 in L5. exact L5.
          -- intros a Ha. pose proof (foot_bound c h z R5 a Ha) as Hb. apply T2; auto.
             ++ intros Hk. clear -N4 Hji Ek Ey Ec E1 Ha Hk. revert i j Ek Ey Ec E1 Hji. generalize (kids h x) N4. clear N4. induction (e_children e) as [|c' cs IHc]; intros ys N4 i j Ek Ey Ec E1 Hji; [destruct i; discriminate|].
                destruct ys as [|y' ys]; [destruct i; discriminate|]. cbn [foots] in N4. apply nodup_app_inv in N4. destruct N4 as (M1 & M2 & M3).
                assert (Fk : forall cs ys n d w, nth_error cs n = Some d -> nth_error ys n = Some w -> forall b, In b (foot h d w) -> In b (foots h cs ys)).
                { clear. induction cs as [|c cs IH]; intros [|y ys] [|n] d w H1 H2 b Hb; try discriminate; cbn [foots nth_error] in *; apply in_or_app; [left; congruence|right; eauto]. }
                destruct i as [|i], j as [|j]; cbn [nth_error] in *; try congruence.
                ** injection Ek as ->. injection Ey as ->. exact (M3 a Hk (Fk _ _ _ _ _ Ec E1 a Ha)).
                ** injection Ec as ->. injection E1 as ->. exact (M3 a Ha (Fk _ _ _ _ _ Ek Ey a Hk)).
                ** eapply (IHc ys M2 i j); eauto.
             ++ intros ->. apply N3. eapply foot_kid; eauto.
  Qed.
End Growing.
