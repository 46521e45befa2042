(* Moving a child of an element to the end of the root's children, in unshared memory. *)
From Verif Require Import Base ScopeModel TreeModel TreeSpec TreeProofs BuiltinModel XsdModel XsdProofs NormModel NormMem NormOps NormPath NormAttr NormSpec NormHoistSpec.
Local Open Scope string_scope.

Lemma set_all_kids l : forall t, e_children (set_all t l) = e_children t.
Proof. induction l as [|a l IH]; intros t; cbn [set_all each]; auto. unfold set_all in IH. rewrite IH. destruct t; reflexivity. Qed.
Lemma set_all_name l : forall t, e_name (set_all t l) = e_name t.
Proof. induction l as [|a l IH]; intros t; cbn [set_all each]; auto. unfold set_all in IH. rewrite IH. destruct t; reflexivity. Qed.
Lemma set_all_scope l : forall t, e_scope (set_all t l) = e_scope t.
Proof. induction l as [|a l IH]; intros t; cbn [set_all each]; auto. unfold set_all in IH. rewrite IH. destruct t; reflexivity. Qed.
Lemma set_all_content l : forall t, e_content (set_all t l) = e_content t.
Proof. induction l as [|a l IH]; intros t; cbn [set_all each]; auto. unfold set_all in IH. rewrite IH. destruct t; reflexivity. Qed.
Lemma set_all_with l ks : forall t, set_all (with_children t ks) l = with_children (set_all t l) ks.
Proof. induction l as [|a l IH]; intros t; cbn [set_all each]; auto. unfold set_all in IH. rewrite <- IH. destruct t; reflexivity. Qed.

Section Growing.
  Variable agrow : nat -> nat -> nat.
  Notation n_set_attr := (n_set_attr agrow).
  Notation set_attr_at := (set_attr_at agrow).

  (* ---------- attributes of a copied header ---------- *)
  Fixpoint n_sets (h : heap) (x : node) (l : list (string * string)) : heap * node :=
    match l with [] => (h, x) | (n, v) :: l' => let (h, x) := n_set_attr h x n v in n_sets h x l' end.
  Definition attr_array (h : heap) (a m : nat) : Prop := exists la, nth_error h a = Some (Ats la) /\ m <= List.length la.
  Lemma n_set_attr_array h x l v a m : attrs_ok h x (n_attrs h x) -> attr_array h a m -> attr_array (fst (n_set_attr h x l v)) a m.
  Proof.
    intros (la & A1 & A2 & A3) (lb & B1 & B2). unfold NormModel.n_set_attr.
    assert (Ec : ats h (n_at x) = la) by (unfold ats; rewrite A1; reflexivity). rewrite Ec.
    set (l' := attr_set (n_attrs h x) "" l v). destruct (Nat.leb (List.length l') (List.length la)) eqn:El; cbn [fst].
    - apply Nat.leb_le in El. destruct (Nat.eq_dec a (n_at x)) as [-> |Na].
      + exists (l' ++ skipn (List.length l') la)%list. rewrite set_nth_same by (apply nth_error_Some; congruence). split; auto.
        rewrite app_length, skipn_length. assert (lb = la) by congruence. subst lb. lia.
      + exists lb. rewrite set_nth_other by auto. auto.
    - unfold alloc_ats. cbn [fst]. exists lb. rewrite snoc_old by (apply nth_error_Some; congruence). auto.
  Qed.
  Lemma n_sets_ok l : forall h y t, rep h t y -> NoDup (foot h t y) ->
    let '(h1, y1) := n_sets h y l in
    rep h1 (set_all t l) y1 /\
    (exists a len, y1 = with_ats y a len /\ (a = n_at y \/ List.length h <= a) /\ a < List.length h1) /\
    List.length h <= List.length h1 /\ (forall a, a < List.length h -> a <> n_at y -> nth_error h1 a = nth_error h a) /\
    (forall a m, attr_array h a m -> attr_array h1 a m) /\ foots h1 (e_children t) (kids h1 y1) = foots h (e_children t) (kids h y).
  Proof.
    induction l as [|[n v] l IH]; intros h y t R N; cbn [n_sets set_all each].
    - split; [auto|]. split; [exists (n_at y), (n_alen y); split; [destruct y; reflexivity|split; [left; auto|]]|auto 10].
      apply (foot_bound t h y R). rewrite foot_eq. left. auto.
    - pose proof N as N'. rewrite foot_eq in N'. inversion N' as [|? ? N1 N2]; subst. inversion N2 as [|? ? N3 N4]; subst.
      pose proof (n_set_attr_ok agrow h y t n v R N1) as Ok. pose proof (fun a m => n_set_attr_array h y n v a m) as Ar.
      destruct (n_set_attr h y n v) as [h1 y1]. cbn [fst] in Ar. destruct Ok as (A & (a & len & Ex & Ea) & Ln & Fr & Bn).
      assert (Xa : n_arr y1 = n_arr y /\ n_len y1 = n_len y) by (rewrite Ex; auto). destruct Xa as [Xa Xl].
      assert (Bd : forall b, In b (n_arr y :: foots h (e_children t) (kids h y)) -> b < List.length h /\ b <> n_at y).
      { intros b Hb. split; [apply (foot_bound t h y R); rewrite foot_eq; right; auto|intros ->; auto]. }
      assert (F1 : forall b, In b (n_arr y :: foots h (e_children t) (kids h y)) -> nth_error h1 b = nth_error h b).
      { intros b Hb. apply Fr; apply Bd; auto. }
      assert (Ek : kids h1 y1 = kids h y). { unfold kids, cells. rewrite Xa, Xl, (F1 (n_arr y)) by (left; auto). reflexivity. }
      pose proof R as R'. apply rep_eq in R'. destruct R' as (R1 & R2 & R3 & R4 & (lc & K1 & K2) & R6).
      destruct (reps_frame h h1 _ _ R6) as [G1 G2]; [intros b Hb; apply F1; right; auto|].
      assert (Ena : n_at y1 = n_at y \/ List.length h <= n_at y1). { rewrite Ex. cbn [n_at with_ats]. destruct Ea; [auto|right; lia]. }
      set (t1 := set_attr t "" n v).
      assert (Et : e_children t1 = e_children t) by (destruct t; reflexivity).
      assert (Rt : rep h1 t1 y1).
      { apply rep_eq. rewrite Ek, Et. assert (En : n_name y1 = n_name y /\ n_scope y1 = n_scope y /\ n_content y1 = n_content y) by (rewrite Ex; auto).
        destruct En as (-> & -> & ->). destruct t as [tn ta tsc tc tk]. cbn [t1 set_attr with_attrs e_name e_scope e_content e_attrs] in *.
        do 3 (split; [assumption|]). split; [exact A|]. split; [|exact G1]. exists lc. rewrite Xa, Xl, F1 by (left; auto). auto. }
      assert (Nt : NoDup (foot h1 t1 y1)).
      { rewrite foot_eq, Ek, Et, Xa, G2. constructor; auto. intros H. destruct Ena as [E|E]; [rewrite E in H; auto|]. destruct (Bd _ H). lia. }
      pose proof (IH h1 y1 t1 Rt Nt) as IH'. unfold set_all in IH'. fold t1. destruct (n_sets h1 y1 l) as [h2 y2]. destruct IH' as (I1 & (a2 & len2 & I2 & I3 & I3') & I4 & I5 & I6 & I7).
      split; [exact I1|]. split; [|split; [lia|]]. { exists a2, len2. split; [rewrite I2, Ex; reflexivity|]. split; [|auto]. destruct I3 as [-> |I3]; [exact Ena|right; lia]. }
      split; [|split].
      + intros b Hb Hn. rewrite I5; [apply Fr; auto|lia|]. intros ->. destruct Ena as [E|E]; [congruence|lia].
      + intros b m Hb. apply I6. apply Ar; auto. pose proof (attrs_ok_eq _ _ _ R4) as Ee. rewrite Ee. exact R4.
      + rewrite Et in I7. rewrite I7, Ek, G2. reflexivity.
  Qed.

  (* ---------- el without its child number i ---------- *)
  Lemma cells_at h a l : nth_error h a = Some (Els l) -> cells h a = l.
  Proof. apply cells_ok. Qed.
  Lemma load_frame h h' p : nth_error h' (fst p) = nth_error h (fst p) -> load h' p = load h p.
  Proof. intros E. unfold load, cells. rewrite E. reflexivity. Qed.
  Lemma remove_clear h p x i lc : load h p = Some x -> nth_error h (n_arr x) = Some (Els lc) -> i < n_len x -> n_len x <= List.length lc -> n_arr x <> fst p ->
    let h' := clear_content (remove_kid h p i) p in
    let x' := mkNode (n_name x) (n_at x) (n_alen x) (n_scope x) "" (n_arr x) (n_len x - 1) in
    load h' p = Some x' /\ List.length h' = List.length h /\ (forall a, a <> n_arr x -> a <> fst p -> nth_error h' a = nth_error h a) /\
    kids_ok h' x' /\ kids h' x' = (firstn i (kids h x) ++ skipn (S i) (kids h x))%list /\ same_but h h' [n_arr x] p.
  Proof.
    intros L E Hi Hl Hn. cbn zeta. unfold remove_kid. rewrite L. rewrite (cells_ok _ _ _ E).
    set (new := (firstn i lc ++ skipn (S i) (firstn (n_len x) lc) ++ skipn (n_len x - 1) lc)%list). set (h1 := set_nth (n_arr x) (Els new) h).
    set (x1 := with_kids x (n_arr x) (n_len x - 1)). pose proof (load_bound _ _ _ L) as Lb.
    assert (Ea : n_arr x < List.length h) by (apply nth_error_Some; congruence).
    assert (L1 : load h1 p = Some x). { rewrite <- L. apply load_frame. apply set_nth_other. auto. }
    assert (L2 : load (put h1 p x1) p = Some x1) by (eapply load_put; eauto).
    unfold clear_content. rewrite L2. change (no_content x1) with (mkNode (n_name x) (n_at x) (n_alen x) (n_scope x) "" (n_arr x) (n_len x - 1)).
    set (x' := mkNode (n_name x) (n_at x) (n_alen x) (n_scope x) "" (n_arr x) (n_len x - 1)).
    set (h' := put (put h1 p x1) p x'). assert (Ln : List.length h' = List.length h) by (unfold h', h1; rewrite !put_length, set_nth_length; auto).
    assert (Ec : nth_error h' (n_arr x) = Some (Els new)). { unfold h'. rewrite !put_other by auto. apply set_nth_same. auto. }
    assert (Lnew : List.length new = List.length lc). { unfold new. rewrite !app_length, !skipn_length, !firstn_length. lia. }
    split; [eapply load_put; eauto|]. split; [auto|]. split; [|split; [|split]].
    - intros a H1 H2. unfold h'. rewrite !put_other by auto. apply set_nth_other. auto.
    - exists new. cbn [x' n_arr n_len]. split; [auto|lia].
    - unfold kids. cbn [x' n_arr n_len]. rewrite (cells_ok _ _ _ Ec), (cells_ok _ _ _ E). unfold new.
      assert (Es : firstn i (firstn (n_len x) lc) = firstn i lc) by (rewrite firstn_firstn; f_equal; lia). rewrite Es.
      rewrite app_assoc, firstn_app. assert (El : List.length (firstn i lc ++ skipn (S i) (firstn (n_len x) lc))%list = n_len x - 1) by (rewrite app_length, skipn_length, !firstn_length; lia).
      rewrite El, Nat.sub_diag, firstn_O, app_nil_r. rewrite <- El at 1. apply firstn_all.
    - assert (S1 : same_but h1 h' [] p). { eapply same_but_trans with (fp := []); [eapply put_same_but; exact L1|eapply put_same_but; exact L2|intros a []]. }
      destruct S1 as (S1 & S2 & l & l' & S3 & S4 & S5 & S6). split; [lia|]. split.
      + intros a Ha Hn1 Hp. rewrite S2; auto. * unfold h1. apply set_nth_other. intros ->. apply Hn1. left. auto. * unfold h1. rewrite set_nth_length. auto.
      + exists l, l'. split; [|auto]. rewrite <- S3. symmetry. unfold h1. apply set_nth_other. auto.
  Qed.

  Definition hide (P : Prop) := P.
  Ltac hid H := match type of H with ?P => change (hide P) in H end.
  Ltac inor := solve [assumption | reflexivity | symmetry; assumption | left; inor | right; inor].
  (* ---------- el without the child t, which gets attributes of its own ---------- *)
  Lemma foots_app h ks1 ks2 xs1 xs2 : List.length ks1 = List.length xs1 -> foots h (ks1 ++ ks2)%list (xs1 ++ xs2)%list = (foots h ks1 xs1 ++ foots h ks2 xs2)%list.
  Proof. revert xs1. induction ks1 as [|k ks1 IH]; intros [|x xs1] H; try discriminate; cbn [app foots]; auto. rewrite IH, app_assoc by (cbn in H; lia). reflexivity. Qed.
  Lemma foot_with h t a y : foot h (with_attrs t a) y = foot h t y.
  Proof. destruct t. reflexivity. Qed.
  Lemma detach h e p x ks1 t ks2 xs1 y xs2 tas u q : good h e p x -> e_children e = (ks1 ++ t :: ks2)%list -> kids h x = (xs1 ++ y :: xs2)%list -> List.length xs1 = List.length ks1 ->
    let '(h1, t1) := n_sets h y tas in
    let h4 := clear_content (remove_kid (set_attr_at h1 p u q) p (List.length ks1)) p in
    let e' := detached e u q (ks1 ++ ks2)%list in
    exists x', load h4 p = Some x' /\ rep h4 e' x' /\ n_arr x' = n_arr x /\ kids h4 x' = (xs1 ++ xs2)%list /\ rep h4 (set_all t tas) t1 /\ n_arr t1 = n_arr y /\ n_len t1 = n_len y /\
      NoDup (foot h4 e' x' ++ foot h4 (set_all t tas) t1)%list /\ grown h (foot h4 e' x' ++ foot h4 (set_all t tas) t1)%list (foot h e x) /\ same_but h h4 (foot h e x) p /\
      (forall a, In a (foots h ks1 xs1 ++ foots h ks2 xs2 ++ n_arr y :: foots h (e_children t) (kids h y))%list -> nth_error h4 a = nth_error h a).
  Proof.
    intros (L & R & N & Np) Ec Ex Hl. pose proof R as R'. apply rep_eq in R'. destruct R' as (R1 & R2 & R3 & R4 & (lc & K1 & K2) & R6). rewrite Ec, Ex in R6.
    apply Forall2_app_inv_l in R6. destruct R6 as (xa & xb & B1 & B2 & Exy). inversion B2 as [|? y' ? xb' Ry B3]; subst.
    assert (El : List.length xa = List.length xs1) by (rewrite <- (Forall2_len _ _ _ B1), Hl; auto).
    assert (Exa : xs1 = xa /\ y = y' /\ xs2 = xb').
    { clear -Exy El. revert xs1 Exy El. induction xa as [|z xa IH]; intros [|z' xs1] E El; try discriminate; cbn [app] in E; [injection E; auto|].
      injection E as -> E. cbn in El. destruct (IH xs1 E) as (-> & -> & ->); auto. }
    destruct Exa as (<- & <- & <-). clear Exy El.
    pose proof (foot_bound e h x R) as Bd. rewrite foot_eq, Ec, Ex, foots_app in N, Np, Bd by auto 12. cbn [foots] in N, Np, Bd. rewrite foot_eq in N, Np, Bd.
    set (F1 := foots h ks1 xs1) in *. set (F2 := foots h ks2 xs2) in *. set (F3 := foots h (e_children t) (kids h y)) in *.
    assert (Ny : NoDup (foot h t y)).
    { rewrite foot_eq. fold F3. inversion N as [|? ? _ N2]; subst. inversion N2 as [|? ? _ N3]; subst. apply nodup_app_inv in N3. destruct N3 as (_ & N3 & _).
      change (NoDup ((n_at y :: n_arr y :: F3) ++ F2)%list) in N3. apply nodup_app_inv in N3. tauto. }
    pose proof (n_sets_ok tas h y t Ry Ny) as Ok. destruct (n_sets h y tas) as [h1 t1]. destruct Ok as (O1 & (a & len & O2 & O3 & O3') & O4 & O5 & O6 & O7). cbn zeta.
    (* all but the attributes of y are as before *)
    assert (NI : NoDup (n_at x :: n_arr x :: (F1 ++ (n_at y :: n_arr y :: F3) ++ F2))%list) by exact N. clear N.
    pose proof (proj1 (NoDup_cons_iff _ _) NI) as [Na NI2]. pose proof (proj1 (NoDup_cons_iff _ _) NI2) as [Nb NI3]. apply nodup_app_inv in NI3. destruct NI3 as (Nf1 & Nr & Nd1). change (NoDup ((n_at y :: n_arr y :: F3) ++ F2)%list) in Nr. apply nodup_app_inv in Nr. destruct Nr as (Nt & Nf2 & Nd2).
    pose proof (proj1 (NoDup_cons_iff _ _) Nt) as [Nc Nt2]. pose proof (proj1 (NoDup_cons_iff _ _) Nt2) as [Nd Nf3].
    cbn [In app] in Na, Nb, Np, Bd. rewrite in_app_iff in Na, Nb, Np. cbn [In app] in Na, Nb, Np. rewrite in_app_iff in Na, Nb, Np. hid Na. hid Nb. hid Np. hid Nc.
    assert (Bd' : forall b, n_at x = b \/ n_arr x = b \/ In b F1 \/ n_at y = b \/ n_arr y = b \/ In b F3 \/ In b F2 -> b < List.length h).
    { intros b Hb. apply Bd. rewrite in_app_iff. cbn [In app]. rewrite in_app_iff. tauto. } clear Bd.
    assert (Sep : forall b, In b F1 \/ In b F2 \/ n_arr y = b \/ In b F3 -> b <> n_at y).
    { intros b Hb ->. destruct Hb as [Hb|[Hb|[Hb|Hb]]].
      - apply (Nd1 _ Hb). left. auto.
      - apply (Nd2 (n_at y)); [left; auto|auto].
      - apply Nc. left. auto.
      - apply Nc. right. auto. }
    assert (Fr1 : forall b, n_at x = b \/ n_arr x = b \/ In b F1 \/ In b F2 \/ n_arr y = b \/ In b F3 -> nth_error h1 b = nth_error h b).
    { intros b Hb. apply O5; [apply Bd'; clear -Hb; tauto|]. destruct Hb as [<- |[<- |Hb]]; [intros E; apply Na; auto|intros E; apply Nb; auto|apply Sep; auto]. }
    pose proof (load_bound _ _ _ L) as Lb. assert (Lp1 : load h1 p = Some x). { rewrite <- L. apply load_frame. apply O5; [auto|]. intros E. apply Np. auto. }
    set (tq := with_attrs t (n_attrs h1 y)). set (eq := with_children e (ks1 ++ tq :: ks2)%list).
    assert (Ek1 : kids h1 x = kids h x). { unfold kids, cells. rewrite (Fr1 (n_arr x)) by auto 12. reflexivity. }
    assert (Eky : kids h1 y = kids h y). { unfold kids, cells. rewrite (Fr1 (n_arr y)) by auto 12. reflexivity. }
    pose proof Ry as Ry'. apply rep_eq in Ry'. destruct Ry' as (Y1 & Y2 & Y3 & (la & Y4 & Y4' & _) & (lcy & Y5 & Y5') & Y6).
    destruct (reps_frame h h1 _ _ B1) as [G1 E1]; [intros b Hb; apply Fr1; auto 12|].
    destruct (reps_frame h h1 _ _ B3) as [G2 E2]; [intros b Hb; apply Fr1; auto 12|].
    destruct (reps_frame h h1 _ _ Y6) as [G3 E3]; [intros b Hb; apply Fr1; auto 10|].
    assert (Rq : rep h1 tq y).
    { apply rep_eq. unfold tq. rewrite Eky. destruct t as [tn ta tsc tc tk]. cbn [with_attrs e_name e_scope e_content e_attrs e_children] in *.
      do 3 (split; [assumption|]). split; [|split; [|exact G3]].
      - destruct (O6 (n_at y) (n_alen y)) as (lb & Q1 & Q2); [exists la; auto|]. exists lb. split; [auto|]. split; [auto|]. unfold n_attrs, ats. rewrite Q1. reflexivity.
      - exists lcy. rewrite Fr1 by auto 12. auto. }
    assert (Rx : rep h1 eq x).
    { apply rep_eq. unfold eq. rewrite Ek1, Ex. destruct e as [en ea esc ec ek]. cbn [with_children e_name e_scope e_content e_attrs e_children] in *.
      do 3 (split; [assumption|]). split; [|split; [|apply Forall2_app; [auto|constructor; auto]]].
      - destruct R4 as (lx & Q1 & Q2). exists lx. rewrite Fr1 by auto 12. auto.
      - exists lc. rewrite Fr1 by auto 12. auto. }
    assert (Efq : foot h1 eq x = (n_at x :: n_arr x :: (F1 ++ (n_at y :: n_arr y :: F3) ++ F2))%list).
    { rewrite foot_eq, Ek1, Ex. unfold eq. assert (E' : e_children (with_children e (ks1 ++ tq :: ks2)%list) = (ks1 ++ tq :: ks2)%list) by (destruct e; reflexivity).
      rewrite E', foots_app by auto 12. cbn [foots]. unfold tq. rewrite foot_with, foot_eq, Eky, E1, E2, E3. reflexivity. }
    assert (Gq : good h1 eq p x).
    { split; [auto|]. split; [auto|]. rewrite Efq. split; [exact NI|]. cbn [In app]. rewrite in_app_iff. cbn [In app]. rewrite in_app_iff. intros HH. apply Np. clear -HH. tauto. }
    destruct (set_attr_step agrow h1 eq p x u q Gq) as (x2 & L2 & X1 & X2 & X3 & X4 & X5 & X6 & X7). set (h2 := set_attr_at h1 p u q) in *.
    assert (Efk : foots h1 (e_children eq) (kids h1 x) = (F1 ++ (n_at y :: n_arr y :: F3) ++ F2)%list) by (rewrite foot_eq in Efq; congruence).
    rewrite Efk in X7. cbn [In] in X7.
    assert (Fr2 : forall b, n_arr x = b \/ In b F1 \/ In b F2 \/ n_arr y = b \/ In b F3 -> nth_error h2 b = nth_error h b).
    { intros b Hb. rewrite X7, Fr1; [auto|tauto|]. rewrite in_app_iff. cbn [In app]. rewrite in_app_iff. tauto. }
    assert (Hi : List.length ks1 < n_len x). { rewrite (rep_len h e x R), Ec, app_length. cbn. lia. }
    assert (Nx2 : n_arr x2 <> fst p) by (rewrite X1; intros E; apply Np; auto).
    assert (K2' : nth_error h2 (n_arr x2) = Some (Els lc)) by (rewrite X1, Fr2 by auto 12; auto).
    pose proof (remove_clear h2 p x2 (List.length ks1) lc L2 K2') as Rc. rewrite X2 in Rc. specialize (Rc Hi K2 Nx2). cbn zeta in Rc.
    set (h4 := clear_content (remove_kid h2 p (List.length ks1)) p) in *. set (x4 := mkNode (n_name x2) (n_at x2) (n_alen x2) (n_scope x2) "" (n_arr x2) (n_len x - 1)) in *.
    destruct Rc as (Q1 & Q2 & Q3 & Q4 & Q5 & Q6). rewrite X1 in Q3, Q6.
    assert (Ek2 : kids h2 x2 = (xs1 ++ y :: xs2)%list). { unfold kids, cells. rewrite X1, X2, Fr2 by auto 12. fold (cells h (n_arr x)). exact Ex. }
    rewrite Ek2 in Q5. assert (Q5' : kids h4 x4 = (xs1 ++ xs2)%list).
    { rewrite Q5, <- Hl. clear. induction xs1 as [|z xs1 IH]; cbn [app firstn skipn List.length] in *; [reflexivity|]. f_equal. exact IH. }
    assert (Fr4 : forall b, In b F1 \/ In b F2 \/ n_arr y = b \/ In b F3 -> nth_error h4 b = nth_error h b).
    { intros b Hb. rewrite Q3; [apply Fr2; auto| |].
      - intros ->. apply Nb. tauto.
      - intros ->. apply Np. tauto. }
    assert (Ln2 : List.length h1 <= List.length h2) by (destruct X6; auto).
    pose proof X3 as X3'. apply rep_eq in X3'. destruct X3' as (Z1 & Z2 & Z3 & (lz & Z4 & Z4' & Z4'') & _ & _).
    assert (Eea : e_attrs (set_attr eq "" u q) = attr_set (e_attrs e) "" u q) by (destruct e; reflexivity). rewrite Eea in Z4''.
    assert (Een : e_name (set_attr eq "" u q) = e_name e /\ e_scope (set_attr eq "" u q) = e_scope e) by (destruct e; auto). destruct Een as [Een Ees].
    (* where the new arrays are *)
    assert (Pa : n_at x2 = n_at x \/ List.length h1 <= n_at x2).
    { destruct (X5 (n_at x2)) as [H|H]; [rewrite foot_eq; left; auto| |auto]. rewrite Efq in H. destruct H as [H|H]; [auto|exfalso].
      rewrite foot_eq in X4. pose proof (proj1 (NoDup_cons_iff _ _) X4) as [W1 W2]. apply W1. rewrite X1. destruct H as [H|H]; [left; auto|right].
      assert (Ef2 : foots h2 (e_children (set_attr eq "" u q)) (kids h2 x2) = foots h1 (e_children eq) (kids h1 x)).
      { assert (Ekk : kids h2 x2 = kids h1 x) by (rewrite Ek1; rewrite Ek2; auto). rewrite Ekk. assert (Ecc : e_children (set_attr eq "" u q) = e_children eq) by (destruct eq; reflexivity). rewrite Ecc.
        apply rep_eq in Rx. destruct Rx as (_ & _ & _ & _ & _ & Rxk). apply (reps_frame h1 h2 _ _ Rxk). intros b Hb. apply X7. right. rewrite Efk in Hb. exact Hb. }
      rewrite Ef2, Efk. exact H. }
    assert (Pf : forall b, b < List.length h2 -> b <> n_arr x -> b <> fst p -> nth_error h4 b = nth_error h2 b) by (intros; apply Q3; auto).
    assert (Ba : n_at x2 < List.length h2) by (apply nth_error_Some; congruence).
    assert (Bax : n_at x2 <> n_arr x). { destruct Pa as [-> |Pa]; [intros E; apply Na; auto|]. specialize (Bd' (n_arr x)). intros E. assert (n_arr x < List.length h) by auto 12. lia. }
    assert (Bap : n_at x2 <> fst p). { destruct Pa as [-> |Pa]; [intros E; apply Np; auto|]. intros E. lia. }
    assert (Pt : n_at t1 = n_at y \/ List.length h <= n_at t1) by (rewrite O2; exact O3).
    assert (Lt1 : n_at t1 < List.length h1) by (rewrite O2; exact O3').
    assert (Bh : forall b, In b F1 \/ In b F2 \/ n_arr y = b \/ In b F3 -> b < List.length h) by (intros b Hb; apply Bd'; clear -Hb; tauto).
    assert (Ht4 : nth_error h4 (n_at t1) = nth_error h1 (n_at t1)).
    { assert (Hy : n_at y < List.length h) by (apply Bd'; inor).
      assert (Hax : n_at x < List.length h) by (apply Bd'; inor). assert (Hrx : n_arr x < List.length h) by (apply Bd'; inor).
      rewrite Q3.
      - destruct Pt as [-> |Pt]; [apply X7; rewrite in_app_iff; cbn [In app]; inor|]. destruct X6 as (_ & X6 & _). apply X6; [auto| |intros E; lia].
        rewrite Efq. intros Hin. assert (n_at t1 < List.length h); [|lia]. apply Bd'. cbn [In app] in Hin. rewrite in_app_iff in Hin. cbn [In app] in Hin. rewrite in_app_iff in Hin. clear -Hin. tauto.
      - destruct Pt as [-> |Pt]; [intros E; apply Nb; auto|lia].
      - destruct Pt as [-> |Pt]; [intros E; apply Np; auto|lia]. }
    destruct (reps_frame h h4 _ _ B1) as [G1' E1']; [intros b Hb; apply Fr4; auto 12|].
    destruct (reps_frame h h4 _ _ B3) as [G2' E2']; [intros b Hb; apply Fr4; auto 12|].
    destruct (reps_frame h h4 _ _ Y6) as [G3' E3']; [intros b Hb; apply Fr4; auto 10|].
    assert (Ekt : kids h4 t1 = kids h y). { unfold kids, cells. rewrite O2. cbn [n_len n_arr with_ats]. rewrite Fr4 by auto 12. reflexivity. }
    assert (Ef4 : foot h4 (detached e u q (ks1 ++ ks2)%list) x4 = n_at x2 :: n_arr x :: (F1 ++ F2)%list).
    { rewrite foot_eq, Q5'. cbn [detached e_children x4 n_at n_arr]. rewrite X1, foots_app, E1', E2' by auto 12. reflexivity. }
    assert (Ef5 : foot h4 (set_all t tas) t1 = n_at t1 :: n_arr y :: F3).
    { rewrite foot_eq, set_all_kids, Ekt, E3', O2. reflexivity. }
    exists x4. split; [exact Q1|]. split; [|split; [exact X1|split; [exact Q5'|split; [|split; [rewrite O2; auto|split; [rewrite O2; auto|]]]]]].
    - apply rep_eq. cbn [detached e_name e_scope e_content e_attrs e_children]. rewrite Q5'. cbn [x4 n_name n_scope n_content]. rewrite <- Een, <- Ees. do 2 (split; [assumption|]). split; [reflexivity|].
      split; [|split; [exact Q4|apply Forall2_app; auto]]. exists lz. cbn [x4 n_at n_alen]. rewrite Pf by auto 12. auto.
    - apply rep_eq in O1. destruct O1 as (P1 & P2 & P3 & (lt & P4 & P5) & (lk & P6 & P7) & P8). apply rep_eq. rewrite Ekt, set_all_kids. do 3 (split; [assumption|]). split; [|split; [|exact G3']].
      + exists lt. rewrite Ht4. auto.
      + exists lcy. rewrite O2. cbn [n_arr n_len with_ats]. rewrite Fr4 by auto 12. auto.
    - rewrite Ef4, Ef5. split; [|split; [|split]].
      + cbn [app]. constructor; [|constructor].
        * assert (Hne : forall b, n_arr x = b \/ In b F1 \/ In b F2 \/ n_arr y = b \/ In b F3 -> n_at x2 <> b).
          { intros b Hb E. rewrite E in Pa. destruct Pa as [Pa|Pa]; [apply Na; rewrite <- Pa; clear -Hb; tauto|]. assert (b < List.length h) by (apply Bd'; clear -Hb; tauto). lia. }
          cbn [In]. rewrite in_app_iff. cbn [In]. rewrite in_app_iff. intros [H|[[H|H]|[H|[H|H]]]]; try (apply (Hne (n_at x2)); [inor|reflexivity]).
          destruct Pa as [Pa|Pa]; [|lia]. destruct Pt as [Pt|Pt]; [apply Na; rewrite <- Pa, <- H, Pt; inor|]. assert (n_at x < List.length h) by (apply Bd'; inor). lia.
        * rewrite in_app_iff. cbn [In]. rewrite in_app_iff. intros [[H|H]|[H|[H|H]]]; try (apply Nb; inor).
          destruct Pt as [Pt|Pt]; [apply Nb; rewrite <- H, Pt; inor|]. assert (n_arr x < List.length h) by (apply Bd'; inor). lia.
        * apply nodup_app; [apply nodup_app; auto; intros b H1 H2; apply (Nd1 b H1); apply in_or_app; auto| |].
          -- constructor; [|constructor; auto]. cbn [In]. intros H. destruct Pt as [Pt|Pt]; [apply Nc; rewrite <- Pt; exact H|]. assert (n_at t1 < List.length h) by (apply Bh; clear -H; tauto). lia.
          -- intros b H1 H2. rewrite in_app_iff in H1. assert (Hb : b < List.length h) by (apply Bh; clear -H1; tauto).
             destruct H2 as [H2|H2].
             ++ destruct Pt as [Pt|Pt]; [|lia]. rewrite Pt in H2. eapply Sep; [|symmetry; exact H2]. clear -H1. tauto.
             ++ destruct H1 as [H1|H1]; [apply (Nd1 b H1); apply in_or_app; left; right; exact H2|apply (Nd2 b); [right; exact H2|exact H1]].
      + intros b Hb. rewrite foot_eq, Ec, Ex, foots_app by auto 12. cbn [foots]. rewrite foot_eq. fold F1 F2 F3. cbn [In app] in *. rewrite !in_app_iff in *. cbn [In app] in *. rewrite !in_app_iff in *.
        destruct Hb as [Hb|[Hb|[[Hb|Hb]|[Hb|[Hb|Hb]]]]]; try (left; inor).
        * destruct Pa as [Pa|Pa]; [left; left; congruence|right; lia].
        * destruct Pt as [Pt|Pt]; [left; rewrite <- Hb, Pt; inor|right; lia].
      + assert (Efe : foot h e x = (n_at x :: n_arr x :: (F1 ++ (n_at y :: n_arr y :: F3) ++ F2))%list). { rewrite foot_eq, Ec, Ex, foots_app by auto 12. cbn [foots]. rewrite foot_eq. reflexivity. }
        rewrite Efe. rewrite Efq in X6. destruct Q6 as (W1 & W2 & l1 & l2 & W3 & W4 & W5 & W6), X6 as (V1 & V2 & m1 & m2 & V3 & V4 & V5 & V6).
        assert (m2 = l1) by congruence. subst m2. split; [lia|]. split.
        * intros b Hb Hn Hpb. rewrite W2; [|lia|intros [<- |[]]; apply Hn; right; left; auto|auto]. rewrite V2; [apply O5; [auto|]|lia|auto|auto].
          intros ->. apply Hn. right. right. apply in_or_app. right. left. auto.
        * exists m1, l2. split; [rewrite <- V3; symmetry; apply O5; [auto|intros E; apply Np; auto]|]. split; [auto|]. split; [lia|]. intros j Hj. rewrite W6, V6; auto.
      + intros b Hb. apply Fr4. rewrite !in_app_iff in Hb. cbn [In] in Hb. clear -Hb. tauto.
  Qed.
End Growing.

(* ---------- p.Children = append(p.Children, x) ---------- *)
Section Append.
  Variable grow : nat -> nat -> nat.
  Notation append_kid := (append_kid grow).
  Lemma append_ok h root r t : load h root = Some r -> kids_ok h r -> fst root <> n_arr r ->
    let h' := append_kid h root t in
    exists r', load h' root = Some r' /\ r' = with_kids r (n_arr r') (S (n_len r)) /\ kids_ok h' r' /\ kids h' r' = (kids h r ++ [t])%list /\
      (n_arr r' = n_arr r \/ n_arr r' = List.length h) /\ List.length h <= List.length h' /\
      (forall a, a < List.length h -> a <> fst root -> a <> n_arr r -> nth_error h' a = nth_error h a) /\
      (forall q z, load h q = Some z -> q <> root -> (fst q = n_arr r -> snd q < n_len r) -> load h' q = Some z) /\
      (S (n_len r) <= List.length (cells h (n_arr r)) -> n_arr r' = n_arr r) /\ List.length (cells h' (n_arr r)) = List.length (cells h (n_arr r)).
  Proof.
    intros L (lc & K1 & K2) Hn. cbn zeta. unfold NormModel.append_kid. rewrite L, (cells_ok _ _ _ K1).
    pose proof (load_bound _ _ _ L) as Lb. assert (Ha : n_arr r < List.length h) by (apply nth_error_Some; congruence).
    assert (Pl : forall h0 r1, load h0 root = Some r -> forall q z, load h0 q = Some z -> q <> root -> load (put h0 root r1) q = Some z).
    { intros h0 r1 L0 q z Lq Nq. destruct (Nat.eq_dec (fst q) (fst root)) as [E|E].
      - destruct (load_array _ _ _ L0) as (l & E1 & E2). unfold load, put. rewrite (cells_ok _ _ _ E1). unfold load in Lq. rewrite E in *. rewrite (cells_ok _ _ _ E1) in Lq.
        unfold cells. rewrite set_nth_same by (apply nth_error_Some; congruence). rewrite set_nth_other; auto. intros E3. apply Nq. destruct q, root; cbn in *; congruence.
      - rewrite <- Lq. apply load_frame. apply put_other. auto. }
    destruct (Nat.ltb (n_len r) (List.length lc)) eqn:El.
    - apply Nat.ltb_lt in El. set (h1 := put h (n_arr r, n_len r) t). set (r1 := with_kids r (n_arr r) (S (n_len r))). exists r1.
      assert (L1 : load h1 root = Some r). { rewrite <- L. apply load_frame. apply put_other. auto. }
      assert (E1 : nth_error (put h1 root r1) (n_arr r) = Some (Els (set_nth (n_len r) t lc))).
      { rewrite put_other by auto. unfold h1, put. cbn [fst snd]. rewrite (cells_ok _ _ _ K1). apply set_nth_same. auto. }
      split; [eapply load_put; eauto|]. split; [reflexivity|]. split; [|split; [|split; [left; reflexivity|split; [|split; [|split; [|split]]]]]].
      + exists (set_nth (n_len r) t lc). cbn [r1 with_kids n_arr n_len]. split; [auto|]. rewrite set_nth_length. lia.
      + unfold kids. cbn [r1 with_kids n_arr n_len]. rewrite (cells_ok _ _ _ E1), (cells_ok _ _ _ K1). clear -El. revert El. generalize (n_len r). induction lc as [|z lc IH]; intros [|n] H; cbn [List.length] in H; try lia; cbn [set_nth firstn app]; [reflexivity|].
        f_equal. apply IH. lia.
      + unfold h1. rewrite !put_length. auto.
      + intros a _ H1 H2. unfold h1. rewrite !put_other; auto.
      + intros q z Lq Nq Hq. apply Pl; auto. destruct (Nat.eq_dec (fst q) (n_arr r)) as [E|E].
        * unfold load, h1, put in *. cbn [fst snd] in *. rewrite E in *. rewrite (cells_ok _ _ _ K1) in *. unfold cells. rewrite set_nth_same by auto. rewrite set_nth_other; auto. specialize (Hq eq_refl). lia.
        * rewrite <- Lq. apply load_frame. apply put_other. auto.
      + auto.
      + rewrite (cells_ok _ _ _ E1). apply set_nth_length.
    - apply Nat.ltb_ge in El. assert (Eln : List.length lc = n_len r) by lia. unfold alloc. rewrite <- Eln, firstn_all.
      set (new := ((lc ++ [t]) ++ repeat zero_node (grow (List.length lc) (S (List.length lc)) - List.length (lc ++ [t])))%list).
      set (h1 := (h ++ [Els new])%list). set (r1 := with_kids r (List.length h) (S (List.length lc))). exists r1.
      assert (L1 : load h1 root = Some r) by (unfold h1; rewrite snoc_load by auto; auto).
      assert (E1 : nth_error (put h1 root r1) (List.length h) = Some (Els new)). { rewrite put_other by lia. apply snoc_new. }
      split; [eapply load_put; eauto|]. split; [reflexivity|]. split; [|split; [|split; [right; reflexivity|split; [|split; [|split; [|split]]]]]].
      + exists new. cbn [r1 with_kids n_arr n_len]. split; [auto|]. unfold new. rewrite !app_length. cbn [List.length]. lia.
      + unfold kids. cbn [r1 with_kids n_arr n_len]. rewrite (cells_ok _ _ _ E1), (cells_ok _ _ _ K1). unfold new. rewrite <- Eln, firstn_all.
        assert (Es : S (List.length lc) = List.length (lc ++ [t])%list) by (rewrite app_length; cbn [List.length]; lia).
        rewrite firstn_app, Es, Nat.sub_diag, firstn_O, app_nil_r. apply firstn_all.
      + rewrite put_length. unfold h1. rewrite app_length. lia.
      + intros a H0 H1 H2. rewrite put_other by auto. apply snoc_old. auto.
      + intros q z Lq Nq Hq. apply Pl; auto. unfold h1. rewrite snoc_load; [auto|]. eapply load_bound; eauto.
      + lia.
      + unfold cells. rewrite put_other by auto. unfold h1. rewrite snoc_old by auto. rewrite K1. reflexivity.
  Qed.

  Lemma append_rcap h root r t : load h root = Some r -> kids_ok h r -> fst root <> n_arr r ->
    List.length (cells (append_kid h root t) (fst root)) = List.length (cells h (fst root)).
  Proof.
    intros L (lc & K1 & K2) Hn. unfold NormModel.append_kid. rewrite L, (cells_ok _ _ _ K1).
    pose proof (load_bound _ _ _ L) as Lb. destruct (load_array _ _ _ L) as (l & E1 & E2).
    assert (P : forall h0 y, nth_error h0 (fst root) = Some (Els l) -> List.length (cells (put h0 root y) (fst root)) = List.length l).
    { intros h0 y E. unfold put. rewrite (cells_ok _ _ _ E). unfold cells. rewrite set_nth_same by (apply nth_error_Some; congruence). apply set_nth_length. }
    rewrite (cells_ok _ _ _ E1). destruct (Nat.ltb (n_len r) (List.length lc)) eqn:El; unfold alloc; apply P.
    - rewrite put_other by auto. exact E1.
    - rewrite snoc_old by auto. exact E1.
  Qed.
End Append.
