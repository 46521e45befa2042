(* Moving anonymous types to the top level: the children of the schema itself. *)
From Verif Require Import Base ScopeModel TreeModel TreeSpec TreeProofs BuiltinModel XsdModel XsdProofs NormModel NormMem NormAttr NormOps NormPass NormSpec NormHoistSpec NormHoistMem NormHoist.
From Coq Require Import Permutation.
Local Open Scope string_scope.

Lemma set_nth_at {A} (l : list A) x x' m : set_nth (List.length l) x' (l ++ x :: m)%list = (l ++ x' :: m)%list.
Proof. induction l as [|y l IH]; cbn [List.length app set_nth]; [reflexivity|]. rewrite IH. reflexivity. Qed.
Lemma nth_error_at {A} (l : list A) x m : nth_error (l ++ x :: m)%list (List.length l) = Some x.
Proof. induction l; cbn; auto. Qed.
Lemma nodup_replace {A} (u v w v' t : list A) : NoDup (u ++ v ++ w)%list -> NoDup (v' ++ t)%list -> (forall a, In a (v' ++ t)%list -> ~ In a u /\ ~ In a w) -> NoDup ((u ++ v' ++ w) ++ t)%list.
Proof.
  intros N1 N2 D. apply nodup_app_inv in N1. destruct N1 as (Nu & Nvw & D1). apply nodup_app_inv in Nvw. destruct Nvw as (_ & Nw & _).
  assert (P : Permutation ((u ++ w) ++ (v' ++ t)) ((u ++ v' ++ w) ++ t)).
  { rewrite <- !app_assoc. apply Permutation_app_head. rewrite !app_assoc. apply Permutation_app_tail. apply Permutation_app_comm. }
  eapply Permutation_NoDup; [exact P|]. apply nodup_app; auto.
  - apply nodup_app; auto. intros a Ha Hb. apply (D1 a Ha), in_or_app. auto.
  - intros a Ha Hb. destruct (D a Hb) as [H1 H2]. apply in_app_or in Ha. tauto.
Qed.

Lemma foots_frame ks xs h h' : Forall2 (rep h) ks xs -> (forall a, In a (foots h ks xs) -> nth_error h' a = nth_error h a) -> Forall2 (rep h') ks xs /\ foots h' ks xs = foots h ks xs.
Proof.
  induction 1 as [|k x ks xs R _ IH]; intros F; cbn [foots] in *; auto. destruct (rep_frame k h h' x R) as [R' ->]; [intros a Ha; apply F, in_or_app; auto|].
  destruct IH as [B ->]; [intros a Ha; apply F, in_or_app; auto|]. auto.
Qed.

Lemma top_step h h' root e r r' kd k rest xd x xr k' x' ts tn : good h (with_children e (kd ++ k :: rest)%list) root r -> kids h r = (xd ++ x :: xr)%list -> List.length xd = List.length kd ->
  ext h h' root r r' (xd ++ x' :: xr)%list tn (foot h k x) [(n_arr r, List.length xd)] ->
  rep h' k' x' -> Forall2 (rep h') ts tn -> NoDup (foot h' k' x' ++ foots h' ts tn)%list -> grown h (foot h' k' x' ++ foots h' ts tn)%list (foot h k x) ->
  ~ In (n_arr r') (foot h' k' x' ++ foots h' ts tn)%list ->
  good h' (with_children e ((kd ++ k' :: rest) ++ ts)%list) root r' /\ kids h' r' = ((xd ++ x' :: xr) ++ tn)%list /\
  grown h (foot h' (with_children e ((kd ++ k' :: rest) ++ ts)%list) r') (foot h (with_children e (kd ++ k :: rest)%list) r) /\
  same_but h h' (foot h (with_children e (kd ++ k :: rest)%list) r) root /\
  (forall a, In a (foots h kd xd ++ foots h rest xr)%list -> nth_error h' a = nth_error h a).
Proof.
  intros (L & R & N & Np) Ek Hl X Rk Rt Nk Gk Na. set (E := with_children e (kd ++ k :: rest)%list) in *.
  assert (Ee : e_children E = (kd ++ k :: rest)%list) by (unfold E; destruct e; reflexivity).
  assert (Eo : forall ks, e_children (with_children e ks) = ks) by (intros; destruct e; reflexivity).
  pose proof (foot_bound E h r R) as Bd. pose proof R as R'. apply rep_eq in R'. destruct R' as (R1 & R2 & R3 & R4 & R5 & R6). rewrite Ee, Ek in R6.
  apply Forall2_app_inv_l in R6. destruct R6 as (xa & xb & B1 & B2 & Ex). inversion B2 as [|? z ? xc Rx B3]; subst.
  assert (Exx : xd = xa /\ x = z /\ xr = xc).
  { pose proof (Forall2_len _ _ _ B1) as El. assert (El2 : List.length xd = List.length xa) by lia. clear -Ex El2. revert xa Ex El2. induction xd as [|w xd IH]; intros [|w' xa] E El; try discriminate; cbn [app] in E; [injection E; auto|]. injection E as -> E. cbn in El. destruct (IH xa E) as (-> & -> & ->); auto. }
  destruct Exx as (<- & <- & <-). clear Ex B2.
  assert (Ef : foot h E r = n_at r :: n_arr r :: (foots h kd xd ++ foot h k x ++ foots h rest xr)%list) by (rewrite foot_eq, Ee, Ek, foots_app by auto; reflexivity).
  rewrite Ef in N, Np, Bd. set (U := foots h kd xd) in *. set (V := foot h k x) in *. set (W := foots h rest xr) in *.
  apply NoDup_cons_iff in N. destruct N as [N1 N]. apply NoDup_cons_iff in N. destruct N as [N2 N3]. cbn [In] in N1, Np. rewrite !in_app_iff in N1, N2, Np.
  assert (N3' := N3). apply nodup_app_inv in N3'. destruct N3' as (_ & N4 & D1). apply nodup_app_inv in N4. destruct N4 as (_ & _ & D2).
  assert (Br : fst root < List.length h) by (eapply load_bound; eauto).
  destruct X as [X1 X2 X3 X4 X5 X6 X7 X8 X9 X10 X11]. cbn [map fst] in X2.
  assert (Fr : forall a, In a (U ++ W)%list \/ a = n_at r -> nth_error h' a = nth_error h a).
  { intros a Ha. apply X2.
    - apply Bd. cbn [In]. rewrite !in_app_iff in *. destruct Ha as [Ha|Ha]; [tauto|left; auto].
    - destruct Ha as [Ha|Ha]; [apply in_app_or in Ha; destruct Ha as [Ha|Ha]; intros Hv; [apply (D1 a Ha), in_or_app; auto|exact (D2 a Hv Ha)]|subst a; tauto].
    - intros [H|[]]. subst a. destruct Ha as [Ha|Ha]; [apply in_app_or in Ha; tauto|]. apply N1. left. auto.
    - intros ->. destruct Ha as [Ha|Ha]; [apply in_app_or in Ha; tauto|]. apply Np. left. auto.
    - intros ->. destruct Ha as [Ha|Ha]; [apply in_app_or in Ha; tauto|]. apply N1. left. auto. }
  assert (B1' : Forall2 (rep h') kd xd /\ foots h' kd xd = U) by (apply foots_frame; [exact B1|intros a Ha; apply Fr; left; apply in_or_app; auto]).
  assert (B3' : Forall2 (rep h') rest xr /\ foots h' rest xr = W) by (apply foots_frame; [exact B3|intros a Ha; apply Fr; left; apply in_or_app; auto]).
  destruct B1' as [B1' E1], B3' as [B3' E3].
  assert (Hat : n_at r' = n_at r /\ n_alen r' = n_alen r /\ n_name r' = n_name r /\ n_scope r' = n_scope r /\ n_content r' = n_content r) by (rewrite X5; cbn; auto).
  destruct Hat as (H1 & H2 & H3 & H4 & H5).
  assert (Rr : rep h' (with_children e ((kd ++ k' :: rest) ++ ts)%list) r').
  { apply rep_eq. rewrite H3, H4, H5, Eo, X7. unfold E in R1, R2, R3, R4. destruct e as [n at' sc c ks0]. cbn [with_children e_name e_scope e_content e_attrs] in *.
    split; [auto|]. split; [auto|]. split; [auto|]. split; [|split; [exact X6|apply Forall2_app; [apply Forall2_app; [auto|constructor; auto]|auto]]].
    destruct R4 as (la & A1 & A2 & A3). exists la. rewrite H1, H2, Fr by auto. auto. }
  assert (Ef' : foot h' (with_children e ((kd ++ k' :: rest) ++ ts)%list) r' = n_at r :: n_arr r' :: ((U ++ foot h' k' x' ++ W) ++ foots h' ts tn)%list).
  { rewrite foot_eq, Eo, X7, H1. do 2 f_equal. rewrite !foots_app by (rewrite ?app_length; cbn [List.length]; rewrite ?(Forall2_len _ _ _ B1), ?(Forall2_len _ _ _ B3); auto). cbn [foots]. rewrite E1, E3. reflexivity. }
  assert (Dj : forall a, In a (foot h' k' x' ++ foots h' ts tn)%list -> ~ In a U /\ ~ In a W /\ a <> n_at r).
  { intros a Ha. destruct (Gk a Ha) as [H|H].
    - split; [intros Hu; apply (D1 a Hu), in_or_app; auto|]. split; [intros Hw; exact (D2 a H Hw)|intros ->; tauto].
    - split; [|split]; [intros Hu|intros Hw|intros ->].
      + specialize (Bd a). cbn [In] in Bd. rewrite !in_app_iff in Bd. assert (a < List.length h) by (apply Bd; tauto). lia.
      + specialize (Bd a). cbn [In] in Bd. rewrite !in_app_iff in Bd. assert (a < List.length h) by (apply Bd; tauto). lia.
      + specialize (Bd (n_at r)). cbn [In] in Bd. assert (n_at r < List.length h) by (apply Bd; left; auto). lia. }
  assert (Hin : forall a, In a ((U ++ foot h' k' x' ++ W) ++ foots h' ts tn)%list -> In a U \/ In a W \/ In a (foot h' k' x' ++ foots h' ts tn)%list) by (intros a; rewrite !in_app_iff; tauto).
  assert (Bda : forall a, a = n_at r \/ a = n_arr r \/ In a U \/ In a V \/ In a W -> a < List.length h).
  { intros a Ha. apply Bd. cbn [In]. rewrite !in_app_iff. destruct Ha as [->|[->|Ha]]; auto. }
  split; [|split; [exact X7|split; [|split]]].
  - split; [exact X4|]. split; [exact Rr|]. rewrite Ef'. split.
    + constructor; [|constructor].
      * cbn [In]. intros [H|H].
        -- destruct X8 as [X8|X8]; [apply N1; left; congruence|]. specialize (Bda (n_at r) (or_introl eq_refl)). lia.
        -- apply Hin in H. destruct H as [H|[H|H]]; [tauto|tauto|]. destruct (Dj _ H) as (_ & _ & Hx). auto.
      * intros H. apply Hin in H. destruct H as [H|[H|H]]; [| |auto].
        -- destruct X8 as [X8|X8]; [rewrite X8 in H; tauto|]. assert (n_arr r' < List.length h) by (apply Bda; tauto). lia.
        -- destruct X8 as [X8|X8]; [rewrite X8 in H; tauto|]. assert (n_arr r' < List.length h) by (apply Bda; tauto). lia.
      * eapply nodup_replace; [exact N3|exact Nk|]. intros a Ha. destruct (Dj a Ha) as (A & B & _). auto.
    + cbn [In]. intros [H|[H|H]].
      * apply Np. left. auto.
      * destruct X8 as [X8|X8]; [apply Np; right; left; congruence|lia].
      * apply Hin in H. destruct H as [H|[H|H]]; [tauto|tauto|]. destruct (Gk _ H) as [H'|H']; [tauto|lia].
  - intros a Ha. rewrite Ef' in Ha. rewrite Ef. cbn [In]. rewrite !in_app_iff. cbn [In] in Ha. destruct Ha as [Ha|[Ha|Ha]].
    + left. left. auto.
    + destruct X8 as [X8|X8]; [left; right; left; congruence|right; lia].
    + apply Hin in Ha. destruct Ha as [Ha|[Ha|Ha]]; [tauto|tauto|]. destruct (Gk _ Ha) as [H'|H']; [tauto|right; auto].
  - split; [exact X1|]. split.
    + intros a Ha Hn Hr. rewrite Ef in Hn. cbn [In] in Hn. rewrite !in_app_iff in Hn. apply X2; [exact Ha|tauto| |exact Hr|]; [intros [H|[]]; apply Hn; right; left; exact H|intros H; apply Hn; right; left; auto].
    + destruct (load_array _ _ _ L) as (l & A1 & A2). destruct (load_array _ _ _ X4) as (l' & A1' & A2'). exists l, l'. split; [auto|]. split; [auto|].
      rewrite (cells_ok _ _ _ A1), (cells_ok _ _ _ A1') in X11. split; [auto|]. intros j Hj. destruct (nth_error l j) as [z|] eqn:Ej.
      * specialize (X3 (fst root, j) z). unfold load in X3. cbn [fst snd] in X3. rewrite (cells_ok _ _ _ A1), (cells_ok _ _ _ A1') in X3. apply X3; [exact Ej|tauto| | |].
        -- intros [H|[]]. injection H as H _. apply Np. right. left. auto.
        -- intros H. apply Hj. rewrite <- H. reflexivity.
        -- intros H. exfalso. apply Np. right. left. auto.
      * apply nth_error_None. apply nth_error_None in Ej. lia.
  - intros a Ha. apply Fr. auto.
Qed.

Section Top.
  Variable St : Type.
  Variable g : elem -> bool.
  Variable dec : elem -> St -> option (list (string * string) * (string * string)) * St.
  Variable root : ptr.
  Variable step : heap * St -> ptr -> heap * St.
  Variables grow agrow : nat -> nat -> nat.
  Hypothesis Hg : forall t l v, type_el t = true -> g (set_attr t "" l v) = g t.
  Hypothesis Hstep : forall h s e p x r, good h e p x -> load h root = Some r -> kids_ok h r -> fst root <> n_arr r ->
    ~ In (fst root) (foot h e x) -> ~ In (n_arr r) (foot h e x) -> fst p <> fst root -> (fst p = n_arr r -> snd p < n_len r) -> g e = true -> hit_ok g e ->
    step (h, s) p = match dec e s with
                    | (None, s') => (h, s')
                    | (Some (tas, (u, q)), s') => (hoist root grow agrow p (anon_index (e_children e)) tas u q h, s')
                    end.
  Local Notation hoist_el := (hoist_el St g dec).
  Local Notation hoist_list := (hoist_list St g dec).
  Local Notation room := (room St g dec).

  Lemma top_go e h0 ra free cap ks2 : Forall (tidy g) ks2 -> forall xs2 h s r kd xd ts0 tn0,
    good h (with_children e (kd ++ ks2 ++ ts0)%list) root r -> kids h r = (xd ++ xs2 ++ tn0)%list -> List.length xd = List.length kd -> List.length xs2 = List.length ks2 ->
    (forall a, In a (foots h0 ks2 xs2) -> nth_error h a = nth_error h0 a) -> Forall2 (rep h0) ks2 xs2 ->
    (n_len r <= cap -> n_arr r = ra /\ List.length (cells h ra) = cap) ->
    room free (List.length ts0) ks2 s -> List.length kd + List.length ks2 + free <= cap ->
    let '(ks', ts, s') := hoist_list ks2 s in
    exists h', each step (h, s) (hits_kids g h0 ra ks2 xs2 (List.length kd)) = (h', s') /\
      leaves h h' (with_children e (kd ++ ks2 ++ ts0)%list) (with_children e (kd ++ ks' ++ ts0 ++ ts)%list) root r.
  Proof.
    induction 1 as [|k ks2 Tk Tks IH]; intros xs2 h s r kd xd ts0 tn0 G Ek Hl1 Hl2 F R0 Hc Hr Hf; cbn [NormHoistSpec.hoist_list].
    - exists h. destruct xs2; [|discriminate]. cbn [hits_kids each app]. rewrite app_nil_r. split; [auto|]. apply leaves_refl. exact G.
    - destruct xs2 as [|x xs2]; [discriminate|]. inversion R0 as [|? ? ? ? Rk Rks]; subst. cbn [app] in G, Ek. cbn [foots] in F. cbn [NormHoistSpec.room] in Hr.
      pose proof (item_ok St g dec root step grow agrow Hg Hstep k Tk) as Ik.
      set (E := with_children e (kd ++ k :: ks2 ++ ts0)%list) in *.
      assert (Ee : e_children E = (kd ++ k :: ks2 ++ ts0)%list) by (unfold E; destruct e; reflexivity).
      pose proof G as (L & R & N & Np). pose proof R as R'. apply rep_eq in R'. destruct R' as (_ & _ & _ & Ra & Rc & Rb).
      destruct (rep_frame k h0 h x Rk) as [Rkh Efk]; [intros a Ha; apply F, in_or_app; auto|].
      assert (Hlt : List.length ts0 = List.length tn0). { pose proof (Forall2_len _ _ _ Rb) as El. rewrite Ee, Ek, !app_length in El. cbn [List.length] in El, Hl2. rewrite !app_length in El. lia. }
      assert (Hn : n_len r = List.length kd + S (List.length ks2) + List.length ts0). { rewrite <- (kids_length h r Rc), Ek, !app_length. cbn [List.length] in *. rewrite app_length. lia. }
      assert (Ef : foot h E r = n_at r :: n_arr r :: (foots h kd xd ++ foot h k x ++ foots h (ks2 ++ ts0)%list (xs2 ++ tn0)%list)%list) by (rewrite foot_eq, Ee, Ek, foots_app by auto; reflexivity).
      assert (Hin : forall a, In a (foot h k x) -> In a (foots h kd xd ++ foot h k x ++ foots h (ks2 ++ ts0)%list (xs2 ++ tn0)%list)%list) by (intros a Ha; rewrite !in_app_iff; auto).
      rewrite Ef in N, Np. apply NoDup_cons_iff in N. destruct N as [N1 N]. apply NoDup_cons_iff in N. destruct N as [N2 N3]. cbn [In] in N1, Np.
      assert (N4 : NoDup (foot h k x)) by (apply nodup_app_inv in N3; destruct N3 as (_ & N3 & _); apply nodup_app_inv in N3; tauto).
      assert (Sf : safe root h r (foot h k x) []).
      { split; [exact L|]. split; [exact Rc|]. split; [intros E'; apply Np; right; left; auto|]. split; [intros H; apply Np; right; right; auto|]. split; [intros H; apply N2; auto|intros z []]. }
      assert (Hr1 : g k = true -> List.length ts0 <= free) by (destruct (hoist_el k s) as [[? ?] ?]; tauto).
      (* one child *)
      assert (One : let '(k', ts, s') := hoist_el k s in exists h' r' x' tn, each step (h, s) (hits g h0 k (ra, List.length kd) x) = (h', s') /\
        ext h h' root r r' (xd ++ x' :: xs2 ++ tn0)%list tn (foot h k x) [(n_arr r, List.length xd)] /\
        rep h' k' x' /\ Forall2 (rep h') ts tn /\ NoDup (foot h' k' x' ++ foots h' ts tn)%list /\ grown h (foot h' k' x' ++ foots h' ts tn)%list (foot h k x) /\ ~ In (n_arr r') (foot h' k' x' ++ foots h' ts tn)%list).
      { assert (node : forall s0, let '(ks', ts, s') := hoist_list (e_children k) s0 in exists h' r' tn, each step (h, s0) (hits_kids g h0 (n_arr x) (e_children k) (kids h0 x) 0) = (h', s') /\
          ext h h' root r r' (xd ++ x :: xs2 ++ tn0)%list tn (foot h k x) [(n_arr r, List.length xd)] /\
          rep h' (with_children k ks') x /\ Forall2 (rep h') ts tn /\ NoDup (foot h' (with_children k ks') x ++ foots h' ts tn)%list /\ grown h (foot h' (with_children k ks') x ++ foots h' ts tn)%list (foot h k x) /\ ~ In (n_arr r') (foot h' (with_children k ks') x ++ foots h' ts tn)%list).
        { intros s0. assert (F' : forall a, In a (foot h0 k x) -> nth_error h a = nth_error h0 a) by (intros a Ha; apply F, in_or_app; auto).
          rewrite Efk in Sf, N4. pose proof (node_ok St g dec root step grow agrow Hg Hstep h0 k x Rk N4 (proj2 (Ik h0)) h s0 r [] F' Sf) as Q.
          destruct (hoist_list (e_children k) s0) as [[ks' ts] s']. destruct Q as (h' & r' & Q1 & (tn & X1 & X2 & X3 & X4 & X5 & X6) & _). exists h', r', tn. cbn [foots] in X4, X5, X6. rewrite app_nil_r in X4, X5, X6. rewrite Efk, <- Ek.
          split; [exact Q1|]. split; [eapply ext_weaken; [exact X1|apply incl_refl|intros z []]|]. inversion X2; subst. auto. }
        destruct (g k) eqn:Gk.
        - destruct Hc as [Hra Hcap]; [rewrite Hn; cbn [List.length] in Hf; specialize (Hr1 eq_refl); lia|].
          assert (Lk : load h (ra, List.length kd) = Some x).
          { rewrite <- Hra, <- Hl1. rewrite (load_kid h E r _ R); [rewrite Ek; apply nth_error_at|]. rewrite Hn. lia. }
          assert (Ho : hit_ok g k) by (apply (Tk []); [reflexivity|exact Gk]).
          assert (P1 : ~ In ra (foot h k x)) by (rewrite <- Hra; intros H; apply N2; auto). assert (P2 : ra <> fst root) by (rewrite <- Hra; intros H; apply Np; right; left; auto).
          destruct (dec k s) as [[[tas [u q]]|] s1] eqn:Hd.
          + assert (Q := acted St g dec root step grow agrow Hg Hstep h0 k (ra, List.length kd) x h s r tas u q s1 Rk). rewrite Efk in N4, Sf, P1. cbn [fst snd] in Q.
            specialize (Q N4). assert (Kids : forall h1 k0, In k0 (e_children k) -> kid_ok St g dec root step h1 k0 /\ (forall k', In k' (e_children k0) -> kid_ok St g dec root step h1 k')).
            { intros h1 k0 Hk0. apply item_ok with (grow := grow) (agrow := agrow); auto. intros q0 d Hq. apply In_nth_error in Hk0. destruct Hk0 as [i Hi]. apply (Tk (i :: q0)). cbn [sub]. rewrite Hi. exact Hq. }
            specialize (Q Kids Gk Ho Hd (fun a Ha => F a (in_or_app _ _ _ (or_introl Ha))) Lk Sf P1 P2 (fun _ => ltac:(rewrite Hn; lia))).
            destruct (hoist_el k s) as [[k' ts] s']. destruct Q as (h' & r' & x' & tn & Q1 & Q2 & Q3 & Q4 & Q5 & Q6 & Q7 & Q8). exists h', r', x', tn. rewrite Efk.
            split; [exact Q1|]. split; [|auto]. unfold moved in Q2. cbn [fst snd] in Q2. rewrite Hra, Nat.eqb_refl, Ek, <- Hl1, set_nth_at in Q2. rewrite Hra. exact Q2.
          + assert (Es : step (h, s) (ra, List.length kd) = (h, s1)).
            { assert (Gd : good h k (ra, List.length kd) x) by (split; [auto|split; [auto|split; [auto|auto]]]). destruct Sf as (S1 & S2 & S3 & S4 & S5 & _).
              pose proof (Hstep h s k (ra, List.length kd) x r Gd S1 S2 S3 S4 S5 P2 (fun _ => ltac:(cbn [snd]; rewrite Hn; lia)) Gk Ho) as Es. rewrite Hd in Es. exact Es. }
            rewrite hoist_el_eq, Gk, Hd. specialize (node s1). destruct (hoist_list (e_children k) s1) as [[ks' ts] s']. destruct node as (h' & r' & tn & Q1 & Q2). exists h', r', x, tn. split; [|exact Q2].
            rewrite hits_eq, Gk. cbn [app each]. rewrite Es. exact Q1.
        - rewrite hoist_el_eq, Gk. specialize (node s). destruct (hoist_list (e_children k) s) as [[ks' ts] s']. destruct node as (h' & r' & tn & Q1 & Q2). exists h', r', x, tn. split; [|exact Q2].
          rewrite hits_eq, Gk. exact Q1. }
      destruct (hoist_el k s) as [[k' ts] s1]. destruct Hr as [_ Hr2]. destruct One as (h1 & r1 & x1 & tn & Q1 & Q2 & Q3 & Q4 & Q5 & Q6 & Q7).
      destruct (top_step h h1 root e r r1 kd k (ks2 ++ ts0)%list xd x (xs2 ++ tn0)%list k' x1 ts tn G Ek Hl1 Q2 Q3 Q4 Q5 Q6 Q7) as (T1 & T2 & T3 & T4 & T5).
      assert (Er : ((kd ++ k' :: ks2 ++ ts0) ++ ts = (kd ++ [k']) ++ ks2 ++ (ts0 ++ ts))%list) by (rewrite <- !app_assoc; cbn [app]; rewrite <- !app_assoc; reflexivity).
      assert (Er2 : ((xd ++ x1 :: xs2 ++ tn0) ++ tn = (xd ++ [x1]) ++ xs2 ++ (tn0 ++ tn))%list) by (rewrite <- !app_assoc; cbn [app]; rewrite <- !app_assoc; reflexivity).
      assert (T1' := T1). rewrite Er in T1'. rewrite Er2 in T2.
      assert (Hn1 : n_len r1 = n_len r + List.length tn) by (rewrite (x_hdr _ _ _ _ _ _ _ _ _ Q2); reflexivity).
      specialize (IH xs2 h1 s1 r1 (kd ++ [k'])%list (xd ++ [x1])%list (ts0 ++ ts)%list (tn0 ++ tn)%list T1' T2).
      assert (IH' : let '(ks', ts', s') := hoist_list ks2 s1 in exists h', each step (h1, s1) (hits_kids g h0 ra ks2 xs2 (List.length (kd ++ [k']))) = (h', s') /\
        leaves h1 h' (with_children e ((kd ++ [k']) ++ ks2 ++ (ts0 ++ ts))%list) (with_children e ((kd ++ [k']) ++ ks' ++ (ts0 ++ ts) ++ ts')%list) root r1).
      { apply IH.
        - rewrite !app_length. cbn. lia.
        - cbn in Hl2. lia.
        - intros a Ha. rewrite T5; [apply F, in_or_app; auto|]. apply in_or_app. right. rewrite foots_app by (cbn in Hl2; lia). apply in_or_app. left.
          destruct (foots_frame ks2 xs2 h0 h Rks) as [_ Efs]; [intros b Hb; apply F, in_or_app; auto|]. rewrite Efs. exact Ha.
        - exact Rks.
        - intros Hle. destruct Hc as [Hra Hcap]; [lia|]. split.
          + rewrite (x_room _ _ _ _ _ _ _ _ _ Q2); [auto|]. rewrite Hra, Hcap. lia.
          + rewrite <- Hra. rewrite (x_cap _ _ _ _ _ _ _ _ _ Q2), Hra. exact Hcap.
        - rewrite app_length. exact Hr2.
        - rewrite app_length. cbn [List.length] in *. lia. }
      clear IH. destruct (hoist_list ks2 s1) as [[ks' ts'] s']. destruct IH' as (h' & P1 & P2). exists h'. split.
      + cbn [hits_kids]. rewrite each_app, Q1. rewrite app_length in P1. cbn [List.length] in P1. rewrite Nat.add_1_r in P1. exact P1.
      + rewrite <- Er in P2. assert (Efin : ((kd ++ [k']) ++ ks' ++ (ts0 ++ ts) ++ ts' = kd ++ (k' :: ks') ++ ts0 ++ ts ++ ts')%list) by (rewrite <- !app_assoc; reflexivity).
        rewrite Efin in P2. destruct T1 as (T6 & T7 & T8 & T9). exact (leaves_trans _ _ _ _ _ _ _ _ _ G T6 T7 T8 T3 T4 P2).
  Qed.

  Lemma top_ok h e r s : good h e root r -> Forall (tidy g) (e_children e) -> room (List.length (cells h (n_arr r)) - n_len r) 0 (e_children e) s ->
    exists h', each step (h, s) (hits_kids g h (n_arr r) (e_children e) (kids h r) 0) = (h', snd (hoist_root St g dec e s)) /\ leaves h h' e (fst (hoist_root St g dec e s)) root r.
  Proof.
    intros G T Hr. pose proof G as (L & R & N & Np). pose proof R as R'. apply rep_eq in R'. destruct R' as (_ & _ & _ & Ra & Rc & Rb).
    assert (Hn : n_len r = List.length (e_children e)) by (rewrite <- (kids_length h r Rc); symmetry; eapply Forall2_len; exact Rb).
    assert (Hcap : n_len r <= List.length (cells h (n_arr r))) by (destruct Rc as (lc & E1 & E2); rewrite (cells_ok _ _ _ E1); auto).
    assert (We : with_children e (e_children e) = e) by (destruct e; reflexivity).
    pose proof (top_go e h (n_arr r) (List.length (cells h (n_arr r)) - n_len r) (List.length (cells h (n_arr r))) (e_children e) T (kids h r) h s r [] [] [] []) as Q.
    cbn [app List.length] in Q. rewrite !app_nil_r, We in Q. specialize (Q G eq_refl eq_refl (eq_sym (Forall2_len _ _ _ Rb)) (fun a _ => eq_refl) Rb (fun _ => conj eq_refl eq_refl) Hr ltac:(lia)).
    unfold hoist_root. destruct (hoist_list (e_children e) s) as [[ks' ts] s']. cbn [fst snd]. destruct Q as (h' & Q1 & Q2). exists h'. split; [exact Q1|exact Q2].
  Qed.
End Top.
