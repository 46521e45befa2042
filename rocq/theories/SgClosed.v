(* Flattening returns, and what it yields is closed: the types of all fields are among the results. *)
From Verif Require Import Base SortLib ScopeModel TreeModel EqualModel Utf8 Decimal BuiltinModel CodecModel XsdModel XsdProofs TypesModel TypesSpec TypesProofs NormAttr GraphModel GenModel SgModel SgProofs SgNames SgFlat.
Local Open Scope string_scope.

Set Default Proof Using "Type".
Section Closed.
  Variable fa : option (attribute -> bool).
  Variables r h : nat -> nat.
  Variable beta : nat -> Z.
  (* Ac: the types do not contain themselves, h ranks them; us: the type has something to add *)
  Variable Ac : Prop.
  Variable us : nat -> bool.
  Hypothesis fa_name : forall a t, filtered fa (with_ty_a a t) = filtered fa a.
  Notation rk := (rk r).
  Notation bt := (bt beta).
  Definition hk (t : ty) : nat := match t with TPtr j => S (h j) | _ => 0 end.
  Definition needed (t : ty) : Prop := match t with TPtr j => us j = true | _ => True end.
  Definition Q (t : ty) : Prop := Ac -> needed t.
  Notation good := (good r beta).
  Notation evo := (evo fa beta Q).
  Notation turns := (turns fa beta).
  Notation settles := (settles beta).
  Definition low_def (i : nat) (d : def) : Prop :=
    hk (def_base d) <= h i /\
    match d with DC c => us i = true /\ forall s u, slot_ty c s = Some u -> hk u <= h i | DS s => us i = useful s (beta i) end.
  Definition low (st : store) : Prop := Ac -> forall i d, nth_error st i = Some d -> low_def i d.
  Lemma low_put st i d d' : low st -> nth_error st i = Some d -> (Ac -> low_def i d') -> low (set_nth i d' st).
  Proof.
    intros G H K A k e. rewrite (put_nth st i d d' k H). destruct (Nat.eqb k i) eqn:N; [apply Nat.eqb_eq in N as ->; intros [= <-]; exact (K A)|apply (G A)].
  Qed.
  Lemma settles_low st st' : low st -> settles st st' -> low st'.
  Proof. clear r.
    intros G H A i d E. specialize (H i). destruct (nth_error st i) as [[c|s]|] eqn:Ei; [| |congruence].
    - rewrite H in E. injection E as <-. exact (G A i _ Ei).
    - destruct H as [s' [E1 [E2 E3]]]. rewrite E1 in E. injection E as <-. destruct (G A i _ Ei) as [K1 K2]. split; [|rewrite (useful_erase _ _ _ E2); exact K2].
      cbn [def_base] in *. destruct E3 as [->| ->]; [exact K1|cbn [hk]; lia].
  Qed.

  (* t and the types above it are finished, with everything their fields need in P *)
  Definition settled (st : store) (P : list ty) (t : ty) : Prop := forall j, ancestor st t (TPtr j) ->
    match nth_error st j with
    | Some (DS s) => exists b, sd_base s = TB b
    | Some (DC c) => (forall s u, slot_ty c s = Some u -> In u P /\ needed u) /\ (ct_mixed c = true -> In (ct_base c) P)
    | None => True
    end.
  Lemma settled_builtin st P b : settled st P (TB b).
  Proof. intros j A. apply an_builtin in A. discriminate. Qed.
  Lemma settled_more st P P' t : (forall x, In x P -> In x P') -> settled st P t -> settled st P' t.
  Proof.
    intros I S j A. specialize (S j A). destruct (nth_error st j) as [[c|s]|]; auto. destruct S as [S1 S2]. split; [|intros Hm; apply I, S2, Hm].
    intros s u Hu. destruct (S1 s u Hu) as [X Y]. split; [apply I, X|exact Y].
  Qed.
  Lemma settled_step st P q st' t : Ac -> frame st st' -> (forall j s s', get_s st j = Some s -> get_s st' j = Some s' -> sd_base s' = sd_base s \/ sd_base s' = TB (beta j)) ->
    (forall i, moves Q st st' q i) -> (forall a u, ancestor st' a u -> ancestor st a u) -> settled st P t -> settled st' (P ++ q) t.
  Proof. clear r h fa_name fa.
    intros Ha F Es Em Ec S j A. specialize (S j (Ec _ _ A)). destruct (nth_error st j) as [[c|s]|] eqn:E.
    - destruct (frame_c _ _ j c F) as [c' [E' R]]; [apply get_c_nth; exact E|]. pose proof E' as E1. apply get_c_nth in E1. rewrite E1. destruct S as [S1 S2]. apply get_c_nth in E. destruct (Em j c c' E E') as [M1 M2]. split.
      + intros s u Hu. assert (Z : In s (slots c)) by (rewrite <- (erase_slots _ _ R); apply slots_in; congruence). apply slots_in in Z. destruct (slot_ty c s) as [u0|] eqn:U0; [|congruence].
        destruct (M1 s u0 u U0 Hu) as [->|[X Y]]; [|split; [apply in_or_app; right; exact X|exact (Y Ha)]].
        destruct (S1 s u0 U0) as [X Y]. split; [apply in_or_app; left; exact X|exact Y].
      + intros Hm. rewrite (erase_mixed _ _ R) in Hm. destruct (M2 Hm) as [->|X]; apply in_or_app; [left; exact (S2 Hm)|right; exact X].
    - destruct (frame_s _ _ j s F) as [s' [E' R]]; [apply get_s_nth; exact E|]. pose proof E' as E1. apply get_s_nth in E1. rewrite E1. destruct S as [b S]. apply get_s_nth in E.
      destruct (Es j s s' E E') as [X|X]; rewrite X; [exists b; exact S|eexists; reflexivity].
    - destruct (nth_error st' j) as [d|] eqn:E'; [|exact I]. apply nth_lt in E'. rewrite (frame_len _ _ F) in E'. apply nth_error_None in E. lia.
  Qed.
  Lemma settled_evo st P q st' t : Ac -> evo st q st' -> settled st P t -> settled st' (P ++ q) t.
  Proof. intros Ha [F Es Em Ek Ec]. apply settled_step; assumption. Qed.
  (* the result of a run *)
  Record ok_run (k : nat) (st : store) (t : ty) (st' : store) (p : list ty) (v : ty) : Prop := mkOk {
    or_evo : evo st p st';
    or_good : good st';
    or_low : low st';
    or_ty : okty st v;
    or_rk : rk v <= rk t;
    or_bt : bt v = bt t;
    or_hk : Ac -> hk v <= hk t;
    or_up : turns st t v;
    or_pushed : forall x, In x p -> okty st x;
    or_q : Ac -> needed v;
    or_settled : Ac -> settled st' p v /\ forall x, In x p -> settled st' p x }.
  Lemma hk_base st i d : Ac -> low st -> nth_error st i = Some d -> hk (def_base d) <= h i.
  Proof. intros A L E. apply (L A i d E). Qed.

  Section Step.
    Variable k : nat.
    Hypothesis IH : forall st t, good st -> low st -> okty st t -> (Ac -> hk t <= k) -> exists st' p v, flatten1 fa k st t = Ret (st', p, v) /\ ok_run k st t st' p v.
    Lemma visits i (c0 : complexT) : forall l st p, good st -> low st -> (exists c, get_c st i = Some c /\ slots c = slots c0) -> (forall s, In s l -> In s (slots c0)) -> (Ac -> h i <= k) ->
      (forall x, In x p -> okty st x) -> (Ac -> forall x, In x p -> settled st p x) ->
      exists st' q, foldr (visit (flatten1 fa k) i) (st, p) l = Ret (st', (p ++ q)%list) /\ evo st q st' /\ good st' /\ low st' /\
        (forall x, In x (p ++ q)%list -> okty st' x) /\ (Ac -> forall x, In x (p ++ q)%list -> settled st' (p ++ q) x) /\
        (exists c, get_c st' i = Some c /\ slots c = slots c0 /\ (Ac -> forall s u, In s l -> slot_ty c s = Some u -> In u q /\ needed u)).
    Proof using IH fa_name.
      induction l as [|s l IHl]; intros st p G L [c [Hc Sc]] Hl Hi Hp Hs; cbn [foldr].
      { exists st, []. rewrite !app_nil_r. split; [reflexivity|]. split; [apply evo_refl|]. repeat (split; [assumption|]). exists c. split; [exact Hc|]. split; [exact Sc|]. intros _ s u []. }
      unfold visit at 1. rewrite Hc. assert (Z : In s (slots c)) by (rewrite Sc; apply Hl; left; reflexivity). apply slots_in in Z. destruct (slot_ty c s) as [u|] eqn:U; [|congruence].
      pose proof Hc as Hn. apply get_c_nth in Hn. destruct G as [B G0]. destruct (G0 i _ Hn) as [_ [_ [_ K4]]]. pose proof (conj B G0 : good st) as G. specialize (K4 s u U).
      assert (Hk : Ac -> hk u <= k). { intros A. destruct (L A i _ Hn) as [_ [_ X]]. specialize (X s u U). specialize (Hi A). lia. }
      destruct (IH st u G L K4 Hk) as [st1 [p1 [v [E1 R1]]]]. rewrite E1. cbn [andthen]. destruct R1 as [V1 G1 L1 T1 R1 B1 H1 A1 P1 Q1 S1].
      destruct (frame_c _ _ i c (ev_frame _ _ _ _ _ _ V1) Hc) as [c1 [Hc1 Rc]]. rewrite Hc1. pose proof (erase_slots _ _ Rc) as Sc1.
      assert (Z1 : exists u1, slot_ty c1 s = Some u1). { destruct (slot_ty c1 s) as [u1|] eqn:E; [eauto|]. exfalso. assert (In s (slots c1)) as X by (rewrite Sc1; apply slots_in; congruence). apply slots_in in X. congruence. }
      destruct Z1 as [u1 U1]. pose proof Hc1 as Hn1. apply get_c_nth in Hn1.
      assert (V2 : evo st (p1 ++ [v]) (put_c st1 i (slot_set c1 s v))) by (apply (evo_slot fa beta fa_name Q st p1 st1 i c c1 s v u u1 V1 Hc U Hc1 U1 Q1 A1)).
      destruct (put_slot Q st1 i c1 s v u1 Hc1 U1 Q1) as [F2 [Ba [Si Mo]]]. cbv zeta in *.
      set (st2 := put_c st1 i (slot_set c1 s v)) in *. pose proof (ev_frame _ _ _ _ _ _ V1) as F1.
      assert (V2' : forall P t, Ac -> settled st1 P t -> settled st2 (P ++ [v]) t).
      { intros P t A. apply settled_step; auto; [intros j x x' Hx Hx'; left; rewrite (Si j x x' Hx Hx'); reflexivity|]. apply an_steps. intros a Ha. rewrite Ba in *. exact (an_up _ _ Ha). }
      assert (G2 : good st2). { unfold st2, put_c. apply (good_put r beta st1 i (DC c1) (DC (slot_set c1 s v)) G1 Hn1); [cbn [erase_d]; rewrite erase_slot; reflexivity|].
        destruct G1 as [_ G1]. destruct (G1 i _ Hn1) as [X1 [X2 [X3 X4]]]. unfold good_def. cbn [def_base] in *. rewrite (proj1 (slot_base c1 s v)). repeat (split; [assumption|]).
        intros s' w Hw. destruct (slot_dec s' s) as [->|D]; [rewrite (slot_same _ _ _ _ U1) in Hw; injection Hw as <-; exact (okty_frame _ _ _ F1 T1)|rewrite slot_other in Hw by exact D; exact (X4 _ _ Hw)]. }
      assert (L2 : low st2). { unfold st2, put_c. apply (low_put st1 i (DC c1) (DC (slot_set c1 s v)) L1 Hn1). intros A. destruct (L1 A i _ Hn1) as [X1 [X2 X3]]. unfold low_def. cbn [def_base] in *.
        rewrite (proj1 (slot_base c1 s v)). split; [exact X1|]. split; [exact X2|]. intros s' w Hw. destruct (slot_dec s' s) as [->|D].
        - rewrite (slot_same _ _ _ _ U1) in Hw. injection Hw as <-. destruct (L A i _ Hn) as [_ [_ X]]. specialize (X s u U). specialize (H1 A). lia.
        - rewrite slot_other in Hw by exact D. exact (X3 _ _ Hw). }
      assert (Hc2 : get_c st2 i = Some (slot_set c1 s v)) by (apply get_c_nth; unfold st2, put_c; rewrite (put_nth st1 i _ _ i Hn1), Nat.eqb_refl; reflexivity).
      assert (Sc2 : slots (slot_set c1 s v) = slots c0) by (rewrite (erase_slots c1 (slot_set c1 s v) (erase_slot c1 s v)); congruence).
      assert (P2 : forall x, In x (p ++ p1 ++ [v])%list -> okty st2 x).
      { intros x Hx. apply (okty_frame st1); [exact F2|]. apply (okty_frame st); [exact F1|]. apply in_app_or in Hx as [Hx|Hx]; [exact (Hp x Hx)|]. apply in_app_or in Hx as [Hx|[<-|[]]]; [exact (P1 x Hx)|exact T1]. }
      assert (S2 : Ac -> forall x, In x (p ++ p1 ++ [v])%list -> settled st2 (p ++ p1 ++ [v]) x).
      { intros A x Hx. apply in_app_or in Hx as [Hx|Hx].
        - rewrite app_assoc. apply (V2' _ _ A). apply (settled_evo st _ _ _ _ A V1). exact (Hs A x Hx).
        - apply (settled_more st2 (p1 ++ [v])); [intros y Hy; apply in_or_app; right; exact Hy|]. apply (V2' _ _ A). destruct (S1 A) as [X Y].
          apply in_app_or in Hx as [Hx|[<-|[]]]; [exact (Y x Hx)|exact X]. }
      assert (W : exists st' q, foldr (visit (flatten1 fa k) i) (st2, (p ++ p1 ++ [v])%list) l = Ret (st', ((p ++ p1 ++ [v]) ++ q)%list) /\ evo st2 q st' /\ good st' /\ low st' /\
        (forall x, In x ((p ++ p1 ++ [v]) ++ q)%list -> okty st' x) /\ (Ac -> forall x, In x ((p ++ p1 ++ [v]) ++ q)%list -> settled st' ((p ++ p1 ++ [v]) ++ q) x) /\
        (exists c, get_c st' i = Some c /\ slots c = slots c0 /\ (Ac -> forall s u, In s l -> slot_ty c s = Some u -> In u q /\ needed u))).
      { apply IHl; auto. exists (slot_set c1 s v). auto. intros s' Hs'. apply Hl. right. exact Hs'. }
      destruct W as [st' [q [E3 [V3 [G3 [L3 [P3 [S3 [c3 [Hc3 [Sc3 D3]]]]]]]]]]].
      exists st', ((p1 ++ [v]) ++ q)%list. replace (p ++ (p1 ++ [v]) ++ q)%list with ((p ++ p1 ++ [v]) ++ q)%list by (rewrite <- !app_assoc; reflexivity).
      split; [destruct v; try exact E3; destruct T1|]. split; [exact (evo_trans fa beta fa_name Q _ _ _ _ _ V2 V3)|].
      repeat (split; [assumption|]). exists c3. split; [exact Hc3|]. split; [exact Sc3|]. intros A s' w [<-|Hs'] Hw.
      - destruct (ev_moves _ _ _ _ _ _ V3 i _ _ Hc2 Hc3) as [M _]. destruct (M s v w (slot_same _ _ _ _ U1) Hw) as [->|[X Y]].
        + split; [apply in_or_app; left; apply in_or_app; right; left; reflexivity|exact (Q1 A)].
        + split; [apply in_or_app; right; exact X|exact (Y A)].
      - destruct (D3 A s' w Hs' Hw) as [X Y]. split; [apply in_or_app; right; exact X|exact Y].
    Qed.
  End Step.

  Lemma rebased_up st i d v a j : nth_error st i = Some (DC d) -> ancestor (put_c st i (set_base d v)) a (TPtr j) -> ancestor st a (TPtr j) \/ ancestor st v (TPtr j).
  Proof.
    intros H A. remember (TPtr j) as u eqn:E. induction A as [t|t u Hn Ha IH]; subst; [left; constructor|]. specialize (IH eq_refl).
    destruct t as [| | |x]; try (cbn [base_of] in Hn; congruence). cbn [base_of] in *. unfold put_c in *. rewrite (put_nth st i _ _ x H) in Hn, IH. destruct (Nat.eqb x i) eqn:N.
    - cbn [def_base set_base ct_base] in IH. right. destruct IH as [IH|IH]; exact IH.
    - destruct IH as [IH|IH]; [left|right; exact IH]. apply an_base; cbn [base_of]; [exact Hn|exact IH].
  Qed.

  Lemma unpacks_bare st c : unpacks fa st c = true -> bare fa c.
  Proof.
    unfold unpacks, filter_fields. cbn [fst]. intros U. apply andb_true_iff in U as [_ U]. rewrite (fold_filter (filtered fa)) in U.
    cbn [app] in U. unfold bare. apply Forall_forall. intros a Ha. destruct (filtered fa a) eqn:F; [reflexivity|]. exfalso.
    assert (X : In a (filter (fun a => negb (filtered fa a)) (ct_attrs c))) by (apply filter_In; rewrite F; auto). destruct (filter _ _); [exact X|discriminate].
  Qed.
  Theorem flatten1_ok : forall k st t, good st -> low st -> okty st t -> (Ac -> hk t <= k) -> exists st' p v, flatten1 fa k st t = Ret (st', p, v) /\ ok_run k st t st' p v.
  Proof using fa_name.
    induction k as [|k IH]; intros st t G L Ht Hk.
    { exists st, [], t. split; [reflexivity|]. split; auto; [apply evo_refl|left; reflexivity|intros x []| |].
      - intros A. specialize (Hk A). destruct t; cbn [hk needed] in *; auto. lia.
      - intros A. specialize (Hk A). split; [|intros x []]. destruct t as [| | |j]; cbn [hk okty] in *; try contradiction; [apply settled_builtin|lia]. }
    destruct t as [|b|n|i]; cbn [okty] in Ht; try contradiction.
    { exists st, [], (TB b). split; [reflexivity|]. split; [apply evo_refl|exact G|exact L|exact I|lia|reflexivity|lia|left; reflexivity|intros x []|intros; exact I|]. intros A. split; [apply settled_builtin|intros x []]. }
    cbn [flatten1]. destruct (nth_error st i) as [[c|s]|] eqn:E; [| |apply nth_error_None in E; lia].
    2: { destruct (flatten_simple_ok r beta st i s G E) as [st' [p [v [F [S [Ev [[s' [Es' [Bs' _]]] [Pp Pb]]]]]]]]. exists st', p, v. split; [exact F|].
      assert (Gi := proj2 G i _ E). destruct Gi as [K1 [K2 [K3 _]]]. cbn [def_base] in *. pose proof (settles_frame _ _ _ S) as Fr.
      split; auto.
      - pose proof (settles_evo fa r beta Q st st' G S) as X. apply (evo_more fa beta Q st [] p) in X. exact X.
      - exact (settles_good _ _ _ _ G S).
      - exact (settles_low _ _ L S).
      - subst v. destruct (useful s (beta i)); [exact Ht|exact I].
      - subst v. destruct (useful s (beta i)); cbn [SgFlat.rk]; lia.
      - subst v. destruct (useful s (beta i)); reflexivity.
      - subst v. destruct (useful s (beta i)); cbn [hk]; lia.
      - subst v. destruct (useful s (beta i)) eqn:Us; [left; reflexivity|right]. split; [exact (good_root r beta st G (TPtr i) Ht)|]. split; [reflexivity|]. split.
        + intros j x [= <-] Hx. assert (x = s) as -> by congruence. auto.
        + intros j x [= <-] Hx. congruence.
      - intros x Hx. destruct (Pb x Hx) as [j [s1 [-> [X _]]]]. cbn [okty]. apply nth_lt in X. rewrite (frame_len _ _ Fr) in X. exact X.
      - intros A. destruct (L A i _ E) as [_ U]. subst v. destruct (useful s (beta i)) eqn:Us; cbn [needed]; [congruence|exact I].
      - assert (B1 : forall x, x = TPtr i \/ In x p -> settled st' p x).
        { intros x Hx j A. assert (Z : exists s0, nth_error st' j = Some (DS s0) /\ exists b, sd_base s0 = TB b).
          { assert (Y : exists k0 s0, x = TPtr k0 /\ nth_error st' k0 = Some (DS s0) /\ exists b, sd_base s0 = TB b).
            { destruct Hx as [->|Hx]; [exists i, s'; eauto|]. destruct (Pb x Hx) as [k0 [s0 [-> [X Y]]]]. exists k0, s0. eauto. }
            destruct Y as [k0 [s0 [-> [Y1 [b Y2]]]]]. inversion A as [|t u Hn Ha]; subst; [eauto|]. cbn [base_of] in Ha. rewrite Y1 in Ha. cbn [def_base] in Ha. rewrite Y2 in Ha. apply an_builtin in Ha. discriminate. }
          destruct Z as [s0 [-> Z]]. exact Z. }
        intros _. split; [|intros x Hx; apply B1; right; exact Hx]. subst v. destruct (useful s (beta i)); [apply B1; left; reflexivity|apply settled_builtin]. }
    pose proof G as [Gb G0]. destruct (G0 i _ E) as [K1 [K2 [K3 K4]]]. cbn [def_base] in *.
    destruct (unpacks fa st c) eqn:U.
    { assert (D : exists b, ct_base c = TB b \/ exists j, ct_base c = TPtr j) by (destruct (ct_base c) as [|b|n|j]; cbn [okty] in K1; try contradiction; [exists b; left; reflexivity|exists 0%Z; right; eauto]).
      destruct D as [b [Eb|[j Eb]]]; rewrite Eb in *.
      - exists st, [], (TB b). split; [reflexivity|]. split; [apply evo_refl|exact G|exact L|exact I|cbn; lia|exact K3|cbn [hk]; lia| |intros x []|intros; exact I|].
        + right. split; [apply an_base; cbn [base_of]; rewrite E; cbn [def_base]; rewrite Eb; [discriminate|constructor]|]. split; [reflexivity|]. split; [intros x y [= <-] Hx; congruence|].
          intros x y [= <-] Hx. assert (y = c) as -> by congruence. split; [exact (unpacks_bare st c U)|]. left. unfold unpacks in U. rewrite Eb in U. apply andb_true_iff in U as [U _]. cbn [SgFlat.bt] in K3. rewrite <- K3. intros ->. discriminate.
        + intros A. split; [apply settled_builtin|intros x []].
      - assert (Hk' : Ac -> hk (TPtr j) <= k). { intros A. specialize (Hk A). pose proof (hk_base st i _ A L E) as X. cbn [def_base] in X. rewrite Eb in X. cbn [hk] in *. lia. }
        destruct (IH st (TPtr j) G L K1 Hk') as [st' [p [v [F R]]]]. exists st', p, v. split; [exact F|]. destruct R as [V1 G1 L1 T1 R1 B1 H1 A1 P1 Q1 S1]. split; auto.
        + cbn [SgFlat.rk] in *. lia.
        + rewrite B1. exact K3.
        + intros A. specialize (H1 A). pose proof (hk_base st i _ A L E) as X. cbn [def_base] in X. rewrite Eb in X. cbn [hk] in *. lia.
        + right. assert (Is : is_simple st (TPtr j) = true) by (unfold unpacks in U; rewrite Eb in U; apply andb_true_iff in U; apply U).
          assert (Ic : is_complex st (TPtr j) = false) by (cbn [is_simple is_complex] in *; destruct (nth_error st j) as [[x|x]|]; congruence).
          split; [apply an_base; cbn [base_of]; rewrite E; cbn [def_base]; rewrite Eb; [discriminate|]; destruct A1 as [->|[A1 _]]; [constructor|exact A1]|].
          split; [destruct A1 as [->|[_ [A1 _]]]; [exact Ic|exact A1]|]. split; [intros x y [= <-] Hx; congruence|]. intros x y [= <-] Hx. assert (y = c) as -> by congruence. split; [exact (unpacks_bare st c U)|]. right. exists j. split; [exact Is|]. apply an_base; cbn [base_of]; rewrite E; cbn [def_base]; rewrite Eb; [discriminate|constructor]. }
    destruct (visits k IH i c (slots c) st []) as [st1 [p1 [E1 [V1 [G1 [L1 [P1 [S1 [c1 [Hc1 [Sc1 D1]]]]]]]]]]]; auto.
    { exists c. split; [apply get_c_nth; exact E|reflexivity]. }
    { intros A. specialize (Hk A). cbn [hk] in Hk. lia. }
    { intros x []. }
    { intros _ x []. }
    cbn [app] in *. rewrite E1. cbn [andthen]. rewrite Hc1. pose proof Hc1 as Hn1. apply get_c_nth in Hn1.
    pose proof (ev_frame _ _ _ _ _ _ V1) as F1. destruct (proj2 G1 i _ Hn1) as [J1 [J2 [J3 J4]]]. cbn [def_base] in *.
    assert (Hk' : Ac -> hk (ct_base c1) <= k). { intros A. specialize (Hk A). pose proof (hk_base st1 i _ A L1 Hn1) as X. cbn [def_base hk] in *. lia. }
    destruct (IH st1 (ct_base c1) G1 L1 J1 Hk') as [st2 [p2 [b [E2 R2]]]]. rewrite E2. cbn [andthen]. destruct R2 as [V2 G2 L2 T2 R2 B2 H2 A2 P2 Q2 S2].
    destruct (frame_c _ _ i c1 (ev_frame _ _ _ _ _ _ V2) Hc1) as [c2 [Hc2 Rc]]. rewrite Hc2. pose proof Hc2 as Hn2. apply get_c_nth in Hn2. pose proof (ev_frame _ _ _ _ _ _ V2) as F2.
    change (ct_mixed (set_base c2 b)) with (ct_mixed c2).
    set (st3 := put_c st2 i (set_base c2 b)). set (m := if ct_mixed c2 then [b] else []).
    assert (N : forall X, match b with TNil => Panic | _ => X end = X :> run (store * list ty * ty)) by (intros X; destruct b; try reflexivity; destruct T2).
    exists st3, (p1 ++ p2 ++ m)%list, (TPtr i). split; [destruct b; try reflexivity; destruct T2|]. clear N.
    pose proof (evo_trans fa beta fa_name Q _ _ _ _ _ V1 V2) as V12. assert (Hc : get_c st i = Some c) by (apply get_c_nth; exact E).
    assert (Tb : turns st (ct_base c) b). { destruct (ev_keeps _ _ _ _ _ _ V1 i c c1 Hc Hc1) as [_ X]. exact (turns_trans fa beta fa_name st st1 _ _ _ F1 (ev_chain _ _ _ _ _ _ V1) X A2). }
    assert (Up : b <> TNil -> ancestor st (TPtr i) b).
    { intros _. apply an_base; cbn [base_of]; rewrite E; cbn [def_base]; [intros Z; rewrite Z in K1; exact K1|]. destruct Tb as [->|[X _]]; [constructor|exact X]. }
    pose proof (evo_base fa beta fa_name Q st _ st2 i c c2 b V12 Hc Hc2 Tb Up) as V3. fold m in V3. fold st3 in V3. rewrite <- app_assoc in V3.
    assert (G3 : good st3). { unfold st3, put_c. apply (good_put r beta st2 i (DC c2) (DC (set_base c2 b)) G2 Hn2); [reflexivity|]. destruct (proj2 G2 i _ Hn2) as [X1 [X2 [X3 X4]]]. unfold good_def. cbn [def_base set_base ct_base].
      split; [exact (okty_frame _ _ _ F2 T2)|]. split; [lia|]. split; [congruence|]. intros s u Hu. apply (X4 s u). destruct s; exact Hu. }
    assert (L3 : low st3). { unfold st3, put_c. apply (low_put st2 i (DC c2) (DC (set_base c2 b)) L2 Hn2). intros A. destruct (L2 A i _ Hn2) as [X1 [X2 X3]]. unfold low_def. cbn [def_base set_base ct_base].
      split; [specialize (H2 A); pose proof (hk_base st1 i _ A L1 Hn1) as X; cbn [def_base] in X; lia|]. split; [exact X2|]. intros s u Hu. apply (X3 s u). destruct s; exact Hu. }
    assert (Hn3 : nth_error st3 i = Some (DC (set_base c2 b))) by (unfold st3, put_c; rewrite (put_nth st2 i _ _ i Hn2), Nat.eqb_refl; reflexivity).
    split; auto.
    - left. reflexivity.
    - intros x Hx. assert (Y : okty st1 x).
      { apply in_app_or in Hx as [Hx|Hx]; [exact (P1 x Hx)|]. apply in_app_or in Hx as [Hx|Hx]; [exact (P2 x Hx)|]. unfold m in Hx. destruct (ct_mixed c2); [|destruct Hx]. destruct Hx as [<-|[]]. exact T2. }
      destruct x; cbn [okty] in *; auto. rewrite (frame_len _ _ F1) in Y. exact Y.
    - intros A. apply (L A i _ E).
    - intros A.
      assert (I3 : (forall s u, slot_ty (set_base c2 b) s = Some u -> In u (p1 ++ p2 ++ m)%list /\ needed u) /\ (ct_mixed (set_base c2 b) = true -> In (ct_base (set_base c2 b)) (p1 ++ p2 ++ m)%list)).
      { split.
        - intros s u Hu. assert (Hu2 : slot_ty c2 s = Some u) by (destruct s; exact Hu). assert (Z : In s (slots c1)) by (rewrite <- (erase_slots _ _ Rc); apply slots_in; congruence).
          assert (Z1 : In s (slots c)) by (rewrite <- Sc1; exact Z). apply slots_in in Z. destruct (slot_ty c1 s) as [u1|] eqn:U1; [|congruence].
          destruct (ev_moves _ _ _ _ _ _ V2 i c1 c2 Hc1 Hc2) as [M _]. destruct (M s u1 u U1 Hu2) as [->|[X Y]].
          + destruct (D1 A s u1 Z1 U1) as [X Y]. split; [apply in_or_app; left; exact X|exact Y].
          + split; [apply in_or_app; right; apply in_or_app; left; exact X|exact (Y A)].
        - cbn [set_base ct_mixed ct_base]. intros Hm. apply in_or_app. right. apply in_or_app. right. unfold m. rewrite Hm. left. reflexivity. }
      destruct (S2 A) as [Sb Sp].
      assert (T3 : forall x, settled st2 (p1 ++ p2) x -> settled st3 (p1 ++ p2 ++ m) x).
      { intros x Sx j Hj. destruct (Nat.eq_dec j i) as [->|D]; [rewrite Hn3; exact I3|].
        assert (Ej : nth_error st3 j = nth_error st2 j). { unfold st3, put_c. rewrite (put_nth st2 i _ _ j Hn2). destruct (Nat.eqb j i) eqn:X; [apply Nat.eqb_eq in X; contradiction|reflexivity]. }
        rewrite Ej. assert (Y : settled st2 (p1 ++ p2 ++ m) x) by (apply (settled_more _ (p1 ++ p2)); [intros y Hy; rewrite app_assoc; apply in_or_app; left; exact Hy|exact Sx]).
        assert (Yb : settled st2 (p1 ++ p2 ++ m) b) by (apply (settled_more _ p2); [intros y Hy; apply in_or_app; right; apply in_or_app; left; exact Hy|exact Sb]).
        destruct (rebased_up st2 i c2 b x j Hn2 Hj) as [Z|Z]; [exact (Y j Z)|exact (Yb j Z)]. }
      assert (T4 : forall x, settled st2 p2 x -> settled st3 (p1 ++ p2 ++ m) x) by (intros x Sx; apply T3, (settled_more _ p2); [intros y Hy; apply in_or_app; right; exact Hy|exact Sx]).
      split.
      + intros j Hj. inversion Hj as [|t u Hb Ha]; subst; [rewrite Hn3; exact I3|]. cbn [base_of] in Ha. rewrite Hn3 in Ha. cbn [def_base set_base ct_base] in Ha. exact (T4 b Sb j Ha).
      + intros x Hx. apply in_app_or in Hx as [Hx|Hx].
        * apply T3. exact (settled_evo st1 p1 p2 st2 x A V2 (S1 A x Hx)).
        * apply in_app_or in Hx as [Hx|Hx]; [exact (T4 x (Sp x Hx))|]. unfold m in Hx. destruct (ct_mixed c2); [|destruct Hx]. destruct Hx as [<-|[]]. exact (T4 b Sb).
  Qed.
End Closed.
