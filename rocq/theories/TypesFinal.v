From Coq Require Import Permutation.
From Verif Require Import Base ScopeModel TreeModel BuiltinModel XsdModel XsdProofs TypesModel TypesSpec TypesProofs TypesMixed TypesParse.
Local Open Scope string_scope.

Lemma store_in l d : In d (fst (initial l)) <-> exists r n, In r l /\ In (n, d) (rd_types r).
Proof.
  unfold initial. destruct (alloc_all [] [] l) as [st parsed] eqn:E. cbn [fst]. apply alloc_all_spec in E as ((ext & -> & H) & _). apply H.
Qed.
Lemma store_raw l i d : raw_rds l -> nth_error (fst (initial l)) i = Some d -> raw d.
Proof. intros R H. apply nth_error_In, store_in in H as (r & n & Hr & Hi). eapply R; eauto. Qed.
Lemma key_present l r : In r l -> sget (rd_tns r) (snd (initial l)) <> None.
Proof. unfold initial. destruct (alloc_all [] [] l) as [st parsed] eqn:E. cbn [snd]. apply alloc_all_spec in E as (_ & _ & H & _). apply H. Qed.
Lemma keys_nodup l : NoDup (map fst (snd (initial l))).
Proof. unfold initial. destruct (alloc_all [] [] l) as [st parsed] eqn:E. cbn [snd]. apply alloc_all_spec in E as (_ & _ & _ & _ & H & _). apply H. constructor. Qed.
Lemma entry_map l n t : In (n, t) (entries l) <-> exists ns own, sget ns (snd (initial l)) = Some own /\ In (n, t) own.
Proof.
  unfold entries. rewrite in_flat_map. split.
  - intros ([ns own] & Ho & Ht). exists ns, own. split; auto. apply sget_nodup_in; auto. apply keys_nodup.
  - intros (ns & own & Hs & Ht). exists (ns, own). split; auto. apply sget_in. auto.
Qed.
Lemma entry_schema l n t : In (n, t) (entries l) -> exists r own, In r l /\ sget (rd_tns r) (snd (initial l)) = Some own /\ In (n, t) own.
Proof.
  intros H. apply entry_map in H as (ns & own & Hs & Ht). pose proof (sget_in _ _ _ Hs) as Hi.
  unfold initial in *. destruct (alloc_all [] [] l) as [st parsed] eqn:E. cbn [snd] in *. apply alloc_all_spec in E as (_ & H & _).
  apply H in Hi as [[]|(r & Hr & ->)]. exists r, own. auto.
Qed.

Lemma nth_same_length {A B} (a : list A) (b : list B) i x : List.length a = List.length b -> nth_error a i = Some x -> exists y, nth_error b i = Some y.
Proof.
  intros E H. destruct (nth_error b i) eqn:X; eauto. apply nth_error_None in X. assert (i < List.length a) by (apply nth_error_Some; congruence). lia.
Qed.

Section L.
  Variable l : list rd.
  Hypothesis R : raw_rds l.
  Let st0 := fst (initial l).
  Let parsed0 := snd (initial l).

  Lemma proper_ptr t : proper l t -> (exists i, t = TPtr i /\ i < List.length st0) \/ exists b, t = TB b.
  Proof. intros [(k & H)|H]; auto. left. eapply entry_ptr; eauto. Qed.
  Lemma target_proper ord parsed st n t : any_order ord -> inv l st parsed -> target l parsed n t -> proper l t.
  Proof.
    intros O I. unfold target. destruct (parse_builtin n); [intros ->; right; eauto|]. intros [[H _]|(_ & ns & own & Hs & Hl)]; [left; auto|].
    apply lookup_in in Hl. eapply (inv_maps _ _ _ I); eauto.
  Qed.
  Lemma inv_base_ptr ord st parsed i d j : any_order ord -> inv l st parsed -> nth_error st i = Some d -> def_base d = TPtr j -> exists k, In (k, TPtr j) (entries l).
  Proof.
    intros O I H Hb.
    assert (exists d0, nth_error st0 i = Some d0) as [d0 H0].
    { eapply nth_same_length; [apply (inv_len _ _ _ I)|eauto]. }
    pose proof (store_raw l i d0 R H0) as Rw. destruct (inv_def _ _ _ I i d0 H0) as (d' & Hd' & C). rewrite H in Hd'. injection Hd' as <-.
    assert (B0 : forall k, def_base d0 <> TPtr k) by (intros k X; apply (Rw k); destruct d0; cbn [refs def_base] in *; left; auto).
    destruct C as [C|[C _]].
    - exfalso. apply (B0 j). rewrite <- Hb. destruct d as [c|s], d0 as [c0|s0]; cbn [strip] in C; try discriminate; cbn [def_base].
      + assert (X : set_mixed c false = set_mixed c0 false) by congruence. exact (eq_sym (f_equal ct_base X)).
      + congruence.
    - assert (P : points (target l parsed) (def_base d0) (def_base d)) by (destruct d0, d; cbn [resolved] in C; try tauto; cbn [def_base]; tauto).
      rewrite Hb in P. inversion P as [n t Ht E1 E2| | |k E1 E2]; subst.
      + eapply target_proper in Ht; eauto. destruct Ht as [Ht|(b & Ht)]; auto. discriminate.
      + destruct (B0 j); auto.
  Qed.
  Lemma inv_base_wf ord st parsed : any_order ord -> inv l st parsed -> base_wf st.
  Proof.
    intros O I i d j H Hb. destruct (inv_base_ptr ord _ _ _ _ _ O I H Hb) as (k & Hk). apply entry_ptr in Hk as (j' & E & Lt). injection E as <-.
    rewrite (inv_len _ _ _ I). auto.
  Qed.
  Lemma ancestor_proper ord st parsed t u : any_order ord -> inv l st parsed -> (exists k, In (k, t) (entries l)) -> ancestor st t u ->
    (exists k, In (k, u) (entries l)) \/ forall i, u <> TPtr i.
  Proof.
    intros O I P A. induction A as [t|t u Hn A IH]; auto.
    destruct (base_of st t) as [|b|m|j] eqn:E.
    - congruence.
    - inversion A; subst; [right; discriminate|]. cbn [base_of] in H. congruence.
    - inversion A; subst; [right; discriminate|]. cbn [base_of] in H. congruence.
    - apply IH. destruct t as [| | |i]; try discriminate. cbn [base_of] in E. destruct (nth_error st i) as [d|] eqn:Ed; [|discriminate].
      eapply inv_base_ptr; eauto.
  Qed.

  (* ---------- success ---------- *)
  Theorem parse_resolved ord st parsed : any_order ord -> parse_rds ord l = Ok (st, parsed) ->
    List.length st = List.length st0 /\
    (forall n i, In (n, TPtr i) (entries l) -> exists d0 d, nth_error st0 i = Some d0 /\ nth_error st i = Some d /\ resolved (target l parsed) d0 d /\ linkfree d) /\
    (forall ns own n t, sget ns parsed = Some own -> In (n, t) own -> (exists k, In (k, t) (entries l)) \/ exists b, t = TB b) /\
    grows parsed0 parsed.
  Proof.
    intros O H. unfold parse_rds in H. fold (initial l) in H. rewrite (surjective_pairing (initial l)) in H.
    pose proof (finish_spec l ord O l 1 _ _ _ _ (initial_inv l) H) as (I & _ & _ & D & _).
    split; [apply (inv_len _ _ _ I)|]. split; [|split; [|apply (inv_grow _ _ _ I)]].
    - intros n i Hn. apply entry_schema in Hn as (r & own & Hr & Hs & Hn). exact (D r own n i Hr Hs Hn).
    - intros ns own n t Hs Ht. eapply (inv_maps _ _ _ I); eauto.
  Qed.

  (* ---------- Mixed ---------- *)
  Lemma mixed_later st st' i : later st st' -> mixed_rule st0 st i -> mixed_rule st0 st' i.
  Proof.
    intros [_ L] H. induction H as [i c Hc Hm|i c Hc He Hb|i c j c' Hc He Hb Hj Hr IH|i c j s Hc Hb Hj].
    - eapply mr_declared; eauto.
    - destruct (L _ _ Hc) as ([c1|] & H1 & E); [|destruct E]. destruct E as (E1 & [E2|[(m & E2) _]] & _); [|congruence]. eapply mr_any; eauto; congruence.
    - destruct (L _ _ Hc) as ([c1|] & H1 & E); [|destruct E]. destruct E as (E1 & [E2|[(m & E2) _]] & _); [|congruence].
      destruct (L _ _ Hj) as ([c2|] & H2 & E3); [|destruct E3]. eapply mr_complex; eauto; congruence.
    - destruct (L _ _ Hc) as ([c1|] & H1 & E); [|destruct E]. destruct E as (E1 & [E2|[(m & E2) _]] & _); [|congruence].
      destruct (L _ _ Hj) as ([|c2] & H2 & E3); [destruct E3|]. eapply mr_simple; [eauto| |eauto]; congruence.
  Qed.
  Lemma mixed_flat st i : later st0 st -> (forall j, is_mixed st j -> mixed_rule st0 st j) -> (mixed_rule st st i <-> mixed_rule st0 st i).
  Proof.
    intros L S. split; intros H.
    - induction H; [apply S; exists c; auto|eapply mr_any; eauto|eapply mr_complex; eauto|eapply mr_simple; eauto].
    - induction H; [|eapply mr_any; eauto|eapply mr_complex; eauto|eapply mr_simple; eauto].
      destruct L as [_ L]. destruct (L _ _ H) as ([c1|] & H1 & E); [|destruct E]. eapply mr_declared; [exact H1|]. apply E; auto.
  Qed.
  Lemma chain_later st st' t k : later st st' -> chain st' t k -> exists k', chain st t k' /\ k' <= k.
  Proof.
    intros L H. induction H as [t Hb|t n Hb Hc (k' & IH & Hk)].
    - exists 0. split; auto. apply ch_end. destruct t as [| | |i]; auto. cbn [base_of] in *. destruct (nth_error st i) as [d|] eqn:E; auto.
      destruct L as [_ L]. destruct (L _ _ E) as (d' & E' & Ld). rewrite E' in Hb.
      destruct d, d'; cbn [later_def def_base] in *; try tauto; [destruct Ld as (_ & [X|[_ X]] & _)|destruct Ld as [X|[_ X]]]; congruence.
    - destruct t as [| | |i]; try (destruct (Hb eq_refl)). cbn [base_of] in *. destruct (nth_error st' i) as [d'|] eqn:E'; [|destruct (Hb eq_refl)].
      assert (exists d, nth_error st i = Some d) as [d E].
      { destruct (nth_error st i) eqn:X; eauto. apply nth_error_None in X. rewrite <- (proj1 L) in X. apply nth_error_None in X. congruence. }
      destruct L as [_ L]. destruct (L _ _ E) as (d2 & E2 & Ld). rewrite E' in E2. injection E2 as <-.
      assert (B : later_base (def_base d) (def_base d')) by (destruct d, d'; cbn [later_def def_base] in *; tauto).
      destruct B as [B|[(m & B) N]].
      + exists (S k'). split; [|lia]. apply ch_step; cbn [base_of]; rewrite E, <- B; auto.
      + exists 1. split; [|lia]. apply ch_step; cbn [base_of]; rewrite E, B; [discriminate|]. apply ch_end. reflexivity.
  Qed.
  Lemma shallow_later st st' es : later st st' -> shallow st' es -> shallow st es.
  Proof. intros L S n t H. destruct (S n t H) as (k & C & K). destruct (chain_later _ _ _ _ L C) as (k' & C' & K'). exists k'. split; auto. lia. Qed.

  (* once a chain has been dealt with, later changes do not matter for it *)
  Definition settled (st : store) (i : nat) : Prop :=
    forall j, ancestor st (TPtr i) (TPtr j) -> ~ stuck st j /\ (mixed_rule st0 st j -> is_mixed st j).
  Lemma later_back st st' i d' : later st st' -> nth_error st' i = Some d' -> exists d, nth_error st i = Some d /\ later_def d d'.
  Proof.
    intros L H. destruct (nth_error st i) as [d|] eqn:E.
    - destruct (proj2 L _ _ E) as (d2 & E2 & X). exists d. split; auto. congruence.
    - apply nth_error_None in E. rewrite <- (proj1 L) in E. apply nth_error_None in E. congruence.
  Qed.
  Lemma settled_link st i c m : settled st i -> nth_error st i = Some (DC c) -> ct_base c = TLink m -> is_mixed st i.
  Proof.
    intros Q H B. exists c. split; auto. destruct (ct_mixed c) eqn:M; auto. destruct (proj1 (Q i (an_self _ _))). exists c, m. auto.
  Qed.
  Lemma settled_later st st' i : (forall j, is_mixed st j -> mixed_rule st0 st j) -> later st st' -> settled st i -> mixed_rule st0 st' i -> is_mixed st i.
  Proof.
    intros S L Q H. revert Q. induction H as [i c Hc Hm|i c Hc He Hb|i c j c' Hc He Hb Hj Hr IH|i c j s Hc Hb Hj]; intros Q.
    - apply Q; [constructor|]. eapply mr_declared; eauto.
    - destruct (later_back _ _ _ _ L Hc) as ([c1|] & H1 & E); [|destruct E]. destruct E as (E1 & [E2|[(m & E2) _]] & _); [|eapply settled_link; eauto].
      apply Q; [constructor|]. eapply mr_any; eauto; congruence.
    - destruct (later_back _ _ _ _ L Hc) as ([c1|] & H1 & E); [|destruct E]. destruct E as (E1 & [E2|[(m & E2) _]] & _); [|eapply settled_link; eauto].
      destruct (later_back _ _ _ _ L Hj) as ([c2|] & H2 & E3); [|destruct E3].
      apply Q; [constructor|]. eapply mr_complex; eauto; try congruence. apply S, IH. intros k Hk. apply Q.
      apply an_base; cbn [base_of]; rewrite H1; cbn [def_base]; rewrite <- E2, Hb; [discriminate|auto].
    - destruct (later_back _ _ _ _ L Hc) as ([c1|] & H1 & E); [|destruct E]. destruct E as (E1 & [E2|[(m & E2) _]] & _); [|eapply settled_link; eauto].
      destruct (later_back _ _ _ _ L Hj) as ([|c2] & H2 & E3); [destruct E3|].
      apply Q; [constructor|]. eapply mr_simple; [eauto| |eauto]; congruence.
  Qed.

  Definition sound0 (st : store) : Prop := forall j, is_mixed st j -> mixed_rule st0 st j.
  (* the effect of one propagation pass in terms of the declared flags *)
  Lemma propagate_all_sound st1 es st2 : base_wf st1 -> later st0 st1 -> sound0 st1 -> shallow st1 es -> propagate_all es st1 = Some st2 ->
    sound0 st2 /\ (forall i, is_mixed st2 i <-> is_mixed st1 i \/ reached st1 es i /\ mixed_rule st0 st1 i) /\
    (forall n i, In (n, TPtr i) es -> settled st2 i).
  Proof.
    intros W L S D H. pose proof (propagate_all_spec st1 es W D) as P. rewrite H in P. destruct P as (A & M & K).
    assert (FL : flags_in st1 st2) by (intros i Hi; apply M; auto).
    assert (L2 : later st1 st2) by (apply alike_later; auto).
    assert (M' : forall i, is_mixed st2 i <-> is_mixed st1 i \/ reached st1 es i /\ mixed_rule st0 st1 i).
    { intros i. rewrite M, (mixed_flat st1 i L S). tauto. }
    split; [|split; auto].
    - intros i Hi. apply (mixed_later st1 st2 i L2). apply M' in Hi as [Hi|[_ Hi]]; auto.
    - intros n i Hi j Ha.
      assert (Ha1 : ancestor st1 (TPtr i) (TPtr j)).
      { clear - Ha A. remember (TPtr i) as t. clear Heqt. induction Ha as [t|t u Hn Ha IH]; [constructor|].
        apply an_base; rewrite (alike_base _ _ t A); auto. }
      assert (Re : reached st1 es j) by (exists n, (TPtr i); auto). split.
      + intros (c & m & Hc & Hb & Hm). apply (K j Re). destruct (alike_dc _ _ _ _ (alike_sym _ _ A) Hc) as (c1 & H1 & B1 & _).
        exists c1, m. split; auto. split; [congruence|]. destruct (ct_mixed c1) eqn:X; auto.
        destruct (FL j) as (cx & Hx & Mx); [exists c1; auto|]. congruence.
      + intros Hr. apply M'. right. split; auto. clear - Hr A. induction Hr.
        * eapply mr_declared; eauto.
        * destruct (alike_dc _ _ _ _ (alike_sym _ _ A) H) as (c1 & H2 & B1 & E1 & _). eapply mr_any; eauto; congruence.
        * destruct (alike_dc _ _ _ _ (alike_sym _ _ A) H) as (c1 & H3 & B1 & E1 & _). destruct (alike_dc _ _ _ _ (alike_sym _ _ A) H2) as (c2 & H4 & _).
          eapply mr_complex; eauto; congruence.
        * destruct (alike_dc _ _ _ _ (alike_sym _ _ A) H) as (c1 & H3 & B1 & E1 & _). pose proof (alike_ds _ _ _ _ (alike_sym _ _ A) H1).
          eapply mr_simple; [eauto| |eauto]; congruence.
  Qed.

  Lemma maps_shallow st parsed own ns es : inv l st parsed -> sget ns parsed = Some own -> shallow st (entries l) -> Permutation own es -> shallow st es.
  Proof.
    intros I Hs Sh P n t Ht. apply Permutation_sym in P. eapply Permutation_in in Ht; [|exact P].
    destruct (inv_maps _ _ _ I _ _ Hs n t Ht) as [(k & Hk)|(b & ->)]; [eauto|]. exists 0. split; [apply ch_end; reflexivity|lia].
  Qed.
  (* resolving does not touch Mixed *)
  Lemma resolve_mixed look es a b : good_look look -> resolve_types look es a = Some b -> forall i, is_mixed b i <-> is_mixed a i.
  Proof.
    intros G H i. apply resolve_types_spec in H as [Le H]; auto.
    assert (Q : forall d d', resolve_def look d = Some d' -> forall c', d' = DC c' -> exists c, d = DC c /\ ct_mixed c = ct_mixed c').
    { intros [c|s] d' Hr c' ->; cbn [resolve_def] in Hr; destruct (resolve_ty look _); try discriminate; destruct (mapo _ _); try discriminate.
      destruct (mapo _ _); try discriminate. injection Hr as <-. exists c. auto. }
    assert (Q' : forall c d', resolve_def look (DC c) = Some d' -> exists c', d' = DC c' /\ ct_mixed c = ct_mixed c').
    { intros c d' Hr; cbn [resolve_def] in Hr; destruct (resolve_ty look _); try discriminate; destruct (mapo _ _); try discriminate.
      destruct (mapo _ _); try discriminate. injection Hr as <-. eexists. split; reflexivity. }
    assert (Z : forall d, nth_error a i = Some d -> exists d', nth_error b i = Some d' /\ (resolve_def look d = Some d' \/ d' = d)).
    { intros d Hd. destruct (H i d Hd) as (d' & Hd' & X & Y). exists d'. split; auto.
      destruct (Exists_dec (fun e : xname * ty => snd e = TPtr i) es (fun e => ty_dec (snd e) (TPtr i))) as [Ex|Ne].
      - apply Exists_exists in Ex as ([m u] & Hm & Hu). cbn in Hu. subst u. left. apply X. eauto.
      - right. apply Y. intros m Hm. apply Ne. apply Exists_exists. exists (m, TPtr i). auto. }
    split; intros (c & Hc & Hm).
    - destruct (nth_error a i) as [d|] eqn:E.
      + destruct (Z d eq_refl) as (d' & Hd' & [X|X]); rewrite Hc in Hd'; injection Hd' as <-.
        * destruct (Q _ _ X c eq_refl) as (c0 & -> & E0). exists c0. split; auto. congruence.
        * subst d. exists c. auto.
      + apply nth_error_None in E. rewrite <- Le in E. apply nth_error_None in E. congruence.
    - destruct (Z _ Hc) as (d' & Hd' & [X| ->]); [|exists c; auto]. destruct (Q' _ _ X) as (c' & -> & E0). exists c'. split; auto. congruence.
  Qed.

  Section Ordered.
    Variable ord : nat -> list (xname * ty) -> list (xname * ty).
    Hypothesis O : any_order ord.
    Let g := index_types st0 (ord 0 (entries l)).

    (* one step, taken apart *)
    Lemma step_parts k r st parsed st' parsed' : inv l st parsed -> finish_one g (ord k) r (st, parsed) = Ok (st', parsed') ->
      exists own st1 own', sget (rd_tns r) parsed = Some own /\ resolve_types (lookup_type g own) (ord k own) st = Some st1 /\
        foldo (add_alias g) own (rd_aliases r) = Some own' /\ propagate_all (ord k own') st1 = Some st' /\ parsed' = sset (rd_tns r) own' parsed /\
        inv l st' parsed' /\ base_wf st1 /\ later st st1 /\ later st1 st' /\ later st0 st1 /\ good_look (lookup_type g own) /\ sget (rd_tns r) parsed' = Some own'.
    Proof.
      intros I H. pose proof (step l ord O k r st parsed st' parsed' I H) as (I' & _).
      cbn [finish_one] in H. destruct (sget (rd_tns r) parsed) as [own|] eqn:Eo; [|discriminate].
      destruct (resolve_types (lookup_type g own) (ord k own) st) as [st1|] eqn:E1; [|discriminate].
      destruct (foldo (add_alias g) own (rd_aliases r)) as [own'|] eqn:E2; [|discriminate].
      destruct (propagate_all (ord k own') st1) as [st2|] eqn:E3; [|discriminate]. injection H as <- <-.
      exists own, st1, own'. pose proof (propagate_all_alike _ _ _ E3) as [AL FL].
      pose proof (look_good l ord O own (inv_maps _ _ _ I _ _ Eo)) as GL.
      assert (L01 : later st st1).
      { apply resolve_types_spec in E1 as [L1 R1]; auto. split; auto. intros i d Hd. destruct (R1 i d Hd) as (d' & Hd' & X & Y). exists d'. split; auto.
        destruct (Exists_dec (fun e : xname * ty => snd e = TPtr i) (ord k own) (fun e => ty_dec (snd e) (TPtr i))) as [Ex|Ne].
        - apply Exists_exists in Ex as ([m u] & Hm & Hu). cbn in Hu. subst u. eapply resolved_later; eauto.
        - rewrite (Y ltac:(intros m Hm; apply Ne; apply Exists_exists; exists (m, TPtr i); auto)). destruct d; cbn [later_def]; auto using later_base_refl. }
      repeat (split; [solve [auto|eapply base_wf_alike; [apply alike_sym; eauto|eapply inv_base_wf; eauto]|apply alike_later; auto|eapply later_trans; [apply (inv_later _ _ _ I)|auto]]|]).
      rewrite sget_sset, String.eqb_refl. auto.
    Qed.

    Lemma finish_mixed : forall l' k st parsed st' parsed', inv l st parsed -> sound0 st -> finish g ord k l' (st, parsed) = Ok (st', parsed') ->
      shallow st' (entries l) ->
      sound0 st' /\ (forall r own0 n i, In r l' -> sget (rd_tns r) parsed0 = Some own0 -> In (n, TPtr i) own0 -> mixed_rule st0 st' i -> is_mixed st' i).
    Proof.
      induction l' as [|r l' IH]; intros k st parsed st' parsed' I So H Sh; cbn [finish] in H.
      - injection H as <- <-. split; auto. intros r own0 n i [].
      - destruct (finish_one g (ord k) r (st, parsed)) as [[st2 p2]| |] eqn:E; try discriminate.
        destruct (step_parts _ _ _ _ _ _ I E) as (own & st1 & own' & Eo & E1 & E2 & E3 & -> & I2 & W1 & L01 & L12 & L1 & GL & Eo').
        pose proof (finish_spec l ord O l' (S k) _ _ _ _ I2 H) as (_ & L2F & _).
        assert (Sh2 : shallow st2 (entries l)) by (eapply shallow_later; eauto).
        assert (Sh1 : shallow st1 (ord k own')).
        { eapply shallow_later; [exact L12|]. eapply maps_shallow; eauto. }
        assert (S1 : sound0 st1).
        { intros j Hj. eapply mixed_later; [exact L01|]. apply So. apply (resolve_mixed _ _ _ _ GL E1). auto. }
        destruct (propagate_all_sound _ _ _ W1 L1 S1 Sh1 E3) as (S2 & M2 & Q2).
        destruct (IH (S k) _ _ _ _ I2 S2 H Sh) as [SF MF]. split; auto.
        intros r' own0 n i [->|Hr] Hs Hn Hm; [|eapply MF; eauto].
        assert (Hi2 : is_mixed st2 i).
        { eapply settled_later; [exact S2|exact L2F| |exact Hm]. apply (Q2 n). eapply Permutation_in; [apply O|].
          destruct (inv_grow _ _ _ I2 _ _ Hs) as (o & Ho & _ & Hin). rewrite Eo' in Ho. injection Ho as <-. auto. }
        destruct Hi2 as (c & Hc & Mc). destruct (proj2 L2F _ _ Hc) as ([c'|] & Hc' & X); [|destruct X]. exists c'. split; auto. apply X. auto.
    Qed.
    Theorem parse_mixed st parsed : parse_rds ord l = Ok (st, parsed) -> shallow st (entries l) ->
      forall n i, In (n, TPtr i) (entries l) -> (is_mixed st i <-> mixed_rule st0 st i).
    Proof.
      intros H Sh n i Hn. unfold parse_rds in H. fold (initial l) in H. rewrite (surjective_pairing (initial l)) in H.
      destruct (finish_mixed l 1 _ _ _ _ (initial_inv l) ltac:(intros j (c & Hc & Hm); eapply mr_declared; eauto) H Sh) as [S M].
      split; [apply S|]. apply entry_schema in Hn as (r & own & Hr & Hs & Hn). eapply M; eauto.
    Qed.

    (* ---------- failure ---------- *)
    Lemma finish_err : forall l' k st parsed, inv l st parsed -> finish g ord k l' (st, parsed) = Err ->
      exists n, dangling l n /\
        ((exists i d, In (TPtr i) (map snd (entries l)) /\ nth_error st0 i = Some d /\ In (TLink n) (refs d)) \/
         exists r a, In r l' /\ In a (rd_aliases r) /\ snd a = n).
    Proof.
      induction l' as [|r l' IH]; intros k st parsed I H; cbn [finish] in H; [discriminate|].
      destruct (finish_one g (ord k) r (st, parsed)) as [[st2 p2]| |] eqn:E; try discriminate.
      - apply step in E as (I1 & _); auto. destruct (IH _ _ _ I1 H) as (n & D & [X|(r' & a & Hr & Ha)]); exists n; split; auto.
        right. exists r', a. split; auto. right; auto.
      - clear H. cbn [finish_one] in E. destruct (sget (rd_tns r) parsed) as [own|] eqn:Eo; [|discriminate].
        pose proof (look_good l ord O own (inv_maps _ _ _ I _ _ Eo)) as GL.
        destruct (resolve_types (lookup_type g own) (ord k own) st) as [st1|] eqn:E1.
        + destruct (foldo (add_alias g) own (rd_aliases r)) as [own'|] eqn:E2.
          * destruct (propagate_all _ _); discriminate.
          * clear - E2 O. assert (G : exists own a, In a (rd_aliases r) /\ add_alias g own a = None).
            { revert own E2. induction (rd_aliases r) as [|a al IH]; intros own E2; cbn [foldo] in E2; [discriminate|].
              destruct (add_alias g own a) eqn:E; [|exists own, a; split; auto; left; auto]. destruct (IH _ E2) as (o & a' & Hi & Hx). exists o, a'. split; auto. right; auto. }
            destruct G as (o & a & Hi & Hx). unfold add_alias in Hx. destruct (lookup (fst a) o); [discriminate|].
            destruct (lookup_type g o (snd a)) eqn:Lk; [discriminate|]. apply look_none in Lk as (B & C & _); auto. exists (snd a). split; [split; auto|].
            right. exists r, a. split; [left|]; auto.
        + apply resolve_types_none in E1 as (n & i & d & m & Hn & Hd & Hm & Lk); auto. apply look_none in Lk as (B & C & _); auto.
          exists m. split; [split; auto|]. left.
          assert (Hn' : In (n, TPtr i) own) by (eapply Permutation_in; [apply Permutation_sym, O|exact Hn]).
          destruct (inv_maps _ _ _ I _ _ Eo _ _ Hn') as [(kk & Hk)|(b & Hk)]; [|discriminate].
          pose proof (entry_ptr _ _ _ Hk) as (i' & Ei & Lt). injection Ei as <-.
          destruct (nth_error st0 i) as [d0|] eqn:E0; [|apply nth_error_None in E0; unfold st0 in E0; lia].
          exists i, d0. split; [change (TPtr i) with (snd (kk, TPtr i)); apply in_map; auto|]. split; auto.
          destruct (inv_def _ _ _ I i d0 E0) as (d' & Hd' & [X|[_ X]]); rewrite Hd in Hd'; injection Hd' as <-.
          * rewrite <- (refs_strip _ _ X). auto.
          * destruct (X _ Hm).
    Qed.
    Theorem parse_err : parse_rds ord l = Err ->
      exists n, dangling l n /\
        ((exists k i d, In (k, TPtr i) (entries l) /\ nth_error st0 i = Some d /\ In (TLink n) (refs d)) \/
         exists r a, In r l /\ In a (rd_aliases r) /\ snd a = n).
    Proof.
      intros H. unfold parse_rds in H. fold (initial l) in H. rewrite (surjective_pairing (initial l)) in H.
      destruct (finish_err l 1 _ _ (initial_inv l) H) as (n & D & [(i & d & Hi & X)|X]); exists n; split; auto.
      left. apply in_map_iff in Hi as ([k t] & Et & Hi). cbn [snd] in Et. subst t. exists k, i, d. auto.
    Qed.

    (* ---------- panics ---------- *)
    Lemma propagate_none : forall fuel t st, base_wf st -> propagate fuel t st = None -> exists i, ancestor st t (TPtr i) /\ stuck st i.
    Proof.
      induction fuel as [|f IH]; intros t st W H.
      - cbn [propagate] in H. destruct (base_of st t); discriminate.
      - destruct (ty_dec (base_of st t) TNil) as [E|E]; [cbn [propagate] in H; rewrite E in H; discriminate|].
        rewrite propagate_step in H by auto. destruct (propagate f (base_of st t) st) as [st1|] eqn:E1.
        + pose proof (propagate_alike _ _ _ _ E1) as [A F]. unfold mix in H. destruct t as [| | |i]; try discriminate.
          destruct (nth_error st1 i) as [[c|s]|] eqn:Ei; try discriminate. destruct (ct_mixed c) eqn:M; [discriminate|].
          destruct (alike_dc _ _ _ _ (alike_sym _ _ A) Ei) as (c0 & H0 & B0 & _).
          assert (Bs : base_of st (TPtr i) = ct_base c) by (cbn [base_of]; rewrite H0; cbn [def_base]; auto).
          assert (M0 : ct_mixed c0 = false).
          { destruct (ct_mixed c0) eqn:X; auto. destruct (F i) as (cx & Hx & Mx); [exists c0; auto|]. congruence. }
          destruct (base_of st (TPtr i)) as [|b|m|j] eqn:Eb; [destruct (E eq_refl)|discriminate| |].
          * exists i. split; [constructor|]. exists c0, m. split; auto. split; auto. congruence.
          * assert (j < List.length st) by (eapply W; [exact H0|cbn [def_base]; congruence]). rewrite (alike_length _ _ A) in H1.
            destruct (nth_error st1 j) as [[]|] eqn:Ej; try discriminate. apply nth_error_None in Ej. lia.
        + destruct (IH _ _ W E1) as (i & Ha & Hs). exists i. split; auto. apply an_base; auto.
    Qed.
    Lemma propagate_all_none es : forall st, base_wf st -> propagate_all es st = None -> exists n t i, In (n, t) es /\ ancestor st t (TPtr i) /\ stuck st i.
    Proof.
      unfold propagate_all. induction es as [|[n t] es IH]; intros st W H; cbn [foldo] in H; [discriminate|]. cbn [snd] in H.
      destruct (propagate max_depth t st) as [st1|] eqn:E.
      - pose proof (propagate_alike _ _ _ _ E) as [A F]. destruct (IH st1 (base_wf_alike _ _ A W) H) as (m & u & i & Hm & Ha & (c & x & Hc & Hb & Mc)).
        exists m, u, i. split; [right; auto|]. split.
        + clear - Ha A. remember (TPtr i) as v. clear Heqv. induction Ha as [t|t u Hn Ha IH]; [constructor|]. apply an_base; rewrite (alike_base _ _ t A); auto.
        + destruct (alike_dc _ _ _ _ (alike_sym _ _ A) Hc) as (c0 & H0 & B0 & _). exists c0, x. split; auto. split; [congruence|].
          destruct (ct_mixed c0) eqn:X; auto. destruct (F i) as (cx & Hx & Mx); [exists c0; auto|]. congruence.
      - apply propagate_none in E as (i & Ha & Hs); auto. exists n, t, i. split; [left|]; auto.
    Qed.

    (* only with a schema whose types have not been resolved yet: a complex type of it that is
       not mixed and refers to its base by name *)
    Lemma finish_panic : forall l' l1 k st parsed, inv l st parsed -> (forall r, In r l' -> In r l) ->
      (forall r own0 n i, In r l1 -> sget (rd_tns r) parsed0 = Some own0 -> In (n, TPtr i) own0 -> done l st parsed i) ->
      finish g ord k l' (st, parsed) = Panics ->
      exists l2 r l3, l' = (l2 ++ r :: l3)%list /\
        exists ns own0 n i c m, sget ns parsed0 = Some own0 /\ In (n, TPtr i) own0 /\ nth_error st0 i = Some (DC c) /\ ct_base c = TLink m /\ ct_mixed c = false /\
          (forall r', In r' (l1 ++ l2 ++ [r])%list -> rd_tns r' <> ns).
    Proof.
      induction l' as [|r l' IH]; intros l1 k st parsed I Sub D H; cbn [finish] in H; [discriminate|].
      destruct (finish_one g (ord k) r (st, parsed)) as [[st2 p2]| |] eqn:E; try discriminate.
      - pose proof (step l ord O k r st parsed st2 p2 I E) as (I1 & _ & _ & D1 & K1 & _).
        destruct (IH (l1 ++ [r])%list (S k) st2 p2 I1 ltac:(intros; apply Sub; right; auto)) as (l2 & r2 & l3 & -> & ns & own0 & n & i & c & m & A); auto.
        + intros r' own0 n i Hr Hs Hn. apply in_app_iff in Hr as [Hr|[<-|[]]]; [apply K1; eauto|eauto].
        + exists (r :: l2), r2, l3. split; auto. exists ns, own0, n, i, c, m.
          repeat (split; [tauto|]). intros r' Hr. apply A. rewrite <- app_assoc. cbn [app] in *. auto.
      - clear H. exists [], r, l'. split; auto. cbn [finish_one] in E. destruct (sget (rd_tns r) parsed) as [own|] eqn:Eo.
        2:{ destruct (sget (rd_tns r) parsed0) as [o|] eqn:X; [|destruct (key_present l r (Sub r (or_introl eq_refl)) X)].
            destruct (inv_grow _ _ _ I _ _ X) as (o' & Ho & _). congruence. }
        destruct (resolve_types (lookup_type g own) (ord k own) st) as [st1|] eqn:E1; [|discriminate].
        destruct (foldo (add_alias g) own (rd_aliases r)) as [own'|] eqn:E2; [|discriminate].
        destruct (propagate_all (ord k own') st1) as [st2|] eqn:E3; [discriminate|]. clear E.
        pose proof (look_good l ord O own (inv_maps _ _ _ I _ _ Eo)) as GL.
        pose proof (aliases_spec l ord O own _ own' (inv_maps _ _ _ I _ _ Eo) E2) as (O' & A' & B').
        pose proof (resolve_mixed _ _ _ _ GL E1) as RM.
        apply resolve_types_spec in E1 as [L1 R1]; auto.
        (* bases of st1 *)
        assert (RB : forall i d1, nth_error st1 i = Some d1 -> exists d, nth_error st i = Some d /\ (resolve_def (lookup_type g own) d = Some d1 \/ d1 = d)).
        { intros i d1 H1. destruct (nth_error st i) as [d|] eqn:X.
          - destruct (R1 i d X) as (d' & Hd' & P & Q). rewrite H1 in Hd'. injection Hd' as <-. exists d. split; auto.
            destruct (Exists_dec (fun e : xname * ty => snd e = TPtr i) (ord k own) (fun e => ty_dec (snd e) (TPtr i))) as [Ex|Ne].
            + apply Exists_exists in Ex as ([m u] & Hm & Hu). cbn in Hu. subst u. left. eauto.
            + right. apply Q. intros m Hm. apply Ne. apply Exists_exists. exists (m, TPtr i). auto.
          - apply nth_error_None in X. rewrite <- L1 in X. apply nth_error_None in X. congruence. }
        assert (BP : forall i d1 j, nth_error st1 i = Some d1 -> def_base d1 = TPtr j -> exists kk, In (kk, TPtr j) (entries l)).
        { intros i d1 j H1 Hb. destruct (RB i d1 H1) as (d & Hd & [X| ->]); [|eapply inv_base_ptr; eauto].
          pose proof (resolve_def_spec _ _ _ GL X) as [Y _].
          assert (P : points (fun n u => lookup_type g own n = Some u) (def_base d) (def_base d1)) by (destruct d, d1; cbn [resolved] in Y; try tauto; cbn [def_base]; tauto).
          rewrite Hb in P. inversion P as [nn t Ht Ex Ey| | |kk Ex Ey]; subst.
          - apply (look_proper l ord O) in Ht; [|eapply inv_maps; eauto]. destruct Ht as [Ht|(b & Ht)]; auto. discriminate.
          - eapply inv_base_ptr; eauto. }
        assert (W1 : base_wf st1).
        { intros i d j Hd Hb. destruct (BP i d j Hd Hb) as (kk & Hk). apply entry_ptr in Hk as (j' & Ej & Lt). injection Ej as <-.
          rewrite L1, (inv_len _ _ _ I). auto. }
        apply propagate_all_none in E3 as (n & t & i & Hn & Ha & (c & m & Hc & Hb & Mc)); auto.
        assert (Hn' : In (n, t) own') by (eapply Permutation_in; [apply Permutation_sym, O|exact Hn]).
        assert (He : exists kk, In (kk, TPtr i) (entries l)).
        { destruct (O' _ _ Hn') as [X|(b & ->)].
          - clear - Ha X BP. remember (TPtr i) as u. revert Hequ. induction Ha as [t|t u Hn Ha IH]; intros ->; auto. apply IH; auto.
            destruct (base_of st1 t) as [|b|mm|j] eqn:Eb; [destruct (Hn eq_refl)| | |]; try (inversion Ha; subst; cbn [base_of] in *; congruence).
            destruct t as [| | |ti]; try discriminate. cbn [base_of] in Eb. destruct (nth_error st1 ti) as [d|] eqn:Ed; [|discriminate]. eapply BP; eauto.
          - inversion Ha; subst. cbn [base_of] in *. congruence. }
        destruct He as (kk & Hk). pose proof Hk as Hk'. apply entry_map in Hk as (ns & own0 & Hs & Hi).
        apply entry_ptr in Hk' as (i' & Ei & Lt). injection Ei as <-.
        destruct (nth_error st0 i) as [d0|] eqn:E0; [|apply nth_error_None in E0; unfold st0 in E0; lia].
        (* i is not resolved in st1 *)
        destruct (RB i _ Hc) as (d & Hd & X).
        assert (ND : ~ linkfree (DC c)) by (intros Y; apply (Y m); left; auto).
        destruct X as [X|X]; [destruct ND; eapply resolve_def_spec; eauto|]. subst d.
        destruct (inv_def _ _ _ I i d0 E0) as (d' & Hd' & [X|[_ X]]); rewrite Hd in Hd'; injection Hd' as <-; [|contradiction].
        destruct d0 as [c0|s0]; cbn [strip] in X; [|discriminate]. assert (X' : set_mixed c false = set_mixed c0 false) by congruence.
        assert (Xb : ct_base c = ct_base c0) by exact (f_equal ct_base X').
        exists ns, own0, kk, i, c0, m. split; auto. split; auto. split; auto. split; [congruence|]. split.
        + destruct (ct_mixed c0) eqn:M0; auto. destruct (proj2 (inv_later _ _ _ I) _ _ E0) as ([cz|] & Hz & Y); [|destruct Y].
          rewrite Hd in Hz. injection Hz as <-. destruct Y as (_ & _ & Y). specialize (Y M0). congruence.
        + intros r' Hr E. subst ns. apply in_app_iff in Hr as [Hr|[<-|[]]].
          * destruct (D r' own0 kk i Hr Hs Hi) as (dx & dy & _ & Hy & _ & Ly). rewrite Hd in Hy. injection Hy as <-. contradiction.
          * destruct (inv_grow _ _ _ I _ _ Hs) as (o & Ho & _ & Hin). rewrite Eo in Ho. injection Ho as <-.
            destruct (R1 i _ Hd) as (d1 & Hd1 & P & _). rewrite Hc in Hd1. injection Hd1 as <-.
            destruct ND. eapply resolve_def_spec; [exact GL|]. apply P. exists kk. eapply Permutation_in; [apply O|]. auto.
    Qed.
    Theorem parse_panics : parse_rds ord l = Panics ->
      exists l2 r l3, l = (l2 ++ r :: l3)%list /\
        exists r' n i c m, In r' l3 /\ sget (rd_tns r') parsed0 <> None /\ In (n, TPtr i) (entries l) /\ nth_error st0 i = Some (DC c) /\
          ct_base c = TLink m /\ ct_mixed c = false /\ (forall r2, In r2 (l2 ++ [r])%list -> rd_tns r2 <> rd_tns r').
    Proof.
      intros H. unfold parse_rds in H. fold (initial l) in H. rewrite (surjective_pairing (initial l)) in H.
      destruct (finish_panic l [] 1 _ _ (initial_inv l) ltac:(auto) ltac:(intros r own0 n i []) H) as (l2 & r & l3 & El & ns & own0 & n & i & c & m & Hs & Hn & Hc & Hb & Hm & Hl).
      exists l2, r, l3. split; auto.
      assert (He : In (n, TPtr i) (entries l)) by (apply entry_map; eauto).
      assert (exists r', In r' l /\ rd_tns r' = ns) as (r' & Hr' & Er').
      { pose proof (sget_in _ _ _ Hs) as Hi. unfold parsed0, initial in Hi. destruct (alloc_all [] [] l) as [sx px] eqn:E. cbn [snd] in *. apply alloc_all_spec in E as (_ & X & _).
        apply X in Hi as [[]|(r' & Hr & ->)]. eauto. }
      exists r', n, i, c, m. split.
      - rewrite El in Hr'. apply in_app_iff in Hr' as [Hr'|[Hr'|Hr']]; auto; exfalso; apply (Hl r'); auto; apply in_app_iff; right; apply in_app_iff; [left|right; left]; auto.
      - split; [rewrite Er'; congruence|]. split; auto. split; auto. split; auto. split; auto. intros r2 H2. rewrite Er'. apply Hl. auto.
    Qed.
  End Ordered.
End L.
