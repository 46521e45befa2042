(* flattenRef from the roots: references replaced, then groups unpacked. *)
From Verif Require Import Base GraphModel GraphSpec GraphProofs ScopeModel TreeModel TreeSpec TreeProofs BuiltinModel XsdModel XsdProofs NormModel NormMem NormOps NormPath NormSpec NormUnpack NormUnpackAll NormRefSpec NormRefAttr NormIndex NormRefs.
Local Open Scope string_scope.

Lemma hits_foot h : forall e p x q, In q (hits everything h e p x) -> q = p \/ In (fst q) (foot h e x).
Proof.
  induction e as [n a s c ks IH] using elem_ind'. intros p x q. rewrite hits_eq. cbn [app]. intros [<-|Hq]; auto. right. rewrite foot_eq. cbn [e_children] in *.
  apply hits_kids_in in Hq. destruct Hq as (j & k & y & E1 & E2 & Hq). apply (IH k (nth_error_In _ _ E1)) in Hq. destruct Hq as [->|Hq]; [right; left; reflexivity|]. right; right.
  revert E1 E2. clear -Hq. generalize (kids h x). revert ks. induction j as [|j IHj]; intros [|k0 ks] [|y0 l]; cbn [nth_error foots]; try discriminate; intros E1 E2.
  - injection E1 as ->. injection E2 as ->. apply in_or_app. auto.
  - apply in_or_app. right. eapply IHj; eauto.
Qed.
Lemma hits_kids_foot h e x q : In q (hits_kids everything h (n_arr x) (e_children e) (kids h x) 0) -> In (fst q) (foot h e x).
Proof.
  intros Hq. rewrite foot_eq. apply hits_kids_in in Hq. destruct Hq as (j & k & y & E1 & E2 & Hq). apply hits_foot in Hq. destruct Hq as [->|Hq]; [right; left; reflexivity|]. right; right.
  revert E1 E2. clear -Hq. generalize (kids h x). generalize (e_children e). induction j as [|j IHj]; intros [|k0 ks] [|y0 l]; cbn [nth_error foots]; try discriminate; intros E1 E2.
  - injection E1 as ->. injection E2 as ->. apply in_or_app. auto.
  - apply in_or_app. right. eapply IHj; eauto.
Qed.
Lemma stands_shows h roots es : stands h roots es -> Forall2 (shows h) roots es.
Proof.
  intros (xs & B1 & B2 & _). revert es B2. induction B1 as [|r x roots xs Hr B1 IH]; intros es B2; inversion B2; subst; constructor; auto. exists x. auto.
Qed.
Lemma stands_apart h roots es r q : stands h roots es -> In r roots -> In q (all_below h roots es) -> q <> r.
Proof.
  intros (xs & B1 & B2 & _ & _ & F) Hr Hq ->. apply (F r Hr). clear F Hr. revert es B2 Hq. induction B1 as [|r' x roots xs Hx B1 IH]; intros es B2 Hq; inversion B2 as [|e ? es' ? R B3]; subst; cbn [all_below] in Hq; [destruct Hq|].
  rewrite Hx in Hq. cbn [foots]. apply in_or_app. apply in_app_or in Hq. destruct Hq as [Hq|Hq]; [left; apply hits_kids_foot; auto|right; auto].
Qed.
Lemma all_below_in h roots es : Forall2 (shows h) roots es -> forall r e x q, paired roots es r e -> load h r = Some x -> In q (hits_kids everything h (n_arr x) (e_children e) (kids h x) 0) -> In q (all_below h roots es).
Proof.
  induction 1 as [|r0 e0 roots es (x0 & L0 & _) B IH]; intros r e x q (i & E1 & E2) L Hq; [destruct i; discriminate|]. cbn [all_below]. rewrite L0. destruct i as [|i]; cbn [nth_error] in *.
  - injection E1 as <-. injection E2 as <-. assert (x0 = x) by congruence. subst. apply in_or_app. auto.
  - apply in_or_app; right. apply (IH r e x); auto; exists i; auto.
Qed.

(* every reference resolves *)
Definition all_resolve (es : list elem) : Prop := forall ke e, In (ke, e) (entries es) -> has_ref e -> exists t d, target_at es (ref_key e) t d.

Lemma subs_kids e k : In k (e_children e) -> incl (subs k) (flat_map subs (e_children e)).
Proof. intros H x Hx. apply in_flat_map. eauto. Qed.
Lemma subs_trans : forall e d k, In d (subs e) -> In k (subs d) -> In k (subs e).
Proof.
  induction e as [n a s c ks IH] using elem_ind'. intros d k Hd Hk. cbn [subs] in *. destruct Hd as [<-|Hd]; [exact Hk|]. right. apply in_flat_map in Hd. destruct Hd as (c' & Hc & Hd). apply in_flat_map. eauto.
Qed.
Lemma subs_self e : In e (subs e).
Proof. destruct e. left. reflexivity. Qed.
Lemma entries_in es d : (exists ke, In (ke, d) (entries es)) <-> exists e, In e es /\ In d (flat_map subs (e_children e)).
Proof.
  unfold entries. split.
  - intros (ke & H). apply in_flat_map in H. destruct H as (e & He & H). apply in_map_iff in H. destruct H as (d' & E & H). injection E as _ <-. eauto.
  - intros (e & He & H). exists (key_of (attr e "" "targetNamespace") d). apply in_flat_map. exists e. split; auto. apply in_map_iff. eauto.
Qed.
Lemma entries_sub es d k : (exists ke, In (ke, d) (entries es)) -> In k (subs d) -> exists ke, In (ke, k) (entries es).
Proof.
  rewrite !entries_in. intros (e & He & Hd) Hk. exists e. split; auto. apply in_flat_map in Hd. destruct Hd as (c & Hc & Hd). apply in_flat_map. exists c. split; auto. eapply subs_trans; eauto.
Qed.
(* in a tree without sharing all elements are distinct *)
Lemma hits_distinct h : forall e p x, NoDup (foot h e x) -> ~ In (fst p) (foot h e x) -> NoDup (hits everything h e p x).
Proof.
  induction e as [n a s c ks IH] using elem_ind'. intros p x N Np. rewrite hits_eq. rewrite foot_eq in N, Np. cbn [e_children app] in *. inversion N as [|? ? _ N2]; subst. inversion N2 as [|? ? N3 N4]; subst. cbn [In] in Np.
  assert (G : forall l, (forall k, In k l -> In k ks) -> forall m i, NoDup (foots h l m) -> ~ In (n_arr x) (foots h l m) ->
    NoDup (hits_kids everything h (n_arr x) l m i) /\ forall q, In q (hits_kids everything h (n_arr x) l m i) -> (fst q = n_arr x /\ i <= snd q) \/ In (fst q) (foots h l m)).
  { induction l as [|k l IHl]; intros Hl [|y m] i Nd Na; cbn [hits_kids foots] in *; try (split; [constructor|intros q []]). apply nodup_app_inv in Nd. destruct Nd as (D1 & D2 & D3). rewrite in_app_iff in Na.
    destruct (IHl (fun k' Hk => Hl k' (or_intror Hk)) m (S i) D2 (fun X => Na (or_intror X))) as (G1 & G2).
    assert (H1 : NoDup (hits everything h k (n_arr x, i) y)) by (apply IH; [apply Hl; left; auto|auto|cbn [fst]; auto]). split.
    - apply nodup_app; auto. intros q Q1 Q2. apply hits_foot in Q1. apply G2 in Q2. destruct Q1 as [->|Q1]; cbn [fst snd] in Q2.
      + destruct Q2 as [(_ & Q2)|Q2]; [lia|]. apply Na. auto.
      + destruct Q2 as [(Q2 & _)|Q2]; [apply Na; rewrite <- Q2; auto|]. exact (D3 _ Q1 Q2).
    - intros q Hq. rewrite in_app_iff. apply in_app_or in Hq. destruct Hq as [Hq|Hq]; [apply hits_foot in Hq; destruct Hq as [->|Hq]; cbn [fst snd]; auto|]. apply G2 in Hq. destruct Hq as [(Hq & Hq')|Hq]; auto. left. split; auto. lia. }
  destruct (G ks (fun k H => H) (kids h x) 0 N4 N3) as (G1 & G2). constructor; auto. intros X. apply G2 in X. destruct X as [(X & _)|X]; [apply Np; right; left; auto|apply Np; right; right; auto].
Qed.
Lemma hits_kids_distinct h e x : NoDup (foot h e x) -> NoDup (hits_kids everything h (n_arr x) (e_children e) (kids h x) 0).
Proof.
  intros N. assert (Hx : exists a, ~ In a (foot h e x)). { exists (S (list_max (foot h e x))). intros X. pose proof (list_max_le (foot h e x) (list_max (foot h e x))) as [Y _]. specialize (Y (le_n _)). rewrite Forall_forall in Y. specialize (Y _ X). lia. }
  destruct Hx as (a & Ha). pose proof (hits_distinct h e (a, 0) x N Ha) as D. rewrite hits_eq in D. inversion D; auto.
Qed.
Lemma stands_distinct h roots es : stands h roots es -> NoDup (all_below h roots es).
Proof.
  intros (xs & B1 & B2 & _ & F & _). revert es B2 F. induction B1 as [|r x roots xs Hx B1 IH]; intros es B2 F; inversion B2 as [|e ? es' ? R B3]; subst; cbn [all_below]; [constructor|]. rewrite Hx. cbn [foots] in F. apply nodup_app_inv in F. destruct F as (F1 & F2 & F3).
  apply nodup_app; [apply hits_kids_distinct; auto|apply IH; auto|]. intros q Q1 Q2. apply hits_kids_foot in Q1. apply (F3 _ Q1). clear -B1 B3 Q2. revert es' B3 Q2. induction B1 as [|r x roots xs Hx B1 IH]; intros es B2 Hq; inversion B2 as [|e ? es' ? R B3]; subst; cbn [all_below] in Hq; [destruct Hq|].
  rewrite Hx in Hq. cbn [foots]. apply in_or_app. apply in_app_or in Hq. destruct Hq as [Hq|Hq]; [left; apply hits_kids_foot; auto|right; auto].
Qed.

(* no reference is left in the result *)
Lemma sub_subs : forall q e d, sub e q = Some d -> In d (subs e).
Proof.
  induction q as [|i q IH]; intros e d H; cbn [sub] in H; [injection H as ->; apply subs_self|]. destruct (nth_error (e_children e) i) as [k|] eqn:E; [|discriminate]. apply IH in H. destruct e as [n a s c ks]. right. apply in_flat_map. exists k. split; auto. eapply nth_error_In; eauto.
Qed.
Lemma descendant_subs e q d : descendant e q d -> In d (flat_map subs (e_children e)).
Proof. intros (N & H). destruct q as [|i q]; [congruence|]. cbn [sub] in H. destruct (nth_error (e_children e) i) as [k|] eqn:E; [|discriminate]. apply in_flat_map. exists k. split; [eapply nth_error_In; eauto|eapply sub_subs; eauto]. Qed.
Lemma kid_entry es d k : (exists ke, In (ke, d) (entries es)) -> In k (e_children d) -> exists ke, In (ke, k) (entries es).
Proof. intros H Hk. apply (entries_sub es d); auto. destruct d as [n a s c ks]. right. apply in_flat_map. exists k. split; auto. apply subs_self. Qed.
Lemma resolved_no_ref es (Ht : timely es) (Hc : clear_refs es) : forall n k k', height k' <= n -> resolved es k k' -> (exists ke, In (ke, k) (entries es)) -> forall d, In d (subs k') -> ~ has_ref d.
Proof.
  induction n as [|n IH]; intros k k' Hn Rv Hk d Hd; [rewrite height_eq in Hn; lia|].
  assert (Kid : forall p ks, with_children p ks = k' -> forall d0, (exists ke, In (ke, d0) (entries es)) -> Forall2 (resolved es) (e_children d0) ks -> In d (flat_map subs ks) -> ~ has_ref d).
  { intros p ks E d0 Hd0 Bk Hin. apply in_flat_map in Hin. destruct Hin as (c' & Hc' & Hin). apply In_nth_error in Hc'. destruct Hc' as (j & Ej). apply Forall2_paired in Bk. destruct Bk as (Bl & Bk).
    assert (Hj : j < List.length (e_children d0)) by (rewrite Bl; apply nth_error_Some; congruence). destruct (nth_error (e_children d0) j) as [c0|] eqn:Ec; [|apply nth_error_None in Ec; lia].
    apply (IH c0 c'); auto; [|apply Bk; exists j; auto|eapply kid_entry; eauto; eapply nth_error_In; eauto]. pose proof (height_kid (with_children p ks) c') as X. rewrite e_children_with in X. specialize (X (nth_error_In _ _ Ej)). rewrite E in X. lia. }
  inversion Rv as [e0 ks Hre Bk E1 E2|e0 t de ks Hre T Bk E1 E2]; subst e0.
  - rewrite <- E2 in Hd. cbn [subs with_children] in Hd. destruct Hd as [<-|Hd]; [exact Hre|]. exact (Kid _ _ E2 k Hk Bk Hd).
  - rewrite <- E2 in Hd. cbn [subs with_children] in Hd. destruct Hk as (ke & Hk). destruct Hd as [<-|Hd].
    + destruct Hc as (C1 & C2). change (~ has_ref (merged k de)). pose proof Hk as Hk'. apply In_nth_error in Hk'. destruct Hk' as (i & Ei). apply merged_no_ref; [apply (C2 ke k t de); auto|intros a Ha; apply (C1 ke k a); auto|apply (Ht i ke k t de); auto].
    + apply (Kid _ _ E2 de); auto. eexists. eapply nth_error_In. exact (proj1 T).
Qed.
Lemma unpack_attrs : forall n e d, height e <= n -> In d (subs (unpack_el e)) -> exists d0, In d0 (subs e) /\ e_attrs d = e_attrs d0.
Proof.
  induction n as [|n IH]; intros e d Hn Hd; [rewrite height_eq in Hn; lia|]. rewrite unpack_el_eq in Hd. destruct e as [nm a s c ks]. cbn [with_kids_el subs e_children] in Hd. destruct Hd as [<-|Hd]; [exists (Elem nm a s c ks); split; [left|]; auto|].
  apply in_flat_map in Hd. destruct Hd as (k' & Hk' & Hd). unfold opened_kids in Hk'. apply in_flat_map in Hk'. destruct Hk' as (k & Hk & Hk').
  pose proof (height_kid (Elem nm a s c ks) k Hk) as Hh.
  assert (X : exists k0, In k0 (subs k) /\ height k0 <= n /\ k' = unpack_el k0).
  { destruct (group_el k); [|destruct Hk' as [<-|[]]; exists k; split; [apply subs_self|]; split; auto; lia]. apply in_map_iff in Hk'. destruct Hk' as (k0 & <- & Hk0). exists k0. pose proof (height_kid k k0 Hk0). split; [|split; auto; lia].
    destruct k as [n1 a1 s1 c1 ks1]. right. apply in_flat_map. exists k0. split; auto. apply subs_self. }
  destruct X as (k0 & S0 & H0 & ->). destruct (IH k0 d H0 Hd) as (d0 & D1 & D2). exists d0. split; auto. right. apply in_flat_map. exists k. split; auto. eapply subs_trans; eauto.
Qed.
Lemma flattened_no_refs es es' : timely es -> clear_refs es -> Forall2 (resolved_root es) es es' ->
  forall e q d, In e (map (below unpack_el) es') -> descendant e q d -> ~ has_ref d.
Proof.
  intros Ht Hc Rv e q d He Hd. apply in_map_iff in He. destruct He as (e1 & <- & He1). apply descendant_subs in Hd. rewrite below_eq in Hd. destruct (with_kids_el_parts e1 (map unpack_el (e_children e1))) as (_ & _ & _ & _ & E). rewrite E in Hd.
  apply in_flat_map in Hd. destruct Hd as (k & Hk & Hd). apply in_map_iff in Hk. destruct Hk as (k1 & <- & Hk1). destruct (unpack_attrs (height k1) k1 d (le_n _) Hd) as (d0 & D1 & D2).
  assert (X : ~ has_ref d0); [|unfold has_ref, attr in *; rewrite D2; exact X].
  apply In_nth_error in He1. destruct He1 as (i & Ei). pose proof Rv as Rv'. apply Forall2_paired in Rv'. destruct Rv' as (Rl & Rv'). assert (Hi : i < List.length es) by (rewrite Rl; apply nth_error_Some; congruence). destruct (nth_error es i) as [e0|] eqn:Ee; [|apply nth_error_None in Ee; lia].
  destruct (Rv' e0 e1 (ex_intro _ i (conj Ee Ei))) as (ks & Bk & ->). rewrite e_children_with in Hk1. apply In_nth_error in Hk1. destruct Hk1 as (j & Ej). apply Forall2_paired in Bk. destruct Bk as (Bl & Bk).
  assert (Hj : j < List.length (e_children e0)) by (rewrite Bl; apply nth_error_Some; congruence). destruct (nth_error (e_children e0) j) as [c0|] eqn:Ec; [|apply nth_error_None in Ec; lia].
  apply (resolved_no_ref es Ht Hc (height k1) c0 k1); auto; [apply Bk; exists j; auto|]. apply entries_in. exists e0. split; [eapply nth_error_In; eauto|]. apply in_flat_map. exists c0. split; [eapply nth_error_In; eauto|apply subs_self].
Qed.

Lemma put_elsewhere h q y z q' w : load h q = Some y -> q' <> q -> load h q' = Some w -> load (put h q z) q' = Some w.
Proof.
  intros L Hn L'. pose proof (put_same_but h q y z L) as (_ & S2 & l1 & l2 & S3 & S4 & S5 & S6). unfold load, cells in *.
  destruct (Nat.eq_dec (fst q') (fst q)) as [E|E]; [|rewrite put_other by auto; exact L']. rewrite E in *. rewrite S4. rewrite S3 in L'. rewrite S6; auto. intros X. apply Hn. destruct q, q'; cbn in *; congruence.
Qed.

Section Flatten.
  Variables grow agrow : nat -> nat -> nat.

  Lemma flatten_ref_ok fuel h roots es es' : stands h roots es -> timely es -> clear_refs es -> all_resolve es -> Forall2 (resolved_root es) es es' ->
    Forall (fun e => height e <= fuel) es -> Forall (fun e => height e <= fuel /\ groups_apart e) es' ->
    exists H, flatten_ref grow agrow fuel roots h = Done H /\ Forall2 (shows H) roots (map (below unpack_el) es').
  Proof.
    intros St Ht Hc Hr Rv Hf Hf'. pose proof (stands_shows h roots es St) as Hs.
    destruct (index_ok h fuel roots es [] ([], []) Hs Hf) as (m & E1 & Ix); [split; [constructor|]; intros k t; cbn [snd key_get]; split; [discriminate|]; intros (d & X & _); destruct t; discriminate|]. cbn [fst app] in E1, Ix.
    destruct (replaced_all grow agrow h roots es m Hs Ix Ht Hc Hr) as (ds & order & H & done & E2 & E3 & E4 & Se & All).
    unfold flatten_ref. rewrite E1, E2, E3, E4.
    assert (G : forall r e e', paired roots es r e -> resolved_root es e e' -> exists x, load H r = Some x /\ rep H e' x /\ inside h roots es H e' x).
    { intros r e e' Pr (ks & Bk & ->). pose proof Hs as Hs'. apply Forall2_paired in Hs'. destruct Hs' as (_ & Hs'). destruct (Hs' r e Pr) as (x & L & R).
      assert (Hin : In r roots) by (destruct Pr as (i & X & _); eapply nth_error_In; eauto).
      assert (Nd : ~ In r done) by (intros X; apply (stands_apart h roots es r r St Hin); auto; apply (se_in _ _ _ _ _ Se); auto).
      pose proof R as R'. apply rep_eq in R'. destruct R' as (R1 & R2 & R3 & _ & K & _).
      assert (Cl : forall j, j < n_len x -> In (n_arr x, j) (all_below h roots es)).
      { intros j Hj. apply (all_below_in h roots es Hs r e x); auto. apply hits_kids_in. rewrite (rep_len h e x R) in Hj. destruct (nth_error (e_children e) j) as [k|] eqn:Ek; [|apply nth_error_None in Ek; lia].
        destruct (rep_kid h e x j k R Ek) as (y & Ey & Ry & Ly & _). exists j, k, y. cbn [Nat.add]. split; auto. split; auto. rewrite hits_eq. left. reflexivity. }
      destruct (final_kids h roots es H done Se x ks K Cl) as (B & In').
      { rewrite (rep_len h e x R). symmetry. eapply Forall2_len; eauto. }
      { intros j k' Ej. apply Forall2_paired in Bk. destruct Bk as (Bl & Bk). assert (Hj : j < List.length (e_children e)) by (rewrite Bl; apply nth_error_Some; congruence).
        destruct (nth_error (e_children e) j) as [k|] eqn:Ek; [|apply nth_error_None in Ek; lia]. destruct (rep_kid h e x j k R Ek) as (y & _ & Ry & Ly & Hj').
        apply (finish grow agrow h roots es m Hs Ix Hr H done Se All (height k') k); auto; [apply Bk; exists j; auto|exists y; auto]. }
      exists x. split; [apply (se_same _ _ _ _ _ Se); auto|]. split.
      - apply rep_eq. cbn [with_children e_name e_scope e_content e_attrs e_children]. repeat split; auto; [eapply final_attrs; eauto|eapply settling_kids_ok; eauto].
      - apply final_inside; [|exact In']. intros j Hj. left. apply Cl. rewrite (kids_length H x) in Hj; auto. eapply settling_kids_ok; eauto. }
    assert (Pz : forall r e', paired roots es' r e' -> exists e, paired roots es r e /\ resolved_root es e e').
    { intros r e' (i & X1 & X2). apply Forall2_paired in Rv. destruct Rv as (Rl & Rv). assert (Hi : i < List.length es) by (rewrite Rl; apply nth_error_Some; congruence). destruct (nth_error es i) as [e|] eqn:Ee; [|apply nth_error_None in Ee; lia].
      exists e. split; [exists i; auto|apply Rv; exists i; auto]. }
    destruct (unpack_all_ok grow fuel H roots es') as (H' & F1 & F2 & _); auto.
    - apply Forall2_paired. split; [rewrite (Forall2_len _ _ _ Hs); eapply Forall2_len; eauto|]. intros r e' Pr. destruct (Pz r e' Pr) as (e & Pe & Re). destruct (G r e e' Pe Re) as (x & L & R & _). exists x. auto.
    - intros r r' e' x q Hin Pr L Hq. destruct (Pz r' e' Pr) as (e & Pe & Re). destruct (G r' e e' Pe Re) as (x' & L' & R & I). assert (x' = x) by congruence. subst x'.
      destruct (I q Hq) as [X|X]; [exact (stands_apart h roots es r q St Hin X)|]. intros ->. pose proof St as (xs & B1 & _). apply Forall2_paired in B1. destruct B1 as (Bl & B1). apply In_nth_error in Hin. destruct Hin as (i & Ei).
      assert (Hi : i < List.length xs) by (rewrite <- Bl; apply nth_error_Some; congruence). destruct (nth_error xs i) as [x0|] eqn:Ex; [|apply nth_error_None in Ex; lia]. pose proof (load_bound _ _ _ (B1 r x0 (ex_intro _ i (conj Ei Ex)))). lia.
    - exists H'. auto.
  Qed.

  Lemma index_all h fuel roots es : Forall2 (shows h) roots es -> Forall (fun e => height e <= fuel) es -> exists m, index_schema fuel h roots ([], []) = Some (all_below h roots es, m) /\ indexed h (entries es) (all_below h roots es, m).
  Proof. intros Hs Hf. apply (index_ok h fuel roots es [] ([], []) Hs Hf). split; [constructor|]; intros k t; cbn [snd key_get]; split; [discriminate|]; intros (d & X & _); destruct t; discriminate. Qed.

  (* a reference to nothing is reported *)
  Lemma unknown_reference fuel h roots es ke e : Forall2 (shows h) roots es -> Forall (fun e => height e <= fuel) es ->
    In (ke, e) (entries es) -> has_ref e -> (forall t d, ~ target_at es (ref_key e) t d) -> flatten_ref grow agrow fuel roots h = Fails.
  Proof.
    intros Hs Hf Hin Hre Nt. destruct (index_all h fuel roots es Hs Hf) as (m & E1 & Ix). unfold flatten_ref. rewrite E1. apply In_nth_error in Hin. destruct Hin as (i & Ei).
    destruct (els_at h roots es m Ix i ke e Ei) as (q & y & Eq & L & R).
    assert (X : dep_of h m q = None).
    { unfold dep_of. rewrite L. unfold ref_of. rewrite (rep_attr h e y _ R). assert (E0 : String.eqb (attr e "" "ref") "" = false) by (apply String.eqb_neq; exact Hre). rewrite E0. pose proof R as R'. apply rep_eq in R'. destruct R' as (Rn & Rs & _). rewrite Rs, Rn.
      change (resolve (e_scope e) (attr e "" "ref"), e_name e) with (ref_key e). destruct (key_get (ref_key e) m) as [t|] eqn:Ek; auto. apply Ix in Ek. destruct Ek as (d & T). exfalso. exact (Nt t d T). }
    destruct (mapo (dep_of h m) (all_below h roots es)) as [ds|] eqn:Em; auto. destruct (mapo_nth _ _ _ _ _ Em Eq) as (b & Eb & _). congruence.
  Qed.

  (* otherwise replacing them comes to an end, without a panic *)
  Lemma no_panic fuel h roots es : stands h roots es -> Forall (fun e => height e <= fuel) es -> all_resolve es -> exists H, flatten_ref grow agrow fuel roots h = unpack_all grow fuel roots H.
  Proof.
    intros St Hf Hr. pose proof (stands_shows h roots es St) as Hs. pose proof (stands_distinct h roots es St) as Nd. destruct (index_all h fuel roots es Hs Hf) as (m & E1 & Ix). unfold flatten_ref. rewrite E1. clear E1.
    set (els := all_below h roots es) in *.
    assert (D : exists ds, mapo (dep_of h m) els = Some ds /\ List.length ds = List.length els).
    { apply mapo_some. intros q Hq. apply In_nth_error in Hq. destruct Hq as (i & Eq). destruct (els_entry h roots es m Ix i q Eq) as (ke & e & y & Ee & L & R). unfold dep_of. rewrite L. unfold ref_of. rewrite (rep_attr h e y _ R).
      destruct (String.eqb (attr e "" "ref") "") eqn:E0; [discriminate|]. apply String.eqb_neq in E0. pose proof R as R'. apply rep_eq in R'. destruct R' as (Rn & Rs & _). rewrite Rs, Rn.
      change (resolve (e_scope e) (attr e "" "ref"), e_name e) with (ref_key e). destruct (Hr ke e (nth_error_In _ _ Ee) E0) as (t & d & T). assert (Ek : key_get (ref_key e) m = Some t) by (apply Ix; exists d; exact T). rewrite Ek. discriminate. }
    destruct D as (ds & E2 & Hl). rewrite E2. destruct (flatten_once (dep_edges 0 ds)) as (order & E3 & No & V). rewrite E3.
    assert (Rng : forall v, In v order -> (0 <= v)%Z).
    { intros v Hv. apply V in Hv. destruct Hv as (w & [X|X]); apply dep_edges_in in X; destruct X as (i & j & _ & -> & ->); lia. }
    assert (G : forall o H done, NoDup o -> (forall v, In v o -> (0 <= v)%Z) -> (forall a l, nth_error h a = Some (Ats l) -> nth_error H a = Some (Ats l)) ->
      (forall q y, load h q = Some y -> ~ In q done -> load H q = Some y) -> List.length h <= List.length H -> (forall v q, In v o -> nth_error els (Z.to_nat v) = Some q -> ~ In q done) ->
      exists H', foldo (deref_one grow agrow els m) H o = Some H').
    { induction o as [|v o IH]; intros H done No' Rn Kp Same Hlen Dn; cbn [foldo]; [eauto|]. inversion No' as [|? ? N1 N2]; subst.
      assert (Nx : forall H' q, nth_error els (Z.to_nat v) = Some q -> (forall a l, nth_error h a = Some (Ats l) -> nth_error H' a = Some (Ats l)) -> (forall q' y, q' <> q -> load H q' = Some y -> load H' q' = Some y) -> List.length h <= List.length H' -> exists H2, foldo (deref_one grow agrow els m) H' o = Some H2).
      { intros H' q Eq A1 A2 A3. apply (IH H' (q :: done)); auto.
        - intros w Hw. apply Rn. right. auto.
        - intros q' y L Hn. apply A2; [intros ->; apply Hn; left; auto|]. apply Same; auto. intros X. apply Hn. right. auto.
        - intros w q' Hw Eq' [X|X]; [|exact (Dn w q' (or_intror Hw) Eq' X)]. subst q'. assert (Z.to_nat w = Z.to_nat v) by (apply (NoDup_nth_error els); auto; [apply nth_error_Some|]; congruence).
          assert (w = v) by (pose proof (Rn w (or_intror Hw)); pose proof (Rn v (or_introl eq_refl)); lia). subst w. contradiction. }
      unfold deref_one at 1. destruct (nth_error els (Z.to_nat v)) as [q|] eqn:Eq.
      2: { apply (IH H done); auto; [intros w Hw; apply Rn; right; auto|intros w q' Hw; apply Dn; right; auto]. }
      destruct (els_entry h roots es m Ix _ q Eq) as (ke & e & y & Ee & L & R). assert (LH : load H q = Some y) by (apply Same; auto; apply (Dn v); auto; left; auto). rewrite LH.
      assert (Ea : ref_of H y = attr e "" "ref"). { unfold ref_of, nattr, attr. pose proof R as R'. apply rep_eq in R'. destruct R' as (_ & _ & _ & (la & A1 & A2 & A3) & _). rewrite (attrs_ok_eq H y (e_attrs e)); auto. exists la. split; auto. }
      rewrite Ea. destruct (String.eqb (attr e "" "ref") "") eqn:E0. { apply (Nx H q); auto. }
      apply String.eqb_neq in E0. pose proof R as R'. apply rep_eq in R'. destruct R' as (Rn' & Rs & _). rewrite Rs, Rn'. change (resolve (e_scope e) (attr e "" "ref"), e_name e) with (ref_key e).
      destruct (Hr ke e (nth_error_In _ _ Ee) E0) as (t & d & T). assert (Ek : key_get (ref_key e) m = Some t) by (apply Ix; exists d; exact T). rewrite Ek.
      destruct (nth_error els t) as [qd|]; [|apply (Nx H q); auto]. destruct (load H qd) as [real|]; [|apply (Nx H q); auto].
      unfold deref_node, alloc, alloc_ats. rewrite <- app_assoc. cbn [app]. match goal with |- context [(H ++ ?l)%list] => set (ext := l); set (H1 := (H ++ ext)%list) end.
      assert (Lq : load H1 q = Some y). { unfold load, cells, H1. rewrite nth_error_app1 by (eapply load_bound; eauto). exact LH. }
      apply (Nx _ q); auto.
      - intros a l X. rewrite put_other. + unfold H1. rewrite nth_error_app1; [apply Kp; auto|]. assert (a < List.length h) by (apply nth_error_Some; congruence). lia. + intros ->. destruct (load_array _ _ _ L) as (l' & X' & _). congruence.
      - intros q' y' Hn L'. apply (put_elsewhere H1 q y); auto. unfold load, cells, H1. rewrite nth_error_app1 by (eapply load_bound; eauto). exact L'.
      - rewrite put_length. unfold H1. rewrite app_length. lia. }
    destruct (G order h [] No Rng) as (H & ->); auto. eauto.
  Qed.
End Flatten.
