From Coq Require Import Permutation.
From Verif Require Import Base ScopeModel TreeModel BuiltinModel XsdModel XsdProofs TypesModel TypesSpec TypesProofs TypesMixed.
Local Open Scope string_scope.

(* ---------- small facts ---------- *)
Lemma points_impl (P Q : xname -> ty -> Prop) t u : (forall n x, P n x -> Q n x) -> points P t u -> points Q t u.
Proof. intros H [n x Hx| | |]; constructor; auto. Qed.
Lemma resolved_impl (P Q : xname -> ty -> Prop) d d' : (forall n x, P n x -> Q n x) -> resolved P d d' -> resolved Q d d'.
Proof.
  intros H. destruct d as [c|s], d' as [c'|s']; cbn [resolved]; auto.
  - intros (A & B & C & D). split; [eapply points_impl; eauto|]. split; [|split; auto].
    + eapply forall2_impl; [|exact B]. intros x y [Hp Hq]. split; auto. eapply points_impl; eauto.
    + eapply forall2_impl; [|exact C]. intros x y [Hp Hq]. split; auto. eapply points_impl; eauto.
  - intros (A & B & C). split; [eapply points_impl; eauto|]. split; auto. eapply forall2_impl; [|exact B]. intros x y. apply points_impl; auto.
Qed.
(* Mixed does not matter *)
Lemma resolved_strip P d0 d d' d1 : strip d = strip d0 -> strip d' = strip d1 -> resolved P d d' -> resolved P d0 d1.
Proof.
  destruct d as [c|s], d0 as [c0|s0]; cbn [strip]; try discriminate; destruct d' as [c'|s'], d1 as [c1|s1]; cbn [strip]; try discriminate; cbn [resolved]; auto; try tauto.
  - intros E E' H. assert (X : set_mixed c false = set_mixed c0 false) by congruence. assert (X' : set_mixed c' false = set_mixed c1 false) by congruence.
    rewrite <- (f_equal ct_base X : ct_base c = ct_base c0), <- (f_equal ct_elems X : ct_elems c = ct_elems c0), <- (f_equal ct_attrs X : ct_attrs c = ct_attrs c0),
      <- (f_equal ct_name X : ct_name c = ct_name c0), <- (f_equal ct_doc X : ct_doc c = ct_doc c0), <- (f_equal ct_anon X : ct_anon c = ct_anon c0),
      <- (f_equal ct_abstract X : ct_abstract c = ct_abstract c0), <- (f_equal ct_extends X : ct_extends c = ct_extends c0).
    rewrite <- (f_equal ct_base X' : ct_base c' = ct_base c1), <- (f_equal ct_elems X' : ct_elems c' = ct_elems c1), <- (f_equal ct_attrs X' : ct_attrs c' = ct_attrs c1),
      <- (f_equal ct_name X' : ct_name c' = ct_name c1), <- (f_equal ct_doc X' : ct_doc c' = ct_doc c1), <- (f_equal ct_anon X' : ct_anon c' = ct_anon c1),
      <- (f_equal ct_abstract X' : ct_abstract c' = ct_abstract c1), <- (f_equal ct_extends X' : ct_extends c' = ct_extends c1). exact H.
  - intros E E' H. injection E as ->. injection E' as ->. exact H.
Qed.
Lemma refs_strip d d' : strip d = strip d' -> refs d = refs d'.
Proof.
  destruct d as [c|s], d' as [c'|s']; cbn [strip]; try discriminate; intros E.
  - assert (X : set_mixed c false = set_mixed c' false) by congruence. cbn [refs].
    rewrite (f_equal ct_base X : ct_base c = ct_base c'), (f_equal ct_elems X : ct_elems c = ct_elems c'), (f_equal ct_attrs X : ct_attrs c = ct_attrs c'). auto.
  - injection E as ->. auto.
Qed.
Lemma linkfree_strip d d' : strip d = strip d' -> linkfree d -> linkfree d'.
Proof. intros E H n. rewrite <- (refs_strip _ _ E). apply H. Qed.
Lemma linkfree_resolved P d : linkfree d -> resolved P d d.
Proof.
  intros L. destruct d as [c|s]; cbn [resolved].
  - assert (G : forall t, In t (refs (DC c)) -> points P t t) by (intros [] Ht; try constructor; destruct (L _ Ht)).
    split; [apply G; left; auto|]. split; [|split; auto 6].
    + assert (H : forall e, In e (ct_elems c) -> points P (el_type e) (el_type e)) by (intros e He; apply G; right; apply in_app_iff; left; apply in_map; auto).
      induction (ct_elems c) as [|e es IH]; constructor; [split; [apply H; left; auto|destruct e; reflexivity]|apply IH; intros; apply H; right; auto].
    + assert (H : forall e, In e (ct_attrs c) -> points P (at_type e) (at_type e)) by (intros e He; apply G; right; apply in_app_iff; right; apply in_map; auto).
      induction (ct_attrs c) as [|e es IH]; constructor; [split; [apply H; left; auto|destruct e; reflexivity]|apply IH; intros; apply H; right; auto].
  - assert (G : forall t, In t (refs (DS s)) -> points P t t) by (intros [] Ht; try constructor; destruct (L _ Ht)).
    split; [apply G; left; auto|]. split; [|destruct s; reflexivity].
    assert (H : forall e, In e (sd_union s) -> points P e e) by (intros e He; apply G; right; auto).
    induction (sd_union s) as [|e es IH]; constructor; [apply H; left; auto|apply IH; intros; apply H; right; auto].
Qed.

(* ---------- how stores develop ---------- *)
Definition later_base (b b' : ty) : Prop := b' = b \/ (exists n, b = TLink n) /\ b' <> TNil.
Definition later_def (d d' : def) : Prop :=
  match d, d' with
  | DC c, DC c' => ct_extends c' = ct_extends c /\ later_base (ct_base c) (ct_base c') /\ (ct_mixed c = true -> ct_mixed c' = true)
  | DS s, DS s' => later_base (sd_base s) (sd_base s')
  | _, _ => False
  end.
Definition later (st st' : store) : Prop := List.length st' = List.length st /\
  forall i d, nth_error st i = Some d -> exists d', nth_error st' i = Some d' /\ later_def d d'.
Lemma later_base_refl b : later_base b b.
Proof. left; auto. Qed.
Lemma later_base_trans a b c : later_base a b -> later_base b c -> later_base a c.
Proof. intros [->|[H N]] [->|[H' N']]; unfold later_base; auto. Qed.
Lemma later_def_trans a b c : later_def a b -> later_def b c -> later_def a c.
Proof.
  destruct a, b, c; cbn [later_def]; auto; try tauto.
  - intros (A & B & C) (A' & B' & C'). split; [congruence|]. split; eauto using later_base_trans.
  - apply later_base_trans.
Qed.
Lemma later_refl st : later st st.
Proof. split; auto. intros i d H. exists d. split; auto. destruct d; cbn [later_def]; auto using later_base_refl. Qed.
Lemma later_trans a b c : later a b -> later b c -> later a c.
Proof.
  intros [L H] [L' H']. split; [congruence|]. intros i d Hd. destruct (H i d Hd) as (d' & Hd' & X). destruct (H' i d' Hd') as (d2 & Hd2 & X').
  exists d2. split; auto. eapply later_def_trans; eauto.
Qed.
Lemma alike_later a b : alike a b -> flags_in a b -> later a b.
Proof.
  intros A F. split; [symmetry; apply alike_length; auto|]. intros i [c|s] H.
  - destruct (alike_dc _ _ _ _ A H) as (c' & H' & Eb & Ee & _). exists (DC c'). split; auto. cbn [later_def]. split; auto. split; [left; auto|].
    intros Hm. destruct (F i) as (c2 & E2 & M2); [exists c; auto|]. congruence.
  - exists (DS s). split; [eapply alike_ds; eauto|]. cbn [later_def]. apply later_base_refl.
Qed.
Lemma resolved_later look d d' : good_look look -> resolve_def look d = Some d' -> later_def d d'.
Proof.
  intros G H. pose proof (resolve_def_spec _ _ _ G H) as [R _].
  assert (P : forall t u, points (fun n u => look n = Some u) t u -> later_base t u).
  { intros t u [n x Hx| | |]; try (left; reflexivity). right. split; eauto. apply G in Hx. tauto. }
  destruct d as [c|s], d' as [c'|s']; cbn [resolved] in R; try tauto; cbn [later_def].
  - destruct R as (B & _ & _ & _ & _ & _ & _ & E). split; auto. split; auto. cbn [resolve_def] in H.
    destruct (resolve_ty look (ct_base c)); [|discriminate]. destruct (mapo _ _); [|discriminate]. destruct (mapo _ _); [|discriminate]. injection H as <-. auto.
  - apply P. tauto.
Qed.

Lemma propagate_alike : forall fuel t st st', propagate fuel t st = Some st' -> alike st st' /\ flags_in st st'.
Proof.
  induction fuel as [|f IH]; intros t st st' H.
  - cbn [propagate] in H. assert (st' = st) as -> by (destruct (base_of st t); congruence). split; [reflexivity|intros i; auto].
  - destruct (ty_dec (base_of st t) TNil) as [E|E].
    + cbn [propagate] in H. rewrite E in H. injection H as <-. split; [reflexivity|intros i; auto].
    + rewrite propagate_step in H by auto. destruct (propagate f _ st) as [st1|] eqn:E1; [|discriminate]. apply IH in E1 as [A F].
      assert (G : alike st1 st' /\ flags_in st1 st').
      { unfold mix in H. destruct t as [| | |i]; try (injection H as <-; split; [reflexivity|intros i; auto]).
        destruct (nth_error st1 i) as [[c|s]|] eqn:Ei; try (injection H as <-; split; [reflexivity|intros k; auto]).
        destruct (ct_mixed c) eqn:Em; [injection H as <-; split; [reflexivity|intros k; auto]|].
        assert (SET : forall v, alike st1 (set_nth i (DC (set_mixed c v)) st1) /\ flags_in st1 (set_nth i (DC (set_mixed c v)) st1)).
        { intros v. split; [apply alike_sym, alike_set; auto|]. intros k Hk. apply is_mixed_set; auto. destruct (Nat.eqb k i) eqn:Ek; auto.
          apply Nat.eqb_eq in Ek as ->. destruct Hk as (c2 & E2 & M2). congruence. }
        assert (KEEP : alike st1 st1 /\ flags_in st1 st1) by (split; [reflexivity|intros k; auto]).
        destruct (base_of st (TPtr i)) as [|b|l|j]; try discriminate.
        - injection H as <-. destruct (b =? 0)%Z; auto.
        - destruct (nth_error st1 j) as [[c2|s2]|]; try discriminate; injection H as <-; auto. destruct (ct_extends c); auto. }
      destruct G as [A' F']. split; [eapply alike_trans; eauto|intros i Hi; auto].
Qed.
Lemma propagate_all_alike es : forall st st', propagate_all es st = Some st' -> alike st st' /\ flags_in st st'.
Proof.
  unfold propagate_all. induction es as [|[n t] es IH]; intros st st' H; cbn [foldo] in H.
  - injection H as <-. split; [reflexivity|intros i; auto].
  - cbn [snd] in H. destruct (propagate max_depth t st) as [st1|] eqn:E; [|discriminate]. apply propagate_alike in E as [A F]. apply IH in H as [A' F'].
    split; [eapply alike_trans; eauto|intros i Hi; auto].
Qed.

(* ---------- aliases ---------- *)
Lemma add_alias_spec g own a own' : add_alias g own a = Some own' ->
  (forall n t, lookup n own = Some t -> lookup n own' = Some t) /\ (forall x, In x own -> In x own') /\
  (forall k t, In (k, t) own' -> In (k, t) own \/ lookup_type g own (snd a) = Some t) /\ (exists t, lookup (fst a) own' = Some t).
Proof.
  unfold add_alias. destruct (lookup (fst a) own) as [u|] eqn:E.
  - intros H. injection H as <-. split; auto. split; auto. split; auto. eauto.
  - destruct (lookup_type g own (snd a)) as [t|] eqn:L; [|discriminate]. intros H. injection H as <-. split; [|split; [|split]].
    + intros n u Hu. rewrite lookup_mset. destruct (xname_eqb (fst a) n) eqn:X; auto. apply xname_eqb_eq in X as <-. congruence.
    + intros x Hx. apply in_mset_absent; auto.
    + intros k u Hk. apply in_mset in Hk as [Hk|Hk]; auto. injection Hk as _ ->. auto.
    + exists t. rewrite lookup_mset, (proj2 (xname_eqb_eq _ _) eq_refl). auto.
Qed.

(* ---------- the loop ---------- *)
Section Loop.
  Variable l : list rd.
  Variable ord : nat -> list (xname * ty) -> list (xname * ty).
  Hypothesis ord_perm : any_order ord.
  Let st0 := fst (initial l).
  Let parsed0 := snd (initial l).
  Let g := index_types st0 (ord 0 (entries l)).

  Lemma entry_ptr n t : In (n, t) (entries l) -> exists i, t = TPtr i /\ i < List.length st0.
  Proof. apply initial_wf. Qed.
  Lemma g_called n t : lookup n g = Some t -> called l n t.
  Proof.
    intros H. apply index_spec in H as ((k & Hk) & Hn). split; auto. exists k. eapply Permutation_in; [apply Permutation_sym, ord_perm|]. exact Hk.
  Qed.
  Lemma g_total n t : called l n t -> lookup n g <> None.
  Proof. intros ((k & Hk) & Hn). eapply index_total; eauto. eapply Permutation_in; [apply ord_perm|]. exact Hk. Qed.

  (* the values of a map: types of some schema, or built-ins *)
  Definition ok_map (own : types) : Prop := forall k t, In (k, t) own -> (exists k', In (k', t) (entries l)) \/ exists b, t = TB b.
  Definition proper (t : ty) : Prop := (exists k', In (k', t) (entries l)) \/ exists b, t = TB b.
  Lemma look_proper own n t : ok_map own -> lookup_type g own n = Some t -> proper t.
  Proof.
    intros O. unfold lookup_type. destruct (parse_builtin n) as [b|]; [intros H; injection H as <-; right; eauto|].
    destruct (lookup n g) as [u|] eqn:E.
    - intros H. injection H as <-. apply g_called in E as [H _]. left. auto.
    - intros H. apply lookup_in in H. apply O in H. auto.
  Qed.
  Lemma look_good own : ok_map own -> good_look (lookup_type g own).
  Proof.
    intros O n t H. apply look_proper in H; auto. destruct H as [(k & Hk)|(b & ->)].
    - apply entry_ptr in Hk as (i & -> & _). split; [intros m|]; discriminate.
    - split; [intros m|]; discriminate.
  Qed.
  Lemma look_target own ns parsed n t : sget ns parsed = Some own -> lookup_type g own n = Some t -> target l parsed n t.
  Proof.
    intros Hs. unfold lookup_type, target. destruct (parse_builtin n) as [b|]; [intros H; injection H as <-; auto|].
    destruct (lookup n g) as [u|] eqn:E.
    - intros H. injection H as <-. left. apply g_called. auto.
    - intros H. right. split; [intros u Hu; apply (g_total _ _ Hu); auto|]. exists ns, own. auto.
  Qed.
  Lemma look_none own n : lookup_type g own n = None -> parse_builtin n = None /\ (forall u, ~ called l n u) /\ lookup n own = None.
  Proof.
    unfold lookup_type. destruct (parse_builtin n) as [b|]; [discriminate|]. destruct (lookup n g) as [u|] eqn:E; [discriminate|].
    intros H. split; auto. split; auto. intros u Hu. apply (g_total _ _ Hu); auto.
  Qed.

  Definition grows (p p' : list (string * types)) : Prop :=
    forall ns own, sget ns p = Some own -> exists own', sget ns p' = Some own' /\ (forall n t, lookup n own = Some t -> lookup n own' = Some t) /\ (forall x, In x own -> In x own').
  Lemma grows_refl p : grows p p.
  Proof. intros ns own H. exists own. auto. Qed.
  Lemma grows_trans a b c : grows a b -> grows b c -> grows a c.
  Proof.
    intros H H' ns own E. destruct (H ns own E) as (o' & E' & A & B). destruct (H' ns o' E') as (o2 & E2 & A2 & B2). exists o2. split; auto.
  Qed.
  Lemma target_grows p p' n t : grows p p' -> target l p n t -> target l p' n t.
  Proof.
    intros G. unfold target. destruct (parse_builtin n); auto. intros [H|(H & ns & own & Hs & Hl)]; auto. right. split; auto.
    destruct (G ns own Hs) as (own' & Hs' & Hl' & _). exists ns, own'. auto.
  Qed.

  Record inv (st : store) (parsed : list (string * types)) : Prop := {
    inv_len : List.length st = List.length st0;
    inv_def : forall i d0, nth_error st0 i = Some d0 -> exists d, nth_error st i = Some d /\
                (strip d = strip d0 \/ resolved (target l parsed) d0 d /\ linkfree d);
    inv_grow : grows parsed0 parsed;
    inv_keys : forall ns own, sget ns parsed = Some own -> sget ns parsed0 <> None;
    inv_maps : forall ns own, sget ns parsed = Some own -> ok_map own;
    inv_later : later st0 st }.

  Definition done (st : store) (parsed : list (string * types)) (i : nat) : Prop :=
    exists d0 d, nth_error st0 i = Some d0 /\ nth_error st i = Some d /\ resolved (target l parsed) d0 d /\ linkfree d.

  Lemma initial_inv : inv st0 parsed0.
  Proof.
    constructor; auto.
    - intros i d0 H. exists d0. auto.
    - apply grows_refl.
    - intros ns own H. congruence.
    - intros ns own H k t Hk. left. exists k. unfold entries. apply in_flat_map. exists (ns, own). split; auto. apply sget_in. auto.
    - apply later_refl.
  Qed.

  Lemma aliases_spec own als own' : ok_map own -> foldo (add_alias g) own als = Some own' ->
    ok_map own' /\ (forall n t, lookup n own = Some t -> lookup n own' = Some t) /\ (forall x, In x own -> In x own').
  Proof.
    revert own. induction als as [|a als IH]; intros own O H; cbn [foldo] in H; [injection H as <-; auto|].
    destruct (add_alias g own a) as [o1|] eqn:E; [|discriminate]. apply add_alias_spec in E as (A & B & C & _).
    apply IH in H as (O' & A' & B'); [split; auto|]. intros k t Hk. destruct (C k t Hk) as [Hk'|Hk']; [apply (O k t); auto|]. eapply look_proper; eauto.
  Qed.

  Lemma step k r st parsed st' parsed' : inv st parsed -> finish_one g (ord k) r (st, parsed) = Ok (st', parsed') ->
    inv st' parsed' /\ later st st' /\ grows parsed parsed' /\
    (forall own0 n i, sget (rd_tns r) parsed0 = Some own0 -> In (n, TPtr i) own0 -> done st' parsed' i) /\
    (forall i, done st parsed i -> done st' parsed' i) /\
    exists st1 own', alike st1 st' /\ later st st1 /\ propagate_all (ord k own') st1 = Some st' /\ sget (rd_tns r) parsed' = Some own'.
  Proof.
    intros I H. cbn [finish_one] in H. destruct (sget (rd_tns r) parsed) as [own|] eqn:Eo; [|discriminate].
    destruct (resolve_types (lookup_type g own) (ord k own) st) as [st1|] eqn:E1; [|discriminate].
    destruct (foldo (add_alias g) own (rd_aliases r)) as [own'|] eqn:E2; [|discriminate].
    destruct (propagate_all (ord k own') st1) as [st2|] eqn:E3; [|discriminate]. injection H as <- <-.
    pose proof (inv_maps _ _ I _ _ Eo) as O. pose proof (look_good own O) as GL.
    apply (resolve_types_spec _ GL) in E1 as [L1 R1]. apply aliases_spec in E2 as (O' & A' & B'); auto.
    pose proof (propagate_all_alike _ _ _ E3) as [AL FL].
    set (parsed' := sset (rd_tns r) own' parsed).
    assert (Gr : grows parsed parsed').
    { intros ns o Hs. unfold parsed'. rewrite sget_sset. destruct (String.eqb (rd_tns r) ns) eqn:X; [|exists o; auto].
      apply String.eqb_eq in X as <-. rewrite Eo in Hs. injection Hs as <-. exists own'. auto. }
    assert (L01 : later st st1).
    { split; auto. intros i d Hd. destruct (R1 i d Hd) as (d' & Hd' & X & Y). exists d'. split; auto.
      destruct (Exists_dec (fun e : xname * ty => snd e = TPtr i) (ord k own) (fun e => ty_dec (snd e) (TPtr i))) as [Ex|Ne].
      - apply Exists_exists in Ex as ([m u] & Hm & Hu). cbn in Hu. subst u. eapply resolved_later; eauto.
      - rewrite (Y ltac:(intros m Hm; apply Ne; apply Exists_exists; exists (m, TPtr i); auto)). destruct d; cbn [later_def]; auto using later_base_refl. }
    assert (L12 : later st st2) by (eapply later_trans; [exact L01|apply alike_later; auto]).
    assert (DEF : forall i d0, nth_error st0 i = Some d0 -> exists d, nth_error st2 i = Some d /\
      ((exists n, In (n, TPtr i) own) -> resolved (target l parsed') d0 d /\ linkfree d) /\
      (strip d = strip d0 \/ resolved (target l parsed') d0 d /\ linkfree d)).
    { intros i d0 H0. destruct (inv_def _ _ I i d0 H0) as (d & Hd & C). destruct (R1 i d Hd) as (d1 & Hd1 & X & Y).
      assert (exists d2, nth_error st2 i = Some d2 /\ strip d2 = strip d1) as (d2 & Hd2 & S2).
      { pose proof (alike_nth _ _ i AL) as E. rewrite Hd1 in E. destruct (nth_error st2 i) as [d2|]; [|discriminate]. exists d2. split; auto. cbn [option_map] in E. congruence. }
      exists d2. split; auto.
      assert (Z : (exists n, In (n, TPtr i) own) -> resolved (target l parsed') d0 d2 /\ linkfree d2).
      { intros (n & Hn). assert (Hr : resolve_def (lookup_type g own) d = Some d1) by (apply X; exists n; eapply Permutation_in; [apply ord_perm|auto]).
        destruct C as [C|[C1 C2]].
        - pose proof (resolve_def_spec _ _ _ GL Hr) as [R L]. split.
          + eapply resolved_impl; [|eapply resolved_strip; [exact C|exact (eq_sym S2)|exact R]]. intros m t Ht. cbv beta in Ht.
            eapply target_grows; [exact Gr|]. eapply look_target; eauto.
          + eapply linkfree_strip; [exact (eq_sym S2)|auto].
        - rewrite (resolve_def_linkfree _ _ C2) in Hr. injection Hr as <-. split.
          + eapply resolved_impl; [|eapply resolved_strip; [reflexivity|exact (eq_sym S2)|exact C1]]. intros m t. apply target_grows; auto.
          + eapply linkfree_strip; [exact (eq_sym S2)|auto]. }
      split; auto.
      destruct (Exists_dec (fun e : xname * ty => snd e = TPtr i) own (fun e => ty_dec (snd e) (TPtr i))) as [Ex|Ne].
      - apply Exists_exists in Ex as ([m u] & Hm & Hu). cbn in Hu. subst u. right. apply Z. eauto.
      - rewrite (Y ltac:(intros m Hm; apply Ne; apply Exists_exists; exists (m, TPtr i); split; auto; eapply Permutation_in; [apply Permutation_sym, ord_perm|exact Hm])) in S2.
        destruct C as [C|[C1 C2]]; [left; congruence|]. right. split.
        + eapply resolved_impl; [|eapply resolved_strip; [reflexivity|exact (eq_sym S2)|exact C1]]. intros m t. apply target_grows; auto.
        + eapply linkfree_strip; [exact (eq_sym S2)|auto]. }
    assert (I' : inv st2 parsed').
    { constructor.
      - rewrite (proj1 L12). apply (inv_len _ _ I).
      - intros i d0 H0. destruct (DEF i d0 H0) as (d & Hd & _ & C). eauto.
      - eapply grows_trans; [apply (inv_grow _ _ I)|exact Gr].
      - intros ns o Hs. unfold parsed' in Hs. rewrite sget_sset in Hs. destruct (String.eqb (rd_tns r) ns) eqn:X; [|eapply (inv_keys _ _ I); eauto].
        apply String.eqb_eq in X as <-. eapply (inv_keys _ _ I); eauto.
      - intros ns o Hs. unfold parsed' in Hs. rewrite sget_sset in Hs. destruct (String.eqb (rd_tns r) ns) eqn:X; [|eapply (inv_maps _ _ I); eauto]. injection Hs as <-. auto.
      - eapply later_trans; [apply (inv_later _ _ I)|auto]. }
    split; auto. split; auto. split; auto. split; [|split].
    - intros own0 n i Hs Hn. destruct (inv_grow _ _ I _ _ Hs) as (o & Ho & _ & Hin). rewrite Eo in Ho. injection Ho as <-.
      assert (He : In (n, TPtr i) (entries l)) by (unfold entries; apply in_flat_map; exists (rd_tns r, own0); split; [apply sget_in|]; auto).
      apply entry_ptr in He as (j & Ej & Hlt). injection Ej as <-.
      destruct (nth_error st0 i) as [d0|] eqn:E0; [|apply nth_error_None in E0; lia]. destruct (DEF i d0 E0) as (d & Hd & Z & _).
      exists d0, d. split; auto. split; auto. apply Z. eauto.
    - intros i (d0 & d & H0 & Hd & R & L). destruct (DEF i d0 H0) as (d2 & Hd2 & Z & C). exists d0, d2. split; auto. split; auto.
      (* d is link-free, so nothing changes but Mixed *)
      destruct (R1 i d Hd) as (d1 & Hd1 & X & Y).
      assert (d1 = d) as ->.
      { destruct (Exists_dec (fun e : xname * ty => snd e = TPtr i) (ord k own) (fun e => ty_dec (snd e) (TPtr i))) as [Ex|Ne].
        - apply Exists_exists in Ex as ([m u] & Hm & Hu). cbn in Hu. subst u. specialize (X (ex_intro _ m Hm)). rewrite (resolve_def_linkfree _ _ L) in X. congruence.
        - apply Y. intros m Hm. apply Ne. apply Exists_exists. exists (m, TPtr i). auto. }
      assert (S2 : strip d2 = strip d) by (pose proof (alike_nth _ _ i AL) as E; rewrite Hd1, Hd2 in E; cbn [option_map] in E; congruence).
      split; [|eapply linkfree_strip; [exact (eq_sym S2)|auto]].
      eapply resolved_impl; [|eapply resolved_strip; [reflexivity|exact (eq_sym S2)|exact R]]. intros m t. apply target_grows; auto.
    - exists st1, own'. split; auto. split; auto. split; auto. unfold parsed'. rewrite sget_sset, String.eqb_refl. reflexivity.
  Qed.

  Lemma finish_spec : forall l' k st parsed st' parsed', inv st parsed -> finish g ord k l' (st, parsed) = Ok (st', parsed') ->
    inv st' parsed' /\ later st st' /\ grows parsed parsed' /\
    (forall r own0 n i, In r l' -> sget (rd_tns r) parsed0 = Some own0 -> In (n, TPtr i) own0 -> done st' parsed' i) /\
    (forall i, done st parsed i -> done st' parsed' i).
  Proof.
    induction l' as [|r l' IH]; intros k st parsed st' parsed' I H; cbn [finish] in H.
    - injection H as <- <-. split; auto. split; [apply later_refl|]. split; [apply grows_refl|]. split; auto. intros r own0 n i [].
    - destruct (finish_one g (ord k) r (st, parsed)) as [[st1 p1]| |] eqn:E; try discriminate.
      apply step in E as (I1 & L1 & G1 & D1 & K1 & _); auto. apply IH in H as (I2 & L2 & G2 & D2 & K2); auto.
      split; auto. split; [eapply later_trans; eauto|]. split; [eapply grows_trans; eauto|]. split; auto.
      intros r' own0 n i [->|Hr] Hs Hn; eauto.
  Qed.
End Loop.
