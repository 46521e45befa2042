From Verif Require Import Base GraphModel GraphSpec.
From Coq Require Import Sorted.
Local Open Scope Z_scope.

(* strictly increasing *)
Notation ssorted := (StronglySorted Z.lt).

Lemma ssorted_nth l : ssorted l ->
  forall i j, (i < j < List.length l)%nat -> nth i l 0 < nth j l 0.
Proof.
  induction 1 as [|a l Hs IH Hf]; cbn; intros i j Hij; [lia|].
  rewrite Forall_forall in Hf.
  destruct i, j; try lia.
  - apply Hf. apply nth_In. lia.
  - apply IH. lia.
Qed.

Lemma search_loop_spec f : forall fuel i j,
  (j - i < fuel)%nat -> (i <= j)%nat ->
  (forall a b, (i <= a <= b)%nat -> (b < j)%nat -> f a = true -> f b = true) ->
  let r := search_loop fuel i j f in
  (i <= r <= j)%nat /\
  (forall k, (i <= k < r)%nat -> f k = false) /\
  (forall k, (r <= k < j)%nat -> f k = true).
Proof.
  induction fuel as [|fuel IH]; cbn [search_loop]; intros i j Hfu Hij Hm; [lia|].
  destruct (i <? j)%nat eqn:E.
  - apply Nat.ltb_lt in E. set (h := Nat.div2 (i + j)).
    assert (Hh : (i <= h < j)%nat).
    { unfold h. rewrite Nat.div2_div. split; [apply Nat.div_le_lower_bound|apply Nat.div_lt_upper_bound]; lia. }
    clearbody h. destruct (f h) eqn:Ef; cbn [negb].
    + destruct (IH i h) as (H1 & H2 & H3); try lia.
      { intros a b Ha Hb. apply Hm; lia. }
      split; [lia|]. split; [intros; apply H2; lia|].
      intros k Hk. destruct (Nat.lt_ge_cases k h); [apply H3; lia|].
      apply (Hm h k); try lia; auto.
    + destruct (IH (S h) j) as (H1 & H2 & H3); try lia.
      { intros a b Ha Hb. apply Hm; lia. }
      split; [lia|]. split; [|intros; apply H3; lia].
      intros k Hk. destruct (Nat.lt_ge_cases h k); [apply H2; lia|].
      destruct (f k) eqn:Ek; auto. exfalso. assert (f h = true) by (apply (Hm k h); try lia; auto). congruence.
  - apply Nat.ltb_ge in E. repeat split; try lia; intros; lia.
Qed.

Lemma search_ints_spec a x : ssorted a ->
  let r := search_ints a x in
  (r <= List.length a)%nat /\
  (forall k, (k < r)%nat -> nth k a 0 < x) /\
  (forall k, (r <= k < List.length a)%nat -> x <= nth k a 0).
Proof.
  intros Hs. unfold search_ints.
  destruct (search_loop_spec (fun i => nth i a 0 >=? x) (S (List.length a)) 0 (List.length a))
    as (H1 & H2 & H3); try lia.
  { intros p q Hp Hq H. destruct (Nat.eq_dec p q) as [->|]; auto.
    pose proof (ssorted_nth a Hs p q). lia. }
  split; [lia|]. split; intros k Hk.
  - specialize (H2 k). cbv beta in H2. lia.
  - specialize (H3 k Hk). cbv beta in H3. lia.
Qed.

Lemma ssorted_app l1 l2 : ssorted l1 -> ssorted l2 ->
  (forall x y, In x l1 -> In y l2 -> x < y) -> ssorted (l1 ++ l2).
Proof.
  induction l1 as [|a l1 IH]; cbn; auto. intros H1 H2 H.
  inversion H1 as [|? ? Hs Hf]; subst. constructor.
  - apply IH; auto.
  - rewrite Forall_forall in *. intros x Hx. apply in_app_iff in Hx as [Hx|Hx]; auto.
Qed.

Lemma ssorted_firstn_skipn l i : ssorted l -> ssorted (firstn i l) /\ ssorted (skipn i l).
Proof.
  revert i; induction l as [|a l IH]; intros i Hs; destruct i; cbn; split; auto; try constructor;
  inversion Hs as [|? ? Hs' Hf]; subst; try apply IH; auto.
  rewrite Forall_forall in *. intros x Hx. apply Hf. revert Hx.
  rewrite <- (firstn_skipn i l) at 2. rewrite in_app_iff; auto.
Qed.

Lemma in_firstn_nth (l : list Z) i x : In x (firstn i l) ->
  exists k, (k < i)%nat /\ (k < List.length l)%nat /\ nth k l 0 = x.
Proof.
  revert i; induction l as [|a l IH]; intros [|i]; cbn; try tauto.
  intros [<-|H]; [exists 0%nat; repeat split; lia|].
  destruct (IH i H) as (k & H1 & H2 & H3). exists (S k). repeat split; lia || auto.
Qed.

Lemma in_skipn_nth (l : list Z) i x : In x (skipn i l) ->
  exists k, (i <= k < List.length l)%nat /\ nth k l 0 = x.
Proof.
  revert i; induction l as [|a l IH]; intros [|i]; cbn; try tauto.
  - intros [<-|H]; [exists 0%nat; repeat split; lia|].
    destruct (IH 0%nat H) as (k & H1 & H2). exists (S k). repeat split; lia || auto.
  - intros H. destruct (IH i H) as (k & H1 & H2). exists (S k). repeat split; lia || auto.
Qed.

Lemma ssorted_NoDup l : ssorted l -> NoDup l.
Proof.
  induction 1 as [|a l Hs IH Hf]; constructor; auto.
  intros H. rewrite Forall_forall in Hf. apply Hf in H. lia.
Qed.

Lemma insert_unique_spec set x : ssorted set ->
  ssorted (insert_unique set x) /\ (forall y, In y (insert_unique set x) <-> y = x \/ In y set).
Proof.
  intros Hs. unfold insert_unique.
  destruct (search_ints_spec set x Hs) as (H1 & H2 & H3).
  set (i := search_ints set x) in *.
  destruct ((List.length set <=? i)%nat || negb (nth i set 0 =? x)) eqn:E.
  - assert (Hgt : forall k, (i <= k < List.length set)%nat -> x < nth k set 0).
    { intros k Hk. apply orb_true_iff in E as [E|E]; [lia|].
      assert (x <= nth i set 0) by (apply H3; lia).
      assert (nth i set 0 <> x) by lia.
      destruct (Nat.eq_dec i k) as [<-|]; [lia|].
      pose proof (ssorted_nth set Hs i k). lia. }
    destruct (ssorted_firstn_skipn set i Hs) as [Hf Hk].
    split.
    + apply ssorted_app; auto.
      * constructor; auto. rewrite Forall_forall. intros y Hy.
        apply in_skipn_nth in Hy as (k & Hk' & <-). apply Hgt; auto.
      * intros a b Ha Hb. apply in_firstn_nth in Ha as (k & Hk1 & Hk2 & <-).
        assert (nth k set 0 < x) by (apply H2; auto).
        destruct Hb as [<-|Hb]; auto.
        apply in_skipn_nth in Hb as (k' & Hk' & <-). assert (x < nth k' set 0) by (apply Hgt; auto). lia.
    + intros y. rewrite in_app_iff. cbn.
      assert (Hy : In y set <-> In y (firstn i set) \/ In y (skipn i set))
        by (rewrite <- in_app_iff, firstn_skipn; tauto).
      rewrite Hy. intuition.
  - apply orb_false_iff in E as [E1 E2]. split; auto.
    assert (nth i set 0 = x) by lia.
    intros y; split; auto. intros [->|]; auto. rewrite <- H. apply nth_In. lia.
Qed.

(* two strictly sorted lists with the same elements are equal *)
Lemma ssorted_ext l1 l2 : ssorted l1 -> ssorted l2 ->
  (forall x, In x l1 <-> In x l2) -> l1 = l2.
Proof.
  intros H1; revert l2; induction H1 as [|a l1 Hs1 IH Hf1]; intros l2 H2 Hx.
  - destruct l2 as [|b l2]; auto. exfalso. apply (Hx b); cbn; auto.
  - destruct l2 as [|b l2]; [exfalso; apply (Hx a); cbn; auto|].
    inversion H2 as [|? ? Hs2 Hf2]; subst. rewrite Forall_forall in *.
    assert (a = b).
    { destruct (proj1 (Hx a)) as [?|Ha]; cbn; auto.
      destruct (proj2 (Hx b)) as [?|Hb]; cbn; auto.
      apply Hf2 in Ha. apply Hf1 in Hb. lia. }
    subst b. f_equal. apply IH; auto.
    intros x. specialize (Hx x). cbn in Hx. split; intros Hin.
    + destruct (proj1 Hx) as [?|]; auto. subst x. apply Hf1 in Hin. lia.
    + destruct (proj2 Hx) as [?|]; auto. subst x. apply Hf2 in Hin. lia.
Qed.

Lemma node_get_set m k v k' :
  node_get (node_set m k v) k' = if k' =? k then v else node_get m k'.
Proof.
  induction m as [|[a b] m IH]; cbn; auto.
  destruct (k =? a) eqn:E; cbn.
  - assert (k = a) by lia; subst a. destruct (k' =? k) eqn:E'; auto.
  - rewrite IH. destruct (k' =? a) eqn:E2, (k' =? k) eqn:E3; auto. lia.
Qed.

(* invariant of graphs built by a history of Add calls *)
Record ginv (h : list (Z * Z)) (g : graph) : Prop := mkInv {
  gi_tsorted : ssorted (g_targets g);
  gi_targets : forall t, In t (g_targets g) <-> exists d, edge h t d;
  gi_nsorted : forall t, ssorted (node_get (g_nodes g) t);
  gi_nodes : forall t d, In d (node_get (g_nodes g) t) <-> edge h t d;
}.

Lemma ginv_add h g t d : ginv h g -> ginv (h ++ [(t, d)]) (add g t d).
Proof.
  intros [H1 H2 H3 H4].
  destruct (insert_unique_spec (g_targets g) t H1) as [Ha Hb].
  destruct (insert_unique_spec (node_get (g_nodes g) t) d (H3 t)) as [Hc Hd].
  assert (He : forall a b, edge (h ++ [(t, d)]) a b <-> edge h a b \/ (a = t /\ b = d)).
  { intros a b. unfold edge. rewrite in_app_iff. cbn. split.
    - intros [?|[[= <- <-]|[]]]; auto.
    - intros [?|[-> ->]]; auto. }
  constructor; cbn [add g_targets g_nodes].
  - auto.
  - intros x. rewrite Hb, H2. split.
    + intros [->|[y Hy]]; [exists d | exists y]; apply He; auto.
    + intros [y Hy]. apply He in Hy as [Hy|[-> ->]]; eauto.
  - intros x. rewrite node_get_set. destruct (x =? t) eqn:E; auto.
  - intros x y. rewrite node_get_set, He. destruct (x =? t) eqn:E.
    + assert (x = t) by lia; subst x. rewrite Hd, H4. intuition.
    + rewrite H4. intuition. lia.
Qed.

Lemma ginv_build h : ginv h (build h).
Proof.
  unfold build.
  assert (G : forall h2 h1 g, ginv h1 g ->
    ginv (h1 ++ h2) (fold_left (fun g e => add g (fst e) (snd e)) h2 g)).
  { induction h2 as [|[t d] h2 IH]; intros h1 g Hg; cbn.
    - rewrite app_nil_r; auto.
    - change (h1 ++ (t, d) :: h2) with (h1 ++ [(t, d)] ++ h2). rewrite app_assoc.
      apply IH. apply ginv_add; auto. }
  apply (G h [] empty_graph). constructor; cbn; try constructor.
  - intros [].
  - intros [d []].
  - intros [].
  - intros [].
Qed.

Lemma memZ_in x l : memZ x l = true <-> In x l.
Proof.
  unfold memZ. rewrite existsb_exists. split.
  - intros (y & Hy & E). apply Z.eqb_eq in E; subst; auto.
  - intros H. exists x. split; auto. apply Z.eqb_refl.
Qed.

Lemma memZ_nin x l : memZ x l = false <-> ~ In x l.
Proof. rewrite <- memZ_in. destruct (memZ x l); split; congruence. Qed.

(* ---- what one run does ---- *)
Lemma NoDup_app_intro {A} (l1 l2 : list A) :
  NoDup l1 -> NoDup l2 -> (forall x, In x l1 -> ~ In x l2) -> NoDup (l1 ++ l2).
Proof.
  induction l1 as [|a l1 IH]; cbn; auto. intros H1 H2 H.
  inversion H1; subst. constructor; auto.
  rewrite in_app_iff. intros [?|?]; auto. apply (H a); auto.
Qed.

Lemma flat_vis nodes : forall fuel ts vis vis' tr,
  flat fuel nodes ts vis = Some (vis', tr) ->
  (forall x, In x vis' <-> In x vis \/ In x tr) /\
  (forall x, In x ts -> In x vis') /\
  NoDup tr /\ (forall x, In x tr -> ~ In x vis).
Proof.
  induction fuel as [|fuel IH]; cbn; [discriminate|].
  intros [|t rest] vis vis' tr H.
  - injection H as <- <-. repeat split; cbn; try tauto; constructor.
  - destruct (memZ t vis) eqn:Em; cbn in H.
    + apply memZ_in in Em. destruct (IH _ _ _ _ H) as (A & B & C & D).
      repeat split; auto; try apply A. intros x [<-|Hx]; auto. apply A; auto.
    + apply memZ_nin in Em.
      destruct (flat fuel nodes (node_get nodes t) (t :: vis)) as [[v1 tr1]|] eqn:E1; [|discriminate].
      destruct (flat fuel nodes rest v1) as [[v2 tr2]|] eqn:E2; [|discriminate].
      injection H as <- <-.
      destruct (IH _ _ _ _ E1) as (A1 & B1 & C1 & D1).
      destruct (IH _ _ _ _ E2) as (A2 & B2 & C2 & D2).
      repeat split.
      * rewrite A2, A1, in_app_iff. cbn. intuition.
      * rewrite A2, A1, in_app_iff. cbn. intuition.
      * intros x [<-|Hx]; auto. apply A2. left. apply A1. cbn; auto.
      * apply NoDup_app_intro; auto.
        -- constructor; auto. intros Hx. apply D2 in Hx. apply Hx. apply A1. cbn; auto.
        -- intros x Hx [<-|Hx2].
           ++ apply D1 in Hx. cbn in Hx; tauto.
           ++ apply D2 in Hx2. apply Hx2. apply A1; auto.
      * intros x Hx Hv. apply in_app_iff in Hx as [Hx|[<-|Hx]]; auto.
        -- apply D1 in Hx. cbn in Hx; tauto.
        -- apply D2 in Hx. apply Hx. apply A1. cbn; auto.
Qed.

(* fuel: u = number of unvisited vertices of a finite universe closed under edges *)
Definition unvisited (U vis : list Z) : nat := List.length (filter (fun x => negb (memZ x vis)) U).

Lemma unvisited_mono U v1 v2 : (forall x, In x v1 -> In x v2) -> (unvisited U v2 <= unvisited U v1)%nat.
Proof.
  intros H. unfold unvisited. induction U as [|a U IH]; cbn; auto.
  destruct (memZ a v1) eqn:E1, (memZ a v2) eqn:E2; cbn; try lia.
  apply memZ_in in E1. apply memZ_nin in E2. exfalso; auto.
Qed.

Lemma unvisited_step U t vis : In t U -> ~ In t vis -> (unvisited U (t :: vis) < unvisited U vis)%nat.
Proof.
  intros Ht Hv. unfold unvisited. induction U as [|a U IH]; [destruct Ht|].
  assert (Hm : forall U, (List.length (filter (fun x => negb (memZ x (t :: vis))) U) <=
          List.length (filter (fun x => negb (memZ x vis)) U))%nat).
  { intros U'. apply unvisited_mono. cbn; auto. }
  destruct (Z.eq_dec a t) as [->|Hne].
  - cbn [filter]. rewrite (proj2 (memZ_in t (t :: vis))) by (cbn; auto).
    rewrite (proj2 (memZ_nin t vis)) by auto. cbn [negb List.length]. specialize (Hm U). lia.
  - destruct Ht as [?|Ht]; [congruence|]. specialize (IH Ht). cbn [filter].
    destruct (memZ a vis) eqn:E.
    + apply memZ_in in E. rewrite (proj2 (memZ_in a (t :: vis))) by (cbn; auto). cbn [negb List.length]; auto.
    + apply memZ_nin in E.
      rewrite (proj2 (memZ_nin a (t :: vis))) by (cbn; intuition). cbn [negb List.length]; lia.
Qed.

Lemma flat_total nodes U K :
  (forall t, (List.length (node_get nodes t) < K)%nat) ->
  (forall t d, In d (node_get nodes t) -> In d U) ->
  forall fuel ts vis,
  (forall t, In t ts -> In t U) ->
  (unvisited U vis * K + List.length ts < fuel)%nat ->
  exists r, flat fuel nodes ts vis = Some r.
Proof.
  intros HK HU. induction fuel as [|fuel IH]; intros ts vis Hts Hf; [lia|].
  destruct ts as [|t rest]; cbn; [eauto|].
  destruct (memZ t vis) eqn:E; cbn.
  - apply IH; [cbn in *; auto|]. cbn in Hf. lia.
  - apply memZ_nin in E.
    pose proof (unvisited_step U t vis (Hts t (or_introl eq_refl)) E) as Hu.
    destruct (IH (node_get nodes t) (t :: vis)) as [[v1 tr1] E1].
    { intros d Hd. eapply HU; eauto. }
    { specialize (HK t). cbn in Hf. nia. }
    rewrite E1. destruct (flat_vis _ _ _ _ _ _ E1) as (A & _).
    destruct (IH rest v1) as [[v2 tr2] E2].
    { intros d Hd. apply Hts; cbn; auto. }
    { pose proof (unvisited_mono U vis v1) as Hm. cbn in Hf.
      assert (unvisited U v1 <= unvisited U vis)%nat by (apply Hm; intros x Hx; apply A; cbn; auto). nia. }
    rewrite E2. eauto.
Qed.

Lemma flat_fuel_mono nodes : forall fuel fuel' ts vis r,
  flat fuel nodes ts vis = Some r -> (fuel <= fuel')%nat -> flat fuel' nodes ts vis = Some r.
Proof.
  induction fuel as [|fuel IH]; cbn; [discriminate|].
  intros [|fuel'] ts vis r H Hle; [lia|]. cbn. destruct ts as [|t rest]; auto.
  destruct (memZ t vis); cbn in *.
  - apply IH; auto; lia.
  - destruct (flat fuel nodes (node_get nodes t) (t :: vis)) as [[v1 tr1]|] eqn:E1; [|discriminate].
    rewrite (IH fuel' _ _ _ E1) by lia.
    destruct (flat fuel nodes rest v1) as [[v2 tr2]|] eqn:E2; [|discriminate].
    rewrite (IH fuel' _ _ _ E2) by lia. auto.
Qed.

Lemma flat_ext n1 n2 : (forall t, node_get n1 t = node_get n2 t) ->
  forall fuel ts vis, flat fuel n1 ts vis = flat fuel n2 ts vis.
Proof.
  intros H. induction fuel as [|fuel IH]; cbn; auto. intros [|t rest] vis; auto.
  destruct (memZ t vis); cbn; auto. rewrite H, IH.
  destruct (flat fuel n2 (node_get n2 t) (t :: vis)) as [[v1 tr1]|]; auto. rewrite IH; auto.
Qed.

Lemma node_get_len m t :
  (List.length (node_get m t) <= List.length (concat (map snd m)))%nat /\
  (forall d, In d (node_get m t) -> In d (concat (map snd m))).
Proof.
  induction m as [|[k v] m [IH1 IH2]]; cbn; [split; auto; intros ? []|].
  destruct (t =? k).
  - rewrite app_length. split; [lia|]. intros d Hd. apply in_or_app; auto.
  - rewrite app_length. split; [lia|]. intros d Hd. apply in_or_app; auto.
Qed.

Lemma flatten_total g : exists vis tr,
  flat (flat_fuel g) (g_nodes g) (g_targets g) [] = Some (vis, tr).
Proof.
  set (U := g_targets g ++ concat (map snd (g_nodes g))).
  assert (HU : List.length U = pred (g_size g)).
  { unfold U, g_size. rewrite app_length. lia. }
  assert (Hun : (unvisited U [] <= pred (g_size g))%nat).
  { rewrite <- HU. unfold unvisited. cbn. clear. induction U; cbn; lia. }
  destruct (flat_total (g_nodes g) U (S (g_size g))) with (fuel := flat_fuel g) (ts := g_targets g) (vis := @nil Z)
    as [[vis tr] E].
  - intros t. destruct (node_get_len (g_nodes g) t). unfold g_size. lia.
  - intros t d Hd. apply in_or_app. right. eapply node_get_len; eauto.
  - intros t Ht. apply in_or_app; auto.
  - unfold flat_fuel. assert (List.length (g_targets g) < g_size g)%nat by (unfold g_size; lia). nia.
  - eauto.
Qed.

(* ---- order ---- *)
Lemma before_app_l {A} (a b : A) l1 l2 : before a b l1 -> before a b (l1 ++ l2).
Proof.
  intros (x & y & z & ->). exists x, y, (z ++ l2). rewrite <- !app_assoc. cbn. rewrite <- app_assoc; auto.
Qed.
Lemma before_app_r {A} (a b : A) l1 l2 : before a b l2 -> before a b (l1 ++ l2).
Proof.
  intros (x & y & z & ->). exists (l1 ++ x), y, z. rewrite <- app_assoc; auto.
Qed.
Lemma before_mid {A} (a b : A) l1 l2 : In a l1 -> before a b (l1 ++ b :: l2).
Proof.
  intros H. apply in_split in H as (x & y & ->). exists x, y, l2. rewrite <- app_assoc; auto.
Qed.

Lemma reach_trans h a b c : reach h a b -> reach h b c -> reach h a c.
Proof. induction 1; intros Hbc; eapply reach_step; eauto. Qed.

Section Order.
  Variables (h : list (Z * Z)) (nodes : list (Z * list Z)).
  Hypothesis Hn : forall t d, In d (node_get nodes t) <-> edge h t d.

  (* E = already emitted, Gr = on the stack; every vertex on the stack reaches every target *)
  Lemma flat_order : forall fuel ts vis vis' tr E Gr,
    flat fuel nodes ts vis = Some (vis', tr) ->
    (forall x, In x vis -> In x E \/ In x Gr) ->
    (forall g x, In g Gr -> In x ts -> reach h g x) ->
    (forall t, In t tr -> exists r, In r ts /\ (r = t \/ reach h r t)) /\
    (forall t d, In t tr -> edge h t d ->
       In d E \/ before d t tr \/ reach h d t).
  Proof.
    induction fuel as [|fuel IH]; cbn; [discriminate|].
    intros [|t rest] vis vis' tr E Gr H Hvis HG.
    - injection H as <- <-. split; intros ? []; intros [].
    - destruct (memZ t vis) eqn:Em; cbn in H.
      + destruct (IH _ _ _ _ E Gr H Hvis) as [A B].
        { intros; apply HG; cbn; auto. }
        split; auto. intros x Hx. destruct (A x Hx) as (r & Hr & Hr'). exists r; cbn; auto.
      + destruct (flat fuel nodes (node_get nodes t) (t :: vis)) as [[v1 tr1]|] eqn:E1; [|discriminate].
        destruct (flat fuel nodes rest v1) as [[v2 tr2]|] eqn:E2; [|discriminate].
        injection H as <- <-.
        destruct (flat_vis _ _ _ _ _ _ E1) as (V1 & W1 & _).
        destruct (IH _ _ _ _ E (t :: Gr) E1) as [A1 B1].
        { intros x [<-|Hx]; cbn; auto. apply Hvis in Hx; tauto. }
        { intros g x [<-|Hg] Hx.
          - apply reach_edge. apply Hn; auto.
          - eapply reach_trans; [apply HG; cbn; eauto|]. apply reach_edge, Hn; auto. }
        destruct (IH _ _ _ _ (E ++ tr1 ++ [t]) Gr E2) as [A2 B2].
        { intros x Hx. apply V1 in Hx. rewrite !in_app_iff. cbn.
          destruct Hx as [[<-|Hx]|Hx]; auto. apply Hvis in Hx; tauto. }
        { intros; apply HG; cbn; auto. }
        split.
        * intros x Hx. apply in_app_iff in Hx as [Hx|[<-|Hx]].
          -- destruct (A1 x Hx) as (r & Hr & Hr'). exists t. split; cbn; auto. right.
             apply Hn in Hr. destruct Hr' as [<-|Hr']; [apply reach_edge|eapply reach_step]; eauto.
          -- exists t; cbn; auto.
          -- destruct (A2 x Hx) as (r & Hr & Hr'). exists r; cbn; auto.
        * intros x d Hx Hd. apply in_app_iff in Hx as [Hx|[<-|Hx]].
          -- destruct (B1 x d Hx Hd) as [?|[?|?]]; auto. right; left. apply before_app_l; auto.
          -- apply Hn in Hd as Hd'. apply W1 in Hd'. apply V1 in Hd' as [[<-|Hv]|Ht].
             ++ right; right. apply reach_edge; auto.
             ++ apply Hvis in Hv as [?|Hg]; auto. right; right. apply HG; cbn; auto.
             ++ right; left. apply before_mid; auto.
          -- destruct (B2 x d Hx Hd) as [Hin|[Hb|?]]; auto.
             ++ rewrite !in_app_iff in Hin. cbn in Hin.
                apply in_split in Hx as (y & z & ->).
                destruct Hin as [?|[Hin|[<-|[]]]]; auto; right; left.
                ** replace (tr1 ++ t :: y ++ x :: z) with ((tr1 ++ t :: y) ++ x :: z)
                     by (rewrite <- app_assoc; auto). apply before_mid. apply in_or_app; auto.
                ** apply before_app_r. exists [], y, z. auto.
             ++ right; left. apply before_app_r. apply (before_app_r d x [t]). auto.
  Qed.
End Order.

(* ---- summary lemmas used by PropsGraph ---- *)
Lemma flatten_once h : exists tr, flatten (build h) = Some tr /\ NoDup tr /\
  forall v, In v tr <-> vertex h v.
Proof.
  unfold flatten. destruct (flatten_total (build h)) as (vis & tr & E). rewrite E.
  exists tr. destruct (flat_vis _ _ _ _ _ _ E) as (A & B & C & D).
  pose proof (ginv_build h) as [G1 G2 G3 G4].
  destruct (flat_order h (g_nodes (build h)) G4 _ _ _ _ _ [] [] E) as [O1 O2]; [cbn; tauto|cbn; tauto|].
  split; auto. split; auto. intros v. split.
  - intros Hv. destruct (O1 v Hv) as (r & Hr & Hr'). apply G2 in Hr as [d Hd].
    destruct Hr' as [<-|Hr']; [exists d; auto|].
    clear -Hr'. induction Hr' as [a b Hab|a b c Hab Hbc IH]; auto. exists a; auto.
  - intros [w [Hw|Hw]].
    + assert (Hv : In v (g_targets (build h))) by (apply G2; eauto).
      apply B in Hv. apply A in Hv as [[]|]; auto.
    + assert (Hv : In w (g_targets (build h))) by (apply G2; eauto).
      apply B in Hv. apply A in Hv as [[]|Hv]; auto.
      destruct (O2 w v Hv Hw) as [[]|[Hb|Hr]].
      * destruct Hb as (x & y & z & ->). apply in_or_app; cbn; auto.
      * assert (exists e, edge h v e) as [e He] by (destruct Hr; eauto).
        assert (Hv' : In v (g_targets (build h))) by (apply G2; eauto).
        apply B in Hv'. apply A in Hv' as [[]|]; auto.
Qed.

Lemma flatten_topo h tr t d : flatten (build h) = Some tr -> edge h t d ->
  before d t tr \/ reach h d t.
Proof.
  unfold flatten. destruct (flatten_total (build h)) as (vis & tr' & E). rewrite E.
  intros [= ->] Hd.
  destruct (flat_vis _ _ _ _ _ _ E) as (A & B & C & D).
  pose proof (ginv_build h) as [G1 G2 G3 G4].
  destruct (flat_order h (g_nodes (build h)) G4 _ _ _ _ _ [] [] E) as [O1 O2]; [cbn; tauto|cbn; tauto|].
  assert (Ht : In t tr).
  { assert (Hv : In t (g_targets (build h))) by (apply G2; eauto).
    apply B in Hv. apply A in Hv as [[]|]; auto. }
  destruct (O2 t d Ht Hd) as [[]|]; auto.
Qed.

Lemma flatten_det h1 h2 : (forall t d, edge h1 t d <-> edge h2 t d) ->
  flatten (build h1) = flatten (build h2).
Proof.
  intros H. pose proof (ginv_build h1) as [G1 G2 G3 G4]. pose proof (ginv_build h2) as [G1' G2' G3' G4'].
  assert (Et : g_targets (build h1) = g_targets (build h2)).
  { apply ssorted_ext; auto. intros x. rewrite G2, G2'. split; intros [d Hd]; exists d; apply H; auto. }
  assert (En : forall t, node_get (g_nodes (build h1)) t = node_get (g_nodes (build h2)) t).
  { intros t. apply ssorted_ext; auto. intros x. rewrite G4, G4'. auto. }
  unfold flatten.
  destruct (flatten_total (build h1)) as (v1 & t1 & E1). destruct (flatten_total (build h2)) as (v2 & t2 & E2).
  rewrite E1, E2.
  rewrite (flat_ext _ _ En), Et in E1.
  apply (flat_fuel_mono _ _ (flat_fuel (build h1) + flat_fuel (build h2))) in E1; [|lia].
  apply (flat_fuel_mono _ _ (flat_fuel (build h1) + flat_fuel (build h2))) in E2; [|lia].
  congruence.
Qed.

Lemma len_count h l : NoDup l -> (forall t, In t l <-> exists d, edge h t d) ->
  g_len (build h) = List.length l.
Proof.
  intros Hn Hl. pose proof (ginv_build h) as [G1 G2 G3 G4]. unfold g_len.
  apply Permutation_length. apply NoDup_Permutation; auto.
  - apply ssorted_NoDup; auto.
  - intros x. rewrite G2, Hl; tauto.
Qed.

Lemma targets_sets h : Sorted Z.lt (g_targets (build h)) /\
  (forall t, Sorted Z.lt (node_get (g_nodes (build h)) t)).
Proof.
  pose proof (ginv_build h) as [G1 G2 G3 G4]. split; intros; apply StronglySorted_Sorted; auto.
Qed.
