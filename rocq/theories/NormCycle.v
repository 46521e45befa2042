(* Cycles: searching a cyclic memory never ends, so the check for cycles comes too late. *)
From Verif Require TypesProofs.
From Verif Require Import Base GraphModel ScopeModel TreeModel TreeSpec TreeProofs BuiltinModel XsdModel XsdProofs NormModel NormMem NormOps NormPath NormSpec NormUnpack NormUnpackAll NormRefSpec NormIndex NormRefs NormFlatten.
Local Open Scope string_scope.

(* ---------- searching ---------- *)
Lemma mapo_defined {A B} (f : A -> option B) l l' : mapo f l = Some l' -> forall a, In a l -> f a <> None.
Proof.
  revert l'. induction l as [|x l IH]; intros l' E a Ha; [destruct Ha|]. cbn [mapo] in E; destruct (f x) eqn:Ef; try discriminate; destruct (mapo f l) eqn:El; try discriminate. destruct Ha as [<-|Ha]; [congruence|eauto].
Qed.
Lemma mapo_mono {A B} (f g : A -> option B) l l' : (forall a b, In a l -> f a = Some b -> g a = Some b) -> mapo f l = Some l' -> mapo g l = Some l'.
Proof.
  revert l'. induction l as [|x l IH]; intros l' H E; cbn [mapo] in *; auto. destruct (f x) as [b|] eqn:Ef; [|discriminate]. destruct (mapo f l) as [r|] eqn:El; [|discriminate].
  rewrite (H x b (or_introl eq_refl) Ef), (IH r); auto. intros a c Ha. apply H. right. auto.
Qed.
Lemma search_mono h fn : forall f g p l, f <= g -> search_ptr f h fn p = Some l -> search_ptr g h fn p = Some l.
Proof.
  induction f as [|f IH]; intros [|g] p l Hg E; cbn [search_ptr] in *; try discriminate; [lia|]. destruct (load h p) as [x|]; [|discriminate].
  destruct (mapo _ _) as [ls|] eqn:Em; [|discriminate]. rewrite (mapo_mono _ (fun i => search_ptr g h fn (n_arr x, i)) _ _ (fun i b _ => IH g _ b (le_S_n _ _ Hg)) Em). exact E.
Qed.
Lemma search_heap_mono h fn f g p l : f <= g -> search_heap f h fn p = Some l -> search_heap g h fn p = Some l.
Proof.
  unfold search_heap. intros Hg E. destruct (load h p) as [x|]; [|discriminate]. destruct (mapo _ _) as [ls|] eqn:Em; [|discriminate].
  rewrite (mapo_mono _ (fun i => search_ptr g h fn (n_arr x, i)) _ _ (fun i b _ => search_mono h fn f g _ b Hg) Em). exact E.
Qed.
Lemma index_mono h f g : f <= g -> forall roots st st', index_schema f h roots st = Some st' -> index_schema g h roots st = Some st'.
Proof.
  intros Hg. induction roots as [|r roots IH]; intros st st' E; cbn [index_schema] in *; auto. destruct (load h r) as [x|]; [|discriminate]. destruct (search_heap f h _ r) as [ps|] eqn:Es; [|discriminate].
  rewrite (search_heap_mono _ _ _ _ _ _ Hg Es). auto.
Qed.
(* elements that all have a child among them *)
Definition endless (h : heap) (P : ptr -> Prop) : Prop := forall p, P p -> exists x i, load h p = Some x /\ i < n_len x /\ P (n_arr x, i).
Lemma search_endless h fn P : endless h P -> forall f p, P p -> search_ptr f h fn p = None.
Proof.
  intros En. induction f as [|f IH]; intros p Hp; cbn [search_ptr]; auto. destruct (En p Hp) as (x & i & L & Hi & Hq). rewrite L.
  destruct (mapo _ _) as [ls|] eqn:Em; auto. exfalso. apply (mapo_defined _ _ _ Em i); [apply in_seq; lia|]. apply IH. exact Hq.
Qed.
Lemma search_heap_endless h fn P p f : endless h P -> P p -> search_heap f h fn p = None.
Proof.
  intros En Hp. unfold search_heap. destruct (En p Hp) as (x & i & L & Hi & Hq). rewrite L. destruct (mapo _ _) as [ls|] eqn:Em; auto. exfalso. apply (mapo_defined _ _ _ Em i); [apply in_seq; lia|]. eapply search_endless; eauto.
Qed.

(* ---------- ranks ---------- *)
Definition ranked (h : heap) (P : ptr -> Prop) (rk : ptr -> nat) : Prop :=
  forall p, P p -> exists x, load h p = Some x /\ forall i, i < n_len x -> P (n_arr x, i) /\ rk (n_arr x, i) < rk p.
Definition defd {A} (o : option A) : bool := match o with Some _ => true | None => false end.
Definition least (h : heap) (fn : heap -> node -> bool) (fuel : nat) (p : ptr) : nat :=
  match find (fun n => defd (search_ptr n h fn p)) (seq 0 (S fuel)) with Some n => n | None => 0 end.
Lemma find_first (f : nat -> bool) : forall k a n, find f (seq a k) = Some n -> f n = true /\ a <= n < a + k /\ forall m, a <= m < n -> f m = false.
Proof.
  induction k as [|k IH]; intros a n E; cbn [seq find] in E; [discriminate|]. destruct (f a) eqn:Ef.
  - injection E as <-. split; auto. split; [lia|]. intros m Hm. lia.
  - destruct (IH (S a) n E) as (A & B & C). split; auto. split; [lia|]. intros m Hm. destruct (Nat.eq_dec m a) as [->|]; auto. apply C. lia.
Qed.
Lemma least_spec h fn fuel p n : n <= fuel -> search_ptr n h fn p <> None -> least h fn fuel p <= n /\ search_ptr (least h fn fuel p) h fn p <> None.
Proof.
  intros Hn Hs. unfold least. destruct (find _ _) as [k|] eqn:E.
  - apply find_first in E. destruct E as (A & B & C). split; [|destruct (search_ptr k h fn p); [discriminate|discriminate]].
    destruct (Nat.le_gt_cases k n); auto. exfalso. assert (X : defd (search_ptr n h fn p) = false) by (apply C; lia). destruct (search_ptr n h fn p); [discriminate|congruence].
  - exfalso. assert (Hin : In n (seq 0 (S fuel))) by (apply in_seq; lia). pose proof (find_none _ _ E n Hin) as X. cbn beta in X. destruct (search_ptr n h fn p); [discriminate|congruence].
Qed.
Lemma search_ranked h fn fuel root l : search_heap fuel h fn root = Some l ->
  ranked h (fun p => search_ptr (S fuel) h fn p <> None) (least h fn (S fuel)) /\ search_ptr (S fuel) h fn root <> None.
Proof.
  intros E. split.
  - intros p Hp. destruct (least_spec h fn (S fuel) p (S fuel) (le_n _) Hp) as (H1 & H2). revert H1 H2. destruct (least h fn (S fuel) p) as [|n] eqn:El; intros H1 H2; [cbn [search_ptr] in H2; congruence|].
    cbn [search_ptr] in H2. destruct (load h p) as [x|]; [|congruence]. exists x. split; auto. intros i Hi. destruct (mapo _ _) as [ls|] eqn:Em; [|congruence].
    assert (Hin : In i (seq 0 (n_len x))) by (apply in_seq; lia). pose proof (mapo_defined _ _ _ Em i Hin) as Hd. cbn beta in Hd. split.
    + destruct (search_ptr n h fn (n_arr x, i)) as [l'|] eqn:Es; [|congruence]. rewrite (search_mono h fn n (S fuel) _ l' ltac:(lia) Es). discriminate.
    + destruct (least_spec h fn (S fuel) (n_arr x, i) n ltac:(lia) Hd) as (H3 & _). lia.
  - unfold search_heap in E. cbn [search_ptr]. destruct (load h root) as [x|]; [|discriminate]. destruct (mapo _ _) as [ls|]; [discriminate|discriminate].
Qed.
Lemma cyclic_ranked h P rk : ranked h P rk -> forall fuel p vis, P p -> (forall v, In v vis -> rk p < rk v) -> cyclic fuel h p vis <> Some true.
Proof.
  intros Rk. induction fuel as [|f IH]; intros p vis Hp Hv; cbn [cyclic]; [discriminate|]. destruct (Rk p Hp) as (x & L & K). rewrite L.
  assert (Hs : forall i, In i (seq 0 (n_len x)) -> i < n_len x) by (intros i Hi; apply in_seq in Hi; lia).
  induction (seq 0 (n_len x)) as [|i l IHl]; [discriminate|]. destruct (K i (Hs i (or_introl eq_refl))) as (K1 & K2).
  assert (Hp' : forall v, In v (p :: vis) -> rk (n_arr x, i) < rk v) by (intros v [<-|Hin]; [auto|specialize (Hv v Hin); lia]).
  destruct (existsb (ptr_eqb (n_arr x, i)) (p :: vis)) eqn:E.
  - exfalso. apply existsb_exists in E. destruct E as (v & Hin & Ev). specialize (Hp' v Hin). unfold ptr_eqb in Ev. apply andb_prop in Ev. destruct Ev as [Ev1 Ev2]. apply Nat.eqb_eq in Ev1, Ev2. destruct v as [v1 v2]. cbn [fst snd] in Ev1, Ev2. subst v1 v2. lia.
  - specialize (IH (n_arr x, i) (p :: vis) K1 Hp'). destruct (cyclic f h (n_arr x, i) (p :: vis)) as [[|]|]; try congruence. apply IHl. intros j Hj. apply Hs. right. auto.
Qed.

Lemma nth_error_firstn_lt {A} : forall n (l : list A) i, i < n -> nth_error (firstn n l) i = nth_error l i.
Proof. induction n as [|n IH]; intros [|a l] [|i] H; cbn [firstn nth_error]; auto; try lia. apply IH. lia. Qed.
(* ---------- unpacking keeps memory ranked ---------- *)
Lemma ranked_kids h P rk p x c : ranked h P rk -> P p -> load h p = Some x -> In c (kids h x) -> exists q, P q /\ load h q = Some c /\ rk q < rk p.
Proof.
  intros Rk Hp L Hc. destruct (Rk p Hp) as (x' & L' & K). assert (x' = x) by congruence. subst x'. apply In_nth_error in Hc. destruct Hc as (i & Ei).
  assert (Hi : i < n_len x). { unfold kids in Ei. assert (i < List.length (firstn (n_len x) (cells h (n_arr x)))) by (apply nth_error_Some; congruence). rewrite firstn_length in H. lia. }
  exists (n_arr x, i). destruct (K i Hi) as (K1 & K2). split; auto. split; auto. unfold load, kids in *. cbn [fst snd]. rewrite <- Ei. symmetry. apply nth_error_firstn_lt. exact Hi.
Qed.
Lemma Forall_choose {A B} (R : A -> B -> Prop) l : (forall a, In a l -> exists b, R a b) -> exists m, Forall2 R l m.
Proof.
  induction l as [|a l IH]; intros H; [exists []; constructor|]. destruct (H a (or_introl eq_refl)) as (b & Hb). destruct IH as (m & Hm); [intros x Hx; apply H; right; auto|]. exists (b :: m). constructor; auto.
Qed.
Lemma unpack_one_ranked grow h P rk q : ranked h P rk -> P q -> exists P' rk', ranked (unpack_one grow h q) P' rk' /\ forall p, P p -> P' p.
Proof.
  intros Rk Hq. destruct (Rk q Hq) as (el & L & _). unfold unpack_one. rewrite L. set (new := flat_map _ _). unfold alloc. set (A := (new ++ repeat zero_node _)%list). set (H1 := (h ++ [Els A])%list). set (z := with_kids el (List.length h) (List.length new)).
  assert (Src : exists srcs, Forall2 (fun c s => P s /\ load h s = Some c /\ rk s < rk q) new srcs).
  { apply Forall_choose. intros c Hc. unfold new in Hc. apply in_flat_map in Hc. destruct Hc as (k & Hk & Hc). destruct (ranked_kids h P rk q el k Rk Hq L Hk) as (s & S1 & S2 & S3).
    destruct (is_group k); [|destruct Hc as [<-|[]]; exists s; auto]. destruct (ranked_kids h P rk s k c Rk S1 S2 Hc) as (s' & S4 & S5 & S6). exists s'. split; auto. split; auto. lia. }
  destruct Src as (srcs & Src). apply Forall2_paired in Src. destruct Src as (Sl & Src).
  assert (Pb : forall p, P p -> fst p < List.length h) by (intros p Hp; destruct (Rk p Hp) as (x & Lx & _); eapply load_bound; eauto).
  assert (Lq1 : load H1 q = Some el). { unfold load, cells, H1. rewrite nth_error_app1 by (apply Pb; auto). exact L. }
  assert (Keep : forall p x, p <> q -> load h p = Some x -> load (put H1 q z) p = Some x).
  { intros p x Hn Lx. apply (put_elsewhere H1 q el); auto. unfold load, cells, H1. rewrite nth_error_app1 by (eapply load_bound; eauto). exact Lx. }
  assert (EA : nth_error (put H1 q z) (List.length h) = Some (Els A)).
  { rewrite put_other by (pose proof (Pb q Hq); lia). unfold H1. rewrite nth_error_app2, Nat.sub_diag by lia. reflexivity. }
  exists (fun p => P p \/ (fst p = List.length h /\ snd p < List.length new)), (fun p => if Nat.eqb (fst p) (List.length h) then rk (nth (snd p) srcs q) else rk p).
  assert (Old : forall p, P p -> (if Nat.eqb (fst p) (List.length h) then rk (nth (snd p) srcs q) else rk p) = rk p).
  { intros p Hp. specialize (Pb p Hp). destruct (Nat.eqb_spec (fst p) (List.length h)); auto. lia. }
  split; [|auto]. intros p [Hp|(F1 & F2)].
  - destruct (ptr_eq_dec p q) as [->|Hn].
    + exists z. split; [eapply load_put; eauto|]. intros i Hi. cbn [z with_kids n_arr n_len] in *. split; [right; auto|]. cbn [fst snd]. rewrite Nat.eqb_refl, Old by auto.
      destruct (nth_error new i) as [c|] eqn:Ec; [|apply nth_error_None in Ec; lia]. destruct (nth_error srcs i) as [s|] eqn:Es; [|apply nth_error_None in Es; lia]. rewrite (nth_error_nth _ _ _ Es). apply (Src c s). exists i. auto.
    + destruct (Rk p Hp) as (x & Lx & K). exists x. split; auto. intros i Hi. destruct (K i Hi) as (K1 & K2). split; auto. rewrite !Old; auto.
  - destruct (nth_error new (snd p)) as [c|] eqn:Ec; [|apply nth_error_None in Ec; lia]. exists c. split.
    + unfold load, cells. rewrite F1, EA. unfold A. rewrite nth_error_app1; auto.
    + rewrite F1, Nat.eqb_refl. destruct (nth_error srcs (snd p)) as [s|] eqn:Es; [|apply nth_error_None in Es; lia]. rewrite (nth_error_nth _ _ _ Es). destruct (Src c s (ex_intro _ _ (conj Ec Es))) as (S1 & S2 & S3).
      destruct (Rk s S1) as (x & Lx & K). assert (x = c) by congruence. subst x. intros i Hi. destruct (K i Hi) as (K1 & K2). split; auto. rewrite Old; auto.
Qed.
Lemma each_ranked grow : forall ps h P rk, ranked h P rk -> (forall q, In q ps -> P q) -> exists P' rk', ranked (each (unpack_one grow) h ps) P' rk' /\ forall p, P p -> P' p.
Proof.
  induction ps as [|q ps IH]; intros h P rk Rk Hp; cbn [each]; [exists P, rk; auto|]. destruct (unpack_one_ranked grow h P rk q Rk (Hp q (or_introl eq_refl))) as (P1 & rk1 & R1 & I1).
  destruct (IH _ P1 rk1 R1) as (P2 & rk2 & R2 & I2); [intros q' Hq'; apply I1, Hp; right; auto|]. exists P2, rk2. split; auto.
Qed.
Lemma search_found h fn : forall f p l q, search_ptr f h fn p = Some l -> In q l -> search_ptr f h fn q <> None.
Proof.
  induction f as [|f IH]; intros p l q E Hq; cbn [search_ptr] in E; [discriminate|]. pose proof E as E0. change (search_ptr (S f) h fn p = Some l) in E0.
  destruct (load h p) as [x|] eqn:L; [|discriminate]. destruct (mapo _ _) as [ls|] eqn:Em; [|discriminate]. injection E as <-. apply in_app_or in Hq. destruct Hq as [Hq|Hq].
  - destruct (fn h x); [|destruct Hq]. destruct Hq as [<-|[]]. cbn [search_ptr]. rewrite L, Em. discriminate.
  - apply in_concat in Hq. destruct Hq as (l' & Hl & Hq). apply In_nth_error in Hl. destruct Hl as (j & Ej).
    assert (X : exists i, search_ptr f h fn (n_arr x, i) = Some l').
    { clear -Em Ej. revert ls j Em Ej. induction (seq 0 (n_len x)) as [|i s IHs]; intros ls j Em Ej; cbn [mapo] in Em; [injection Em as <-; destruct j; discriminate|].
      destruct (search_ptr f h fn (n_arr x, i)) as [l0|] eqn:E; [|discriminate]. destruct (mapo _ s) as [r|]; [|discriminate]. injection Em as <-. destruct j as [|j]; cbn [nth_error] in Ej; [injection Ej as ->; eauto|]. eapply IHs; eauto. }
    destruct X as (i & Ei). pose proof (IH _ _ _ Ei Hq) as Y. destruct (search_ptr f h fn q) as [lq|] eqn:Eq; [|congruence]. rewrite (search_mono h fn f (S f) q lq ltac:(lia) Eq). discriminate.
Qed.
(* whatever the memory, the check for cycles finds none: unpacking would not have come to an end *)
Lemma unpack_all_never_fails grow fuel : forall roots h, unpack_all grow fuel roots h <> Fails.
Proof.
  induction roots as [|r roots IH]; intros h; cbn [unpack_all]; [discriminate|]. unfold unpack_groups. destruct (search_heap _ _ _ _) as [ps|] eqn:Es; [|discriminate].
  destruct (search_ranked _ _ _ _ _ Es) as (Rk & Hr). destruct (each_ranked grow ps h _ _ Rk) as (P & rk & R & I).
  - intros q Hq. unfold search_heap in Es. destruct (load h r) as [x|] eqn:L; [|discriminate]. destruct (mapo _ _) as [ls|] eqn:Em; [|discriminate]. injection Es as <-. apply in_concat in Hq. destruct Hq as (l' & Hl & Hq). apply In_nth_error in Hl. destruct Hl as (j & Ej).
    assert (X : exists i, search_ptr fuel h (fun h x => existsb is_group (kids h x)) (n_arr x, i) = Some l').
    { clear -Em Ej. revert ls j Em Ej. induction (seq 0 (n_len x)) as [|i s IHs]; intros ls j Em Ej; cbn [mapo] in Em; [injection Em as <-; destruct j; discriminate|].
      destruct (search_ptr fuel h _ (n_arr x, i)) as [l0|] eqn:E; [|discriminate]. destruct (mapo _ s) as [r0|]; [|discriminate]. injection Em as <-. destruct j as [|j]; cbn [nth_error] in Ej; [injection Ej as ->; eauto|]. eapply IHs; eauto. }
    destruct X as (i & Ei). pose proof (search_found _ _ _ _ _ _ Ei Hq) as Y. destruct (search_ptr fuel h _ q) as [lq|] eqn:Eq; [|congruence]. rewrite (search_mono _ _ fuel (S fuel) q lq ltac:(lia) Eq). discriminate.
  - pose proof (cyclic_ranked _ P rk R fuel r [] (I r Hr)) as C. specialize (C (fun v F => match F with end)). destruct (cyclic _ _ _ _) as [[|]|]; [congruence|apply IH|discriminate].
Qed.

(* the error return of flattenRef *)
Lemma flatten_fails_iff grow agrow fuel h roots es : stands h roots es -> Forall (fun e => height e <= fuel) es ->
  flatten_ref grow agrow fuel roots h = Fails <-> exists ke e, In (ke, e) (entries es) /\ has_ref e /\ forall t d, ~ target_at es (ref_key e) t d.
Proof.
  intros St Hf. split; [|intros (ke & e & H1 & H2 & H3); eapply unknown_reference; eauto using stands_shows]. intros E. pose proof (stands_shows h roots es St) as Hs.
  destruct (index_all h fuel roots es Hs Hf) as (m & E1 & Ix). destruct (mapo (dep_of h m) (all_below h roots es)) as [ds|] eqn:Em.
  - exfalso. destruct (no_panic grow agrow fuel h roots es St Hf) as (H & X); [|rewrite X in E; exact (unpack_all_never_fails grow fuel roots H E)].
    intros ke e Hin Hre. apply In_nth_error in Hin. destruct Hin as (i & Ei). destruct (els_at h roots es m Ix i ke e Ei) as (q & y & Eq & L & R). destruct (mapo_nth _ _ _ _ _ Em Eq) as (b & Eb & _).
    unfold dep_of in Eb. rewrite L in Eb. unfold ref_of in Eb. rewrite (rep_attr h e y _ R) in Eb. assert (E0 : String.eqb (attr e "" "ref") "" = false) by (apply String.eqb_neq; exact Hre). rewrite E0 in Eb. pose proof R as R'. apply rep_eq in R'. destruct R' as (Rn & Rs & _). rewrite Rs, Rn in Eb.
    change (resolve (e_scope e) (attr e "" "ref"), e_name e) with (ref_key e) in Eb. destruct (key_get (ref_key e) m) as [t|] eqn:Ek; [|discriminate]. apply Ix in Ek. destruct Ek as (d & T). exists t, d. exact T.
  - destruct (TypesProofs.mapo_none _ _ Em) as (q & Hq & Hd). apply In_nth_error in Hq. destruct Hq as (i & Eq). destruct (els_entry h roots es m Ix i q Eq) as (ke & e & y & Ee & L & R). exists ke, e. split; [eapply nth_error_In; eauto|].
    unfold dep_of in Hd. rewrite L in Hd. unfold ref_of in Hd. rewrite (rep_attr h e y _ R) in Hd. destruct (String.eqb (attr e "" "ref") "") eqn:E0; [discriminate|]. apply String.eqb_neq in E0. split; [exact E0|]. pose proof R as R'. apply rep_eq in R'. destruct R' as (Rn & Rs & _). rewrite Rs, Rn in Hd.
    change (resolve (e_scope e) (attr e "" "ref"), e_name e) with (ref_key e) in Hd. intros t d T. assert (Ek : key_get (ref_key e) m = Some t) by (apply Ix; exists d; exact T). rewrite Ek in Hd. discriminate.
Qed.
