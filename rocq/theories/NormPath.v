(* Setting attributes through pointers: an element keeps its place, so a pointer is a path. *)
From Verif Require Import Base ScopeModel TreeModel TreeSpec TreeProofs BuiltinModel XsdModel XsdProofs NormModel NormMem NormOps.
Local Open Scope string_scope.

(* ---------- trees by paths ---------- *)
(* what there is at a position, apart from the children: name, attributes, scope, content *)
Definition lab := (xname * list xattr * scope * string * nat)%type.
Definition label (e : elem) : lab := (e_name e, e_attrs e, e_scope e, e_content e, List.length (e_children e)).
Definition lab_at (e : elem) (p : list nat) : option lab := option_map label (sub e p).
Fixpoint upd (f : elem -> elem) (p : list nat) (e : elem) : elem :=
  match p with
  | [] => f e
  | i :: p' => match nth_error (e_children e) i with
               | Some c => with_children e (set_nth i (upd f p' c) (e_children e))
               | None => e
               end
  end.
Definition keeps_kids (f : elem -> elem) : Prop := forall e, e_children (f e) = e_children e.
Lemma lab_upd f : keeps_kids f -> forall p e q d, sub e p = Some d ->
  lab_at (upd f p e) q = if list_eq_dec Nat.eq_dec q p then Some (label (f d)) else lab_at e q.
Proof.
  intros K. induction p as [|i p IH]; intros e q d H; cbn [upd].
  - cbn in H. injection H as ->. destruct q as [|j q]; cbn [list_eq_dec]; [reflexivity|].
    destruct (list_eq_dec Nat.eq_dec (j :: q) []) as [E|E]; [discriminate|]. unfold lab_at. cbn [sub]. rewrite K. reflexivity.
  - cbn [sub] in H. destruct (nth_error (e_children e) i) as [c|] eqn:Ec; [|discriminate].
    assert (Hi : i < List.length (e_children e)) by (apply nth_error_Some; congruence).
    destruct q as [|j q].
    + destruct (list_eq_dec Nat.eq_dec [] (i :: p)) as [E|E]; [discriminate|]. unfold lab_at, label. cbn [sub option_map].
      destruct e; cbn. rewrite set_nth_length. reflexivity.
    + unfold lab_at. cbn [sub]. assert (Ew : e_children (with_children e (set_nth i (upd f p c) (e_children e))) = set_nth i (upd f p c) (e_children e)) by (destruct e; reflexivity).
      rewrite Ew, nth_error_set_nth by auto. destruct (Nat.eqb j i) eqn:Eji.
      * apply Nat.eqb_eq in Eji. subst j. specialize (IH c q d H). unfold lab_at in IH. rewrite IH, Ec.
        destruct (list_eq_dec Nat.eq_dec q p) as [-> |E].
        -- destruct (list_eq_dec Nat.eq_dec (i :: p) (i :: p)); [auto|congruence].
        -- destruct (list_eq_dec Nat.eq_dec (i :: q) (i :: p)); [congruence|auto].
      * destruct (list_eq_dec Nat.eq_dec (j :: q) (i :: p)) as [E|E]; [|reflexivity]. injection E as -> ->. rewrite Nat.eqb_refl in Eji. discriminate.
Qed.
Lemma sub_upd_some f p e q : keeps_kids f -> (exists d, sub e p = Some d) -> (exists d, sub (upd f p e) q = Some d) <-> (exists d, sub e q = Some d).
Proof.
  intros K (d & H). pose proof (lab_upd f K p e q d H) as L. unfold lab_at in L.
  destruct (sub (upd f p e) q) as [a|], (sub e q) as [b|] eqn:Eq; destruct (list_eq_dec Nat.eq_dec q p) as [-> |E]; cbn in L; try discriminate; split; intros (x & Hx); eauto; try discriminate; congruence.
Qed.
(* a tree is what it has at its paths *)
Lemma lab_ext : forall a b, (forall p, lab_at a p = lab_at b p) -> a = b.
Proof.
  induction a as [n t s c ks IH] using elem_ind'. intros b H. destruct b as [n' t' s' c' ks']. pose proof (H []) as H0. unfold lab_at, label in H0. cbn in H0.
  injection H0 as -> -> -> -> Hl. f_equal.
  assert (G : forall i, nth_error ks i = nth_error ks' i).
  { intros i. destruct (nth_error ks i) as [x|] eqn:Ei.
    - destruct (nth_error ks' i) as [y|] eqn:Ei'.
      + f_equal. apply IH; [eapply nth_error_In; eauto|]. intros p. specialize (H (i :: p)). unfold lab_at in *. cbn [sub e_children] in H. rewrite Ei, Ei' in H. exact H.
      + apply nth_error_None in Ei'. assert (i < List.length ks) by (apply nth_error_Some; congruence). lia.
    - symmetry. apply nth_error_None. apply nth_error_None in Ei. lia. }
  clear -G. revert ks' G. induction ks as [|x ks IH]; intros [|y ks'] G; auto; try (specialize (G 0); discriminate).
  f_equal; [specialize (G 0); cbn in G; congruence|]. apply IH. intros i. apply (G (S i)).
Qed.
(* changing attributes at many places *)
Lemma lab_fold f : keeps_kids f -> (forall e e', label e = label e' -> label (f e) = label (f e')) -> (forall e, label (f (f e)) = label (f e)) ->
  forall ps e, (forall p, In p ps -> exists d, sub e p = Some d) ->
  forall q, lab_at (each (fun e p => upd f p e) e ps) q =
    match sub e q with Some d => Some (if in_dec (list_eq_dec Nat.eq_dec) q ps then label (f d) else label d) | None => None end.
Proof.
  intros K Hf Hff. induction ps as [|p ps IH]; intros e V q; cbn [each].
  - unfold lab_at. destruct (sub e q); cbn; reflexivity.
  - destruct (V p (or_introl eq_refl)) as (d & Hd). rewrite IH.
    + pose proof (lab_upd f K p e q d Hd) as L. unfold lab_at in L.
      destruct (sub (upd f p e) q) as [a|] eqn:Ea, (sub e q) as [b|] eqn:Eb; destruct (list_eq_dec Nat.eq_dec q p) as [-> |E]; cbn [option_map] in L; try discriminate; auto; try congruence.
      * assert (d = b) by congruence. subst d. assert (L1 : label a = label (f b)) by congruence. f_equal.
        destruct (in_dec (list_eq_dec Nat.eq_dec) p (p :: ps)) as [_|N]; [|exfalso; apply N; left; auto].
        destruct (in_dec (list_eq_dec Nat.eq_dec) p ps) as [_|_]; auto. rewrite (Hf _ _ L1). apply Hff.
      * assert (L1 : label a = label b) by congruence. f_equal. destruct (in_dec (list_eq_dec Nat.eq_dec) q ps) as [I|I]; destruct (in_dec (list_eq_dec Nat.eq_dec) q (p :: ps)) as [I'|I']; auto.
        -- exfalso. apply I'. right. auto.
        -- destruct I' as [->|I']; [congruence|contradiction].
    + intros p' Hp'. apply (sub_upd_some f p e p' K); eauto. apply V. right. auto.
Qed.

(* ---------- pointers and paths ---------- *)
Fixpoint ptr_at (h : heap) (p : ptr) (s : list nat) : option ptr :=
  match s with
  | [] => Some p
  | i :: s' => match load h p with
               | Some x => if Nat.ltb i (n_len x) then ptr_at h (n_arr x, i) s' else None
               | None => None
               end
  end.
Lemma foot_kid h e x i k y : rep h e x -> nth_error (e_children e) i = Some k -> nth_error (kids h x) i = Some y -> forall a, In a (foot h k y) -> In a (foots h (e_children e) (kids h x)).
Proof.
  intros _. revert i. generalize (kids h x). induction (e_children e) as [|k' ks IH]; intros l [|i] E1 E2 a Ha; try discriminate; destruct l as [|y' l]; try discriminate; cbn [foots nth_error] in *.
  - apply in_or_app. left. congruence.
  - apply in_or_app. right. eapply IH; eauto.
Qed.
Lemma rep_kid h e x i k : rep h e x -> nth_error (e_children e) i = Some k -> exists y, nth_error (kids h x) i = Some y /\ rep h k y /\ load h (n_arr x, i) = Some y /\ i < n_len x.
Proof.
  intros R E. pose proof R as R'. apply rep_eq in R'. destruct R' as (_ & _ & _ & _ & K & B).
  assert (G : exists y, nth_error (kids h x) i = Some y /\ rep h k y).
  { clear -B E. revert i E. induction B as [|k' y ks ys Hk B IH]; intros [|i] E; cbn [nth_error] in *; try discriminate; [exists y; split; congruence|eauto]. }
  destruct G as (y & E1 & E2). assert (i < n_len x). { rewrite <- (kids_length h x K). apply nth_error_Some. congruence. }
  exists y. repeat split; auto. rewrite (load_kid h e x i R); auto.
Qed.
Lemma kid_good h e p x i k y : good h e p x -> nth_error (e_children e) i = Some k -> nth_error (kids h x) i = Some y -> good h k (n_arr x, i) y.
Proof.
  intros (L & R & N & Np) E1 E2. destruct (rep_kid h e x i k R E1) as (y' & E3 & R3 & L3 & _). assert (y' = y) by congruence. subst y'.
  rewrite foot_eq in N. inversion N as [|? ? N1 N2]; subst. inversion N2 as [|? ? N3 N4]; subst.
  split; [auto|]. split; [auto|]. split.
  - clear -N4 E1 E2. revert i E1 E2. generalize (kids h x) N4. clear N4. induction (e_children e) as [|k' ks IH]; intros l N4 [|i] E1 E2; try discriminate; destruct l as [|y' l]; try discriminate; cbn [foots nth_error] in *.
    + injection E1 as ->. injection E2 as ->. apply nodup_app_inv in N4. tauto.
    + apply nodup_app_inv in N4. eapply IH with (l := l); eauto. tauto.
  - cbn [fst]. intros Hi. apply N3. eapply foot_kid; eauto.
Qed.
Lemma ptr_frame : forall s h h' e p x, good h e p x -> load h' p = Some x -> (forall a, In a (foot h e x) -> nth_error h' a = nth_error h a) -> ptr_at h' p s = ptr_at h p s.
Proof.
  induction s as [|i s IH]; intros h h' e p x G L F; cbn [ptr_at]; auto. pose proof G as (L0 & R & _). rewrite L, L0.
  destruct (Nat.ltb i (n_len x)) eqn:Ei; auto. apply Nat.ltb_lt in Ei.
  rewrite (rep_len h e x R) in Ei. destruct (nth_error (e_children e) i) as [k|] eqn:Ek; [|apply nth_error_None in Ek; lia].
  destruct (rep_kid h e x i k R Ek) as (y & E1 & R1 & L1 & _). rewrite foot_eq in F.
  apply (IH h h' k (n_arr x, i) y).
  - eapply kid_good; eauto.
  - unfold load, cells. cbn [fst snd]. rewrite F by (right; left; auto). exact L1.
  - intros a Ha. apply F. right. right. eapply foot_kid; eauto.
Qed.
Lemma ptr_valid : forall s h e p x q, good h e p x -> ptr_at h p s = Some q -> exists d y, sub e s = Some d /\ good h d q y.
Proof.
  induction s as [|i s IH]; intros h e p x q G H; cbn [ptr_at sub] in *; [injection H as <-; eauto|].
  pose proof G as (L0 & R & _). rewrite L0 in H. destruct (Nat.ltb i (n_len x)) eqn:Ei; [|discriminate]. apply Nat.ltb_lt in Ei.
  rewrite (rep_len h e x R) in Ei. destruct (nth_error (e_children e) i) as [k|] eqn:Ek; [|apply nth_error_None in Ek; lia].
  destruct (rep_kid h e x i k R Ek) as (y & E1 & R1 & L1 & _). eapply IH; [|eauto]. eapply kid_good; eauto.
Qed.
Lemma sub_ptr : forall s h e p x d, good h e p x -> sub e s = Some d -> exists q y, ptr_at h p s = Some q /\ good h d q y.
Proof.
  induction s as [|i s IH]; intros h e p x d G H; cbn [ptr_at sub] in *; [injection H as <-; eauto|].
  pose proof G as (L0 & R & _). destruct (nth_error (e_children e) i) as [k|] eqn:Ek; [|discriminate].
  destruct (rep_kid h e x i k R Ek) as (y & E1 & R1 & L1 & L2). rewrite L0. assert (E : Nat.ltb i (n_len x) = true) by (apply Nat.ltb_lt; auto). rewrite E.
  eapply IH; eauto. eapply kid_good; eauto.
Qed.

(* the pointers found are those of the paths found *)
Lemma hits_paths g : forall e h p x pre, good h e p x ->
  Forall2 (fun q s => exists s', s = (pre ++ s')%list /\ ptr_at h p s' = Some q) (hits g h e p x) (search_at g e pre).
Proof.
  induction e as [n a s c ks IH] using elem_ind'. intros h p x pre G. rewrite hits_eq, search_at_eq. cbn [e_children]. apply Forall2_app.
  { destruct (g (Elem n a s c ks)); constructor; [|constructor]. exists []. rewrite app_nil_r. auto. }
  pose proof G as (L0 & R & _).
  assert (Gen : forall l m i, (forall j k y, nth_error l j = Some k -> nth_error m j = Some y -> good h k (n_arr x, i + j) y /\ i + j < n_len x) ->
    (forall k, In k l -> In k ks) -> List.length l = List.length m ->
    Forall2 (fun q s => exists s', s = (pre ++ s')%list /\ ptr_at h p s' = Some q) (hits_kids g h (n_arr x) l m i) (walk_search g pre l i)).
  { induction l as [|k l IHl]; intros [|y m] i Hg Hin Hlen; try discriminate; cbn [hits_kids walk_search]; [constructor|]. apply Forall2_app.
    - destruct (Hg 0 k y eq_refl eq_refl) as [Gk Hi]. rewrite Nat.add_0_r in Gk, Hi.
      specialize (IH k (Hin k (or_introl eq_refl)) h (n_arr x, i) y (pre ++ [i])%list Gk). clear -IH L0 Hi.
      induction IH as [|q t qs ts (s' & E1 & E2) H IHf]; constructor; auto.
      exists (i :: s'). split; [rewrite E1, <- app_assoc; reflexivity|]. cbn [ptr_at]. rewrite L0. assert (E : Nat.ltb i (n_len x) = true) by (apply Nat.ltb_lt; auto). rewrite E. exact E2.
    - apply IHl; [|intros k0 H0; apply Hin; right; auto|cbn in Hlen; lia]. intros j k0 y0 H1 H2. specialize (Hg (S j) k0 y0 H1 H2). rewrite Nat.add_succ_r in Hg. exact Hg. }
  apply Gen; auto.
  - intros j k y H1 H2. cbn [Nat.add]. split; [eapply kid_good; eauto|]. destruct (rep_kid h _ x j k R H1) as (y' & _ & _ & _ & H3). exact H3.
  - apply rep_eq in R. destruct R as (_ & _ & _ & _ & _ & B). cbn [e_children] in B. eapply Forall2_len. exact B.
Qed.
Lemma hits_paths_root g e h p x : good h e p x ->
  Forall2 (fun q s => ptr_at h p s = Some q) (hits_kids g h (n_arr x) (e_children e) (kids h x) 0) (search_func g e).
Proof.
  intros G. unfold search_func.
  assert (G2 := hits_paths (fun d => g d) e h p x [] G). rewrite hits_eq, search_at_eq in G2.
  assert (W : Forall2 (fun q s => exists s', s = ([] ++ s')%list /\ ptr_at h p s' = Some q) (hits_kids g h (n_arr x) (e_children e) (kids h x) 0) (walk_search g [] (e_children e) 0)).
  { destruct (g e); [|exact G2]. cbn [app] in G2. inversion G2; auto. }
  clear G2. induction W as [|q s qs ss (s' & E1 & E2) W IH]; constructor; auto. cbn [app] in E1. subst s'. exact E2.
Qed.
