(* Recursive groups: flattenRef does not come to an end. *)
From Verif Require Import Base GraphModel GraphSpec GraphProofs ScopeModel TreeModel TreeSpec TreeProofs BuiltinModel XsdModel XsdProofs NormModel NormMem NormOps NormPath NormSpec NormUnpack NormUnpackAll NormRefSpec NormIndex NormRefs NormFlatten NormCycle.
Local Open Scope string_scope.

(* references have no children of their own *)
Definition refs_empty (es : list elem) : Prop := forall ke e, In (ke, e) (entries es) -> has_ref e -> e_children e = [].

(* from p down to q through elements with children *)
Inductive climbs (h : heap) (q : ptr) : ptr -> Prop :=
| climbs_here : climbs h q q
| climbs_step p x i e : load h p = Some x -> rep h e x -> e_children e <> [] -> i < n_len x -> climbs h q (n_arr x, i) -> climbs h q p.
Lemma hits_climb h : forall e p x q, load h p = Some x -> rep h e x -> In q (hits everything h e p x) -> climbs h q p.
Proof.
  induction e as [n a s c ks IH] using elem_ind'. intros p x q L R Hq. rewrite hits_eq in Hq. cbn [app] in Hq. destruct Hq as [<-|Hq]; [constructor|]. apply hits_kids_in in Hq. cbn [e_children] in Hq. destruct Hq as (j & k & y & E1 & E2 & Hq).
  destruct (rep_kid h _ x j k R E1) as (y' & E' & Ry & Ly & Hj). assert (y' = y) by congruence. subst y'. eapply climbs_step; eauto; [cbn [e_children]; intros ->; destruct j; discriminate|]. apply (IH k (nth_error_In _ _ E1) _ y); auto.
Qed.
Lemma below_climb h e p x q : load h p = Some x -> rep h e x -> In q (hits_kids everything h (n_arr x) (e_children e) (kids h x) 0) -> climbs h q p.
Proof. intros L R Hq. apply (hits_climb h e p x q L R). rewrite hits_eq. right. exact Hq. Qed.
Lemma path_climb h : forall s d e p x, load h p = Some x -> rep h d x -> sub d s = Some e -> exists q y, load h q = Some y /\ rep h e y /\ climbs h q p /\
  match s with [] => q = p | j :: s' => climbs h q (n_arr x, j) /\ j < n_len x end.
Proof.
  induction s as [|j s IH]; intros d e p x L R E; cbn [sub] in E.
  - injection E as <-. exists p, x. split; auto. split; auto. split; [constructor|reflexivity].
  - destruct (nth_error (e_children d) j) as [k|] eqn:Ek; [|discriminate]. destruct (rep_kid h d x j k R Ek) as (y & Ey & Ry & Ly & Hj). destruct (IH k e _ y Ly Ry E) as (q & y' & Lq & Rq & C & _). exists q, y'. split; auto. split; auto.
    assert (X : climbs h q p) by (eapply climbs_step; eauto; intros X; rewrite X in Ek; destruct j; discriminate). auto.
Qed.

(* the same, without the trees *)
Inductive leads (H : heap) (q : ptr) : ptr -> Prop :=
| leads_here : leads H q q
| leads_step p x i : load H p = Some x -> i < n_len x -> leads H q (n_arr x, i) -> leads H q p.
Lemma leads_endless H q x i : load H q = Some x -> i < n_len x -> leads H q (n_arr x, i) -> endless H (leads H q).
Proof. intros L Hi Hl p Hp. destruct Hp as [|p y j Ly Hj Hp]; eauto 6. Qed.

Section Recursive.
  Variables (grow agrow : nat -> nat -> nat) (h : heap) (roots : list ptr) (es : list elem) (m : list (key * nat)).
  Notation els := (all_below h roots es).
  Hypothesis Ix : indexed h (entries es) (els, m).
  Hypothesis Nd : NoDup els.
  Hypothesis Hr : all_resolve es.
  (* a reference, the definition, and a child of the definition that is no reference *)
  Variables (ie : nat) (q qd : ptr) (ke : option (xname * xname)) (e d : elem) (yd y1 : node) (t j0 : nat).
  Hypothesis He : nth_error (entries es) ie = Some (ke, e).
  Hypothesis Hq : nth_error els ie = Some q.
  Hypothesis Hre : has_ref e.
  Hypothesis Ht : target_at es (ref_key e) t d.
  Hypothesis Hqd : nth_error els t = Some qd.
  Hypothesis Ld : load h qd = Some yd.
  Hypothesis Nrd : ~ has_ref d.
  Hypothesis L1 : load h (n_arr yd, j0) = Some y1.
  Hypothesis Hj0 : j0 < n_len yd.
  Hypothesis N1 : forall e1, rep h e1 y1 -> ~ has_ref e1.
  Hypothesis K1 : exists e1, rep h e1 y1.

  Record running (H : heap) (done : list ptr) : Prop := mkRunning {
    ru_len : List.length h <= List.length H;
    ru_ats : forall a l, nth_error h a = Some (Ats l) -> nth_error H a = Some (Ats l);
    ru_same : forall p y, load h p = Some y -> ~ In p done -> load H p = Some y;
    ru_refs : forall p, In p done -> exists i ke' e' y', nth_error els i = Some p /\ nth_error (entries es) i = Some (ke', e') /\ has_ref e' /\ load h p = Some y' /\ rep h e' y';
    ru_new : In q done -> exists z, load H q = Some z /\ List.length h <= n_arr z /\ j0 < n_len z /\ load H (n_arr z, j0) = Some y1 }.
  Lemma ru_plain H done p e' y' : running H done -> load h p = Some y' -> rep h e' y' -> ~ has_ref e' -> ~ In p done.
  Proof. intros Ru L R Nr X. destruct (ru_refs _ _ Ru p X) as (i & ke2 & e2 & y2 & _ & _ & Hr2 & L2 & R2). assert (y2 = y') by congruence. subst. rewrite (rep_fun h e' e2 y' R R2) in Nr. contradiction. Qed.

  Lemma run_step H done i p : running H done -> nth_error els i = Some p -> ~ In p done -> exists H' done', deref_one grow agrow els m H (Z.of_nat i) = Some H' /\ running H' done' /\
    (forall p', In p' done' -> p' = p \/ In p' done) /\ (forall p', In p' done -> In p' done') /\ (i = ie -> In q done').
  Proof.
    intros Ru Ep Hn. destruct (els_entry h roots es m Ix i p Ep) as (ke' & e' & y & Ee & L & R). pose proof (ru_same _ _ Ru p y L Hn) as LH. unfold deref_one. rewrite Nat2Z.id, Ep, LH.
    assert (Ea : ref_of H y = attr e' "" "ref"). { unfold ref_of, nattr, attr. pose proof R as R'. apply rep_eq in R'. destruct R' as (_ & _ & _ & (la & A1 & A2 & A3) & _). rewrite (attrs_ok_eq H y (e_attrs e')); auto. exists la. split; auto. apply (ru_ats _ _ Ru). auto. }
    rewrite Ea. destruct (String.eqb (attr e' "" "ref") "") eqn:E0.
    { apply String.eqb_eq in E0. exists H, done. split; auto. split; auto. split; auto. split; auto. intros ->. rewrite He in Ee. injection Ee as <- <-. contradiction. }
    apply String.eqb_neq in E0. pose proof R as R'. apply rep_eq in R'. destruct R' as (Rn' & Rs & _). rewrite Rs, Rn'. change (resolve (e_scope e') (attr e' "" "ref"), e_name e') with (ref_key e').
    destruct (Hr ke' e' (nth_error_In _ _ Ee) E0) as (t' & d' & T'). assert (Ek : key_get (ref_key e') m = Some t') by (apply Ix; exists d'; exact T'). rewrite Ek.
    destruct (els_at h roots es m Ix t' _ d' (proj1 T')) as (qd' & yd' & Eqd' & Ld' & Rd'). rewrite Eqd'.
    assert (Hie : i = ie -> load H qd' = Some yd /\ p = q).
    { intros ->. rewrite He in Ee. injection Ee as <- <-. destruct (target_fun _ _ _ _ _ _ Ht T') as (<- & <-). assert (qd' = qd) by congruence. subst qd'. split; [|congruence]. apply (ru_same _ _ Ru); auto. eapply ru_plain; eauto. }
    destruct (load H qd') as [real|] eqn:Lr.
    2: { exists H, done. split; auto. split; auto. split; auto. split; auto. intros X. destruct (Hie X) as (X' & _). discriminate. }
    unfold deref_node, alloc, alloc_ats. set (ks := kids H real). set (A := (ks ++ repeat zero_node _)%list). rewrite <- app_assoc. cbn [app].
    match goal with |- context [(H ++ ?l)%list] => set (ext := l); set (H1 := (H ++ ext)%list) end. match goal with |- context [put H1 p ?z0] => set (z := z0) end.
    assert (Lq : load H1 p = Some y). { unfold load, cells, H1. rewrite nth_error_app1 by (eapply load_bound; eauto). exact LH. }
    pose proof (load_bound _ _ _ L) as Bp. pose proof (ru_len _ _ Ru) as Hlen.
    assert (Keep : forall p' w, p' <> p -> load H p' = Some w -> load (put H1 p z) p' = Some w).
    { intros p' w Hn' L'. apply (put_elsewhere H1 p y); auto. unfold load, cells, H1. rewrite nth_error_app1 by (eapply load_bound; eauto). exact L'. }
    exists (put H1 p z), (p :: done). split; [reflexivity|]. split; [|split; [intros p' [X|X]; auto|split; [intros p' X; right; auto|intros X; left; apply (Hie X)]]]. constructor.
    - rewrite put_length. unfold H1. rewrite app_length. lia.
    - intros a l X. rewrite put_other; [|intros ->; destruct (load_array _ _ _ L) as (l' & X' & _); congruence]. unfold H1. assert (a < List.length h) by (apply nth_error_Some; congruence). rewrite nth_error_app1 by lia. apply (ru_ats _ _ Ru). auto.
    - intros p' w L' Hn'. apply Keep; [intros ->; apply Hn'; left; auto|]. apply (ru_same _ _ Ru); auto. intros X. apply Hn'. right. auto.
    - intros p' [<-|X]; [|exact (ru_refs _ _ Ru p' X)]. exists i, ke', e', y. auto.
    - intros Hin. destruct (ptr_eq_dec p q) as [->|Hpq].
      + assert (i = ie) by (apply (NoDup_nth_error els); auto; [apply nth_error_Some|]; congruence). subst i. destruct (Hie eq_refl) as (X & _). injection X as ->.
        exists z. split; [eapply load_put; eauto|]. cbn [z n_arr n_len]. split; [lia|].
        assert (Lj : load H (n_arr yd, j0) = Some y1). { apply (ru_same _ _ Ru); auto. destruct K1 as (e1 & R1). eapply ru_plain; eauto. }
        assert (Ej : nth_error ks j0 = Some y1) by (unfold ks, kids; rewrite nth_error_firstn_lt by auto; exact Lj).
        assert (j0 < List.length ks) by (apply nth_error_Some; congruence). split; auto.
        unfold load, cells. cbn [fst snd]. rewrite put_other by lia. unfold H1. rewrite nth_error_app2, Nat.sub_diag by lia. cbn [ext nth_error]. unfold A. rewrite nth_error_app1; auto.
      + destruct Hin as [->|Hin]; [congruence|]. destruct (ru_new _ _ Ru Hin) as (z' & Z1 & Z2 & Z3 & Z4). exists z'. split; [apply Keep; auto|]. split; auto. split; auto. apply Keep; auto. intros X. rewrite <- X in Bp. cbn [fst] in Bp. lia.
  Qed.
  Lemma run_all : forall o H done, NoDup o -> (forall v, In v o -> exists i, v = Z.of_nat i /\ i < List.length els) -> running H done -> (forall i p, In (Z.of_nat i) o -> nth_error els i = Some p -> ~ In p done) ->
    exists H' done', foldo (deref_one grow agrow els m) H o = Some H' /\ running H' done' /\ (forall p, In p done -> In p done') /\ (In (Z.of_nat ie) o -> In q done').
  Proof.
    induction o as [|v o IH]; intros H done No Rng Ru Dn; cbn [foldo]; [exists H, done; split; auto; split; auto; split; auto; intros []|]. inversion No as [|? ? No1 No2]; subst.
    destruct (Rng v (or_introl eq_refl)) as (i & -> & Hi). destruct (nth_error els i) as [p|] eqn:Ep; [|apply nth_error_None in Ep; lia].
    destruct (run_step H done i p Ru Ep) as (H1 & d1 & F1 & F2 & F3 & F4 & F5); [apply (Dn i); auto; left; auto|]. rewrite F1.
    destruct (IH H1 d1 No2) as (H2 & d2 & G1 & G2 & G3 & G4); auto.
    - intros w Hw. apply Rng. right. auto.
    - intros i' p' Hi' Ep' X. apply F3 in X. destruct X as [->|X]; [|apply (Dn i' p'); auto; right; auto].
      assert (i' = i) by (apply (NoDup_nth_error els); auto; [apply nth_error_Some|]; congruence). subst i'. contradiction.
    - exists H2, d2. split; auto. split; auto. split; auto. intros [X|X]; [apply G3, F5; lia|auto].
  Qed.
  Lemma run_start : running h [].
  Proof. constructor; auto; [intros p []|intros []]. Qed.
  (* when all is done, the reference leads to itself *)
  Lemma run_loop (Re : refs_empty es) H done : running H done -> In q done -> climbs h q (n_arr yd, j0) -> (n_arr yd, j0) <> q -> exists z i, load H q = Some z /\ i < n_len z /\ leads H q (n_arr z, i) /\ forall p, climbs h q p -> leads H q p.
  Proof.
    intros Ru Hd C Hne.
    assert (Up : forall p, climbs h q p -> leads H q p).
    { intros p X. induction X as [|p x i e' L R Nc Hi X IH]; [constructor|]. apply (leads_step H q p x i); auto. apply (ru_same _ _ Ru); auto. intros Hin. destruct (ru_refs _ _ Ru p Hin) as (i2 & ke2 & e2 & y2 & _ & E2 & Hr2 & L2 & R2).
      assert (y2 = x) by congruence. subst. rewrite <- (rep_fun h e' e2 x R R2) in *. apply Nc. apply (Re ke2); auto. eapply nth_error_In; eauto. }
    destruct (ru_new _ _ Ru Hd) as (z & Z1 & Z2 & Z3 & Z4). exists z, j0. split; auto. split; auto. split; auto.
    inversion C as [|p x i e' L R Nc Hi X]; subst; [congruence|]. assert (x = y1) by congruence. subst x. apply (leads_step H q _ y1 i); auto.
  Qed.
End Recursive.

Lemma recursive_runs grow agrow h r e0 ke e t d s : stands h [r] [e0] -> all_resolve [e0] -> refs_empty [e0] ->
  In (ke, e) (entries [e0]) -> has_ref e -> target_at [e0] (ref_key e) t d -> sub d s = Some e -> 2 <= List.length s ->
  forall fuel, flatten_ref grow agrow fuel [r] h = Runs.
Proof.
  intros St Hr Re Hin Hre Ht Hs Hl fuel. pose proof (stands_shows _ _ _ St) as Sh. set (big := Nat.max fuel (height e0)).
  destruct (index_all h big [r] [e0] Sh) as (m & E1 & Ix); [constructor; auto; unfold big; lia|]. unfold flatten_ref. destruct (index_schema fuel h [r] ([], [])) as [st|] eqn:Ei; auto.
  rewrite (index_mono h fuel big (Nat.le_max_l _ _) _ _ _ Ei) in E1. assert (X : st = (all_below h [r] [e0], m)) by congruence. rewrite X. clear X E1 Ei st. pose proof (stands_distinct _ _ _ St) as Nd.
  destruct (els_at h [r] [e0] m Ix t _ d (proj1 Ht)) as (qd & yd & Eqd & Ld & Rd).
  destruct s as [|j [|j' s]]; cbn [List.length] in Hl; try lia. destruct (path_climb h (j :: j' :: s) d e qd yd Ld Rd Hs) as (q & y & Lq & Rq & C1 & C2 & Hj).
  pose proof Hs as Hs'. cbn [sub] in Hs'. destruct (nth_error (e_children d) j) as [k|] eqn:Ek; [|discriminate]. destruct (rep_kid h d yd j k Rd Ek) as (y1 & Ey1 & Ry1 & Ly1 & _).
  assert (Nk : e_children k <> []) by (intros X; rewrite X in Hs'; destruct j'; discriminate).
  assert (Nd' : e_children d <> []) by (intros X; rewrite X in Ek; destruct j; discriminate).
  assert (Ed : exists ke, In (ke, d) (entries [e0])) by (eexists; eapply nth_error_In; exact (proj1 Ht)).
  assert (Nrd : ~ has_ref d) by (intros X; destruct Ed as (kd & Ed); apply Nd'; apply (Re kd); auto).
  assert (Nrk : ~ has_ref k) by (intros X; destruct (kid_entry _ d k Ed (nth_error_In _ _ Ek)) as (kk & Ekk); apply Nk; apply (Re kk); auto).
  (* the reference below the definition, in memory *)
  assert (Qe : In q (all_below h [r] [e0])).
  { assert (Cl : forall p, climbs h q p -> In p (all_below h [r] [e0]) -> In q (all_below h [r] [e0])).
    { intros p X. induction X as [|p x i e' L R Nc Hi X IH]; auto. intros Hp. apply IH. clear IH X. apply In_nth_error in Hp. destruct Hp as (ip & Ep). destruct (els_entry h [r] [e0] m Ix ip p Ep) as (ke2 & e2 & y2 & E2 & _). destruct (all_below_laid_out h [r] [e0] Sh) as (_ & F).
      destruct (F ip p e2 x i) as (i' & _ & Ei'); auto; [rewrite nth_error_map, E2; reflexivity|]. eapply nth_error_In; eauto. }
    apply (Cl qd); auto. eapply nth_error_In; eauto. }
  apply In_nth_error in Qe. destruct Qe as (ie & Eq). destruct (els_entry h [r] [e0] m Ix ie q Eq) as (ke' & e' & y' & Ee & Ly & Ry). assert (y' = y) by congruence. subst y'. assert (e' = e) by (eapply rep_fun; eauto). subst e'.
  assert (Hne : (n_arr yd, j) <> q) by (intros X; rewrite <- X in Lq; assert (y1 = y) by congruence; subst y1; rewrite (rep_fun h k e y Ry1 Rq) in Nrk; contradiction).
  (* the dependencies *)
  assert (D : exists ds, mapo (dep_of h m) (all_below h [r] [e0]) = Some ds /\ List.length ds = List.length (all_below h [r] [e0])).
  { apply mapo_some. intros p Hp. apply In_nth_error in Hp. destruct Hp as (i & Ep). destruct (els_entry h [r] [e0] m Ix i p Ep) as (ke2 & e2 & y2 & Ee2 & L2 & R2). unfold dep_of. rewrite L2. unfold ref_of. rewrite (rep_attr h e2 y2 _ R2).
    destruct (String.eqb (attr e2 "" "ref") "") eqn:E0; [discriminate|]. apply String.eqb_neq in E0. pose proof R2 as R'. apply rep_eq in R'. destruct R' as (Rn & Rs & _). rewrite Rs, Rn.
    change (resolve (e_scope e2) (attr e2 "" "ref"), e_name e2) with (ref_key e2). destruct (Hr ke2 e2 (nth_error_In _ _ Ee2) E0) as (t2 & d2 & T). assert (Ek2 : key_get (ref_key e2) m = Some t2) by (apply Ix; exists d2; exact T). rewrite Ek2. discriminate. }
  destruct D as (ds & E2 & Hds). rewrite E2. destruct (flatten_once (dep_edges 0 ds)) as (order & E3 & No & V). rewrite E3.
  assert (Rng : forall v, In v order -> exists i, v = Z.of_nat i /\ i < List.length (all_below h [r] [e0])).
  { intros v Hv. apply V in Hv. assert (Dep : forall i j2, nth_error ds i = Some (Some j2) -> i < List.length (all_below h [r] [e0]) /\ j2 < List.length (all_below h [r] [e0])).
    { intros i j2 X. assert (Hi : i < List.length ds) by (apply nth_error_Some; congruence). split; [lia|]. rewrite Hds in Hi. destruct (nth_error (all_below h [r] [e0]) i) as [p|] eqn:Ep; [|apply nth_error_None in Ep; lia].
      destruct (mapo_nth _ _ _ _ _ E2 Ep) as (b & Eb & Eb'). assert (b = Some j2) by congruence. subst b. unfold dep_of in Eb. destruct (load h p) as [x|]; [|discriminate]. destruct (String.eqb _ _); [discriminate|]. destruct (key_get _ m) as [t2|] eqn:Ek2; [|discriminate]. injection Eb as ->.
      apply Ix in Ek2. destruct Ek2 as (d2 & T & _). rewrite (els_length h [r] [e0] m Ix). apply nth_error_Some. congruence. }
    destruct Hv as (w & [X|X]); apply dep_edges_in in X; destruct X as (i & j2 & X & -> & ->); [exists i|exists j2]; cbn [Nat.add]; split; auto; apply (Dep i j2 X). }
  assert (Src : In (Z.of_nat ie) order).
  { apply V. destruct (mapo_nth _ _ _ _ _ E2 Eq) as (b & Eb & Eb'). unfold dep_of in Eb. rewrite Ly in Eb. unfold ref_of in Eb. rewrite (rep_attr h e y _ Ry) in Eb. assert (E0 : String.eqb (attr e "" "ref") "" = false) by (apply String.eqb_neq; exact Hre). rewrite E0 in Eb.
    pose proof Ry as R'. apply rep_eq in R'. destruct R' as (Rn & Rs & _). rewrite Rs, Rn in Eb. change (resolve (e_scope e) (attr e "" "ref"), e_name e) with (ref_key e) in Eb. assert (Ek2 : key_get (ref_key e) m = Some t) by (apply Ix; exists d; exact Ht). rewrite Ek2 in Eb. injection Eb as <-.
    exists (Z.of_nat t). left. apply dep_edges_in. exists ie, t. auto. }
  assert (Nk1 : forall e1, rep h e1 y1 -> ~ has_ref e1) by (intros e1 R1; rewrite (rep_fun h e1 k y1 R1 Ry1); auto).
  destruct (run_all grow agrow h [r] [e0] m Ix Nd Hr ie q qd ke' e d yd y1 t j Ee Eq Hre Ht Eqd Ld Nrd Ly1 Hj Nk1 (ex_intro _ k Ry1) order h [] No Rng) as (H & done & G1 & G2 & _ & G4); auto.
  { apply run_start. }
  rewrite G1. destruct (run_loop h [r] [e0] q yd y1 j Ly1 Re H done G2 (G4 Src) C2 Hne) as (z & i & Lz & Hi & Lead & Up).
  cbn [unpack_all]. unfold unpack_groups. rewrite (search_heap_endless H _ (leads H q) r fuel (leads_endless H q z i Lz Hi Lead)); auto.
  apply Up. inversion Sh as [|? ? ? ? (x & Lx & Rx) _]; subst. apply (below_climb h e0 r x); auto. pose proof (nth_error_In _ _ Eq) as X. cbn [all_below] in X. rewrite Lx, app_nil_r in X. exact X.
Qed.
