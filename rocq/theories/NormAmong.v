(* A plain schema among others of any kind: Normalize brings it into normal form, whatever the others are,
   provided that it succeeds. *)
From Verif Require Import Base GraphModel ScopeModel ScopeSpec ScopeProofs TreeModel TreeSpec TreeProofs BuiltinModel XsdModel XsdProofs NormModel NormMem NormOps NormPath NormSpec NormAttr NormPass NormDefaults NormExpand NormHoistSpec NormAnonSpec NormAnon NormUnpack NormUnpackAll NormRefSpec NormIndex NormRefs NormFlatten NormBuild NormExamples NormFixed NormAgain NormKeep NormStart.
Local Open Scope string_scope.

Lemma kids_at h x i y : nth_error (kids h x) i = Some y -> i < n_len x /\ load h (n_arr x, i) = Some y.
Proof.
  unfold kids, load. cbn [fst snd]. intros E. assert (i < n_len x).
  { assert (i < List.length (firstn (n_len x) (cells h (n_arr x)))) by (apply nth_error_Some; congruence). rewrite firstn_length in H. lia. }
  split; [auto|]. rewrite <- E. symmetry. revert E. generalize (cells h (n_arr x)), (n_len x), H. clear. intros l n H _. revert l n H.
  induction i as [|i IH]; intros [|z l] [|n] H; cbn [firstn nth_error]; auto; try lia. apply IH. lia.
Qed.
(* ---------- references and groups ---------- *)
Section Still.
  Variables grow agrow : nat -> nat -> nat.
  (* the memory before; the arrays K and cells D of the plain schema *)
  Variable h0 : heap.
  Variable K : nat -> Prop.
  Variable D : ptr -> Prop.
  Variable p0 : ptr.
  Variable roots : list ptr.
  Variable x0 : node.
  Hypothesis L0 : load h0 p0 = Some x0.
  Hypothesis Kb : forall a, K a -> a < List.length h0.
  Hypothesis plain_cell : forall p, D p -> exists x, load h0 p = Some x /\ K (fst p) /\ K (n_at x) /\ K (n_arr x) /\ ref_of h0 x = "" /\ existsb is_group (kids h0 x) = false.

  Definition leads (G : ptr -> Prop) (x : node) : Prop := forall i, i < n_len x -> G (n_arr x, i).
  Definition Still (h : heap) (G : ptr -> Prop) : Prop :=
    List.length h0 <= List.length h /\ (forall a, K a -> nth_error h a = nth_error h0 a) /\ load h p0 = Some x0 /\
    (forall p, G p -> p <> p0 /\ (D p \/ ~ K (fst p)) /\ exists x, load h p = Some x /\ leads G x) /\
    forall r, In r roots -> exists x, load h r = Some x /\ leads G x.
  Lemma still_cell h G p x : Still h G -> G p -> load h p = Some x -> leads G x.
  Proof. intros (_ & _ & _ & C & _) Hp L. destruct (C p Hp) as (_ & _ & y & Ly & H). assert (y = x) by congruence. subst. exact H. Qed.
  Lemma same_plain h G p x : Still h G -> D p -> load h p = Some x -> ref_of h x = "" /\ existsb is_group (kids h x) = false.
  Proof.
    intros (_ & E & _) Hd L. destruct (plain_cell p Hd) as (y & Ly & K1 & K2 & K3 & R & Gr). assert (load h p = load h0 p) by (unfold load, cells; rewrite (E _ K1); auto). assert (x = y) by congruence. subst y.
    unfold ref_of, nattr, n_attrs, ats, kids, cells in *. rewrite (E _ K2), (E _ K3). auto.
  Qed.
  Lemma still_snoc h G c (G' : ptr -> Prop) : Still h G -> (forall p, G p -> G' p) -> (forall p, G' p -> G p \/ fst p = List.length h /\ exists y, load (h ++ [c])%list p = Some y /\ leads G y) -> Still (h ++ [c])%list G'.
  Proof.
    intros (A & B & C & Dn & R) M N. assert (Ld : forall p y, load h p = Some y -> load (h ++ [c])%list p = Some y) by (intros p y Hp; rewrite snoc_load; auto; eapply load_bound; eauto).
    assert (Lm : forall y, leads G y -> leads G' y) by (intros y Hy i Hi; auto). split; [rewrite app_length; lia|]. split; [|split; [|split]].
    - intros a Ha. rewrite snoc_old; auto. specialize (Kb a Ha). lia.
    - auto.
    - intros p Hp. destruct (N p Hp) as [Hg|(Hf & y & Ly & Hy)].
      + destruct (Dn p Hg) as (N1 & N2 & y & Ly & Hy). split; [auto|]. split; [auto|]. exists y. auto.
      + split; [intros ->; apply load_bound in C; lia|]. split; [|exists y; auto]. right. rewrite Hf. intros Hk. specialize (Kb _ Hk). lia.
    - intros r Hr. destruct (R r Hr) as (y & Ly & Hy). exists y. auto.
  Qed.
  Lemma still_alloc h G (l : list node) (c : nat) : Still h G -> Forall (leads G) l -> let (h', a) := alloc h l c in
    Still h' (more G a (List.length l)) /\ (forall i, i < List.length l -> more G a (List.length l) (a, i)).
  Proof.
    intros S H. unfold alloc. set (x := Els _). split; [|intros i Hi; right; auto]. apply (still_snoc h G x); auto; [intros p Hp; left; auto|].
    intros p [Hp|[Hp Hi]]; [left; auto|right]. split; [auto|]. destruct (nth_error l (snd p)) as [y|] eqn:E; [|apply nth_error_None in E; lia].
    exists y. split; [|rewrite Forall_forall in H; apply H; eapply nth_error_In; eauto]. unfold load, cells. rewrite Hp, snoc_new. unfold x. rewrite nth_error_app1 by auto. exact E.
  Qed.
  Lemma still_put h G p x : Still h G -> G p -> ~ K (fst p) -> leads G x -> Still (put h p x) G.
  Proof.
    intros (A & B & C & Dn & R) Hp Hk Hx. destruct (Dn p Hp) as (N1 & _ & y & Ly & _). assert (Lo : forall q z, load h q = Some z -> exists z', load (put h p x) q = Some z' /\ (q <> p -> z' = z) /\ (q = p -> z' = x)).
    { intros q z Lq. assert (Dp : {q = p} + {q <> p}) by (decide equality; apply Nat.eq_dec). destruct Dp as [-> |Np].
      - exists x. split; [eapply load_put; eauto|]. split; [congruence|auto].
      - exists z. split; [eapply put_elsewhere; eauto|]. split; [auto|congruence]. }
    assert (Lg : forall q z, load h q = Some z -> leads G z -> exists z', load (put h p x) q = Some z' /\ leads G z').
    { intros q z Lq Hz. destruct (Lo q z Lq) as (z' & Lz' & E1 & E2). exists z'. split; [auto|]. assert (Dp : {q = p} + {q <> p}) by (decide equality; apply Nat.eq_dec). destruct Dp as [Hq|Hq]; [rewrite (E2 Hq)|rewrite (E1 Hq)]; auto. }
    split; [rewrite put_length; auto|]. split; [|split; [|split]].
    - intros a Ha. rewrite put_other; auto. intros ->. auto.
    - eapply put_elsewhere; eauto.
    - intros q Hq. destruct (Dn q Hq) as (M1 & M2 & z & Lz & Hz). split; [auto|]. split; [auto|]. eauto.
    - intros r Hr. destruct (R r Hr) as (z & Lz & Hz). eauto.
  Qed.
  Lemma leads_more G a n x : leads G x -> leads (more G a n) x.
  Proof. intros H i Hi. left. auto. Qed.
  Lemma kids_lead h G x : Still h G -> leads G x -> Forall (leads G) (kids h x).
  Proof. intros S H. apply Forall_forall. intros y Hy. apply In_nth_error in Hy. destruct Hy as (i & Hy). apply kids_at in Hy. destruct Hy as (Hi & Ly). exact (still_cell h G _ y S (H i Hi) Ly). Qed.
  Definition stays_still (h : heap) (G : ptr -> Prop) (h' : heap) : Prop := exists G' : ptr -> Prop, Still h' G' /\ forall p, G p -> G' p.
  Lemma deref_still h G p ref real : Still h G -> G p -> ~ K (fst p) -> leads G real -> let (h', x) := deref_node grow agrow h ref real in stays_still h G (put h' p x).
  Proof.
    intros S Hp Hk Hr. unfold deref_node. pose proof (still_alloc h G (kids h real) (grow 0 (List.length (kids h real))) S (kids_lead h G real S Hr)) as A1. destruct (alloc h (kids h real) _) as [h1 a]. destruct A1 as (S1 & G1).
    unfold alloc_ats. set (l := override _ _). set (c := Ats _). pose proof (still_snoc h1 _ c _ S1 (fun p Hp => Hp) (fun p Hp => or_introl Hp)) as S2.
    eexists. split; [apply (still_put _ _ p _ S2); [left; auto|auto|]|intros q Hq; left; auto]. intros i Hi. right. auto.
  Qed.
  Lemma deref_one_still elts m h G id h' : Still h G -> Forall G elts -> deref_one grow agrow elts m h id = Some h' -> stays_still h G h'.
  Proof.
    intros S He. assert (Z : stays_still h G h) by (exists G; auto). unfold deref_one. destruct (nth_error elts (Z.to_nat id)) as [p|] eqn:Ep; [|intros H; injection H as <-; auto].
    rewrite Forall_forall in He. pose proof (He p (nth_error_In _ _ Ep)) as Gp. destruct (load h p) as [el|] eqn:L; [|intros H; injection H as <-; auto].
    destruct (String.eqb _ "") eqn:Er; [intros H; injection H as <-; auto|]. destruct (key_get _ m) as [d|]; [|discriminate].
    destruct (nth_error elts d) as [q|] eqn:Eq; [|intros H; injection H as <-; auto]. destruct (load h q) as [real|] eqn:Lq; [|intros H; injection H as <-; auto].
    assert (Hk : ~ K (fst p)). { pose proof S as (_ & _ & _ & C & _). destruct (C p Gp) as (_ & [Hd|Hk] & _); [|auto]. destruct (same_plain h G p el S Hd L) as [E _]. rewrite E in Er. discriminate. }
    pose proof (deref_still h G p el real S Gp Hk (still_cell h G q real S (He q (nth_error_In _ _ Eq)) Lq)) as X. destruct (deref_node grow agrow h el real) as [h1 x]. intros H. injection H as <-. exact X.
  Qed.
  Lemma foldo_still elts m : forall l h G h', Still h G -> Forall G elts -> foldo (deref_one grow agrow elts m) h l = Some h' -> stays_still h G h'.
  Proof.
    induction l as [|id l IH]; intros h G h' S He; cbn [foldo]; [intros H; injection H as <-; exists G; auto|]. destruct (deref_one grow agrow elts m h id) as [h1|] eqn:E; [|discriminate].
    destruct (deref_one_still _ _ _ _ _ _ S He E) as (G1 & S1 & M1). intros H. destruct (IH h1 G1 h' S1) as (G2 & S2 & M2); [eapply Forall_impl; [|exact He]; auto|auto|]. exists G2. auto.
  Qed.
  Lemma search_ptr_still fn h G : Still h G -> forall fuel p ps, G p -> search_ptr fuel h fn p = Some ps -> Forall (fun q => G q /\ exists x, load h q = Some x /\ fn h x = true) ps.
  Proof.
    intros S. induction fuel as [|fuel IH]; intros p ps Hp; cbn [search_ptr]; [discriminate|]. destruct (load h p) as [x|] eqn:L; [|discriminate].
    destruct (mapo _ _) as [ls|] eqn:E; [|discriminate]. intros H. injection H as <-. pose proof (still_cell _ _ _ _ S Hp L) as Hx.
    apply Forall_app. split; [destruct (fn h x) eqn:Ef; auto; constructor; [eauto|constructor]|]. apply Forall_forall. intros q Hq. apply in_concat in Hq. destruct Hq as (l & Hl & Hq).
    destruct (mapo_in _ _ _ E l Hl) as (i & Hi & Ei). apply in_seq in Hi. specialize (IH _ _ (Hx i (proj2 Hi)) Ei). rewrite Forall_forall in IH. auto.
  Qed.
  Lemma search_still fn h G fuel r ps : Still h G -> In r roots -> search_heap fuel h fn r = Some ps -> Forall (fun q => G q /\ exists x, load h q = Some x /\ fn h x = true) ps.
  Proof.
    intros S Hr. unfold search_heap. pose proof S as (_ & _ & _ & _ & R). destruct (R r Hr) as (x & L & Hx). rewrite L. destruct (mapo _ _) as [ls|] eqn:E; [|discriminate]. intros H. injection H as <-.
    apply Forall_forall. intros q Hq. apply in_concat in Hq. destruct Hq as (l & Hl & Hq).
    destruct (mapo_in _ _ _ E l Hl) as (i & Hi & Ei). apply in_seq in Hi. pose proof (search_ptr_still fn h G S fuel _ _ (Hx i (proj2 Hi)) Ei) as IH. rewrite Forall_forall in IH. auto.
  Qed.
  Lemma index_still fuel h G : Still h G -> forall rs st els m, incl rs roots -> Forall G (fst st) -> index_schema fuel h rs st = Some (els, m) -> Forall G els.
  Proof.
    intros V. induction rs as [|r rs IH]; intros st es m Hi Hs; cbn [index_schema]; [intros H; injection H as ->; auto|]. destruct (load h r) as [x|]; [|discriminate].
    destruct (search_heap fuel h _ r) as [ps|] eqn:E; [|discriminate]. apply IH; [intros z Hz; apply Hi; right; auto|]. assert (Hp : Forall G ps) by (eapply Forall_impl; [|eapply search_still; eauto; apply Hi; left; auto]; intros q [Hq _]; exact Hq).
    clear E. revert st Hs. induction Hp as [|p ps H1 H2 IHp]; intros st Hs; cbn [each]; auto. apply IHp. destruct st as [a b]. unfold index_one. cbn [fst] in *. destruct (load h p); cbn [fst]; apply Forall_app; auto.
  Qed.
  Lemma flat_lead h G l : Still h G -> Forall (leads G) l -> Forall (leads G) (flat_map (fun c => if is_group c then kids h c else [c]) l).
  Proof. intros S H. induction H as [|x l Hx H IH]; cbn [flat_map]; auto. apply Forall_app. split; [|auto]. destruct (is_group x); [apply kids_lead; auto|auto]. Qed.
  Lemma unpack_one_still h G p : Still h G -> G p -> ~ K (fst p) -> stays_still h G (unpack_one grow h p).
  Proof.
    intros S Hp Hk. unfold unpack_one. destruct (load h p) as [el|] eqn:L; [|exists G; auto]. pose proof (still_cell _ _ _ _ S Hp L) as Hx. set (new := flat_map _ _).
    pose proof (still_alloc h G new (if Nat.leb (List.length new) (n_len el) then n_len el else grow (n_len el) (List.length new)) S (flat_lead h G _ S (kids_lead h G el S Hx))) as A1.
    destruct (alloc h new _) as [h1 a]. destruct A1 as (S1 & G1). eexists. split; [apply (still_put _ _ p _ S1); [left; auto|auto|]|intros q Hq; left; auto]. intros i Hi. destruct el. cbn in *. auto.
  Qed.
  Lemma unpack_each_still : forall ps h G, Still h G -> Forall (fun p => G p /\ ~ K (fst p)) ps -> stays_still h G (each (unpack_one grow) h ps).
  Proof.
    induction ps as [|p ps IH]; intros h G S H; cbn [each]; [exists G; auto|]. inversion H as [|? ? [H1 H2] H3]; subst. destruct (unpack_one_still h G p S H1 H2) as (G1 & S1 & M1).
    destruct (IH _ G1 S1) as (G2 & S2 & M2); [eapply Forall_impl; [|exact H3]; intros q [A B]; auto|]. exists G2. auto.
  Qed.
  Lemma unpack_all_still fuel : forall rs h G h', incl rs roots -> Still h G -> unpack_all grow fuel rs h = Done h' -> stays_still h G h'.
  Proof.
    induction rs as [|r rs IH]; intros h G h' Hi S; cbn [unpack_all]; [intros H; injection H as <-; exists G; auto|]. unfold unpack_groups.
    destruct (search_heap _ _ _ r) as [ps|] eqn:E; [|discriminate]. assert (Hr : In r roots) by (apply Hi; left; auto). pose proof (search_still _ _ _ _ _ _ S Hr E) as Hs.
    destruct (unpack_each_still ps h G S) as (G1 & S1 & M1).
    { eapply Forall_impl; [|exact Hs]. intros q (Gq & x & Lq & Hg). split; [auto|]. pose proof S as (_ & _ & _ & C & _). destruct (C q Gq) as (_ & [Hd|Hk] & _); [|auto]. destruct (same_plain h G q x S Hd Lq) as [_ E2]. congruence. }
    destruct (cyclic fuel _ r []) as [[|]|]; try discriminate. intros H. destruct (IH _ G1 h' (fun z Hz => Hi z (or_intror Hz)) S1 H) as (G2 & S2 & M2). exists G2. auto.
  Qed.
  Lemma flatten_still fuel h G h' : Still h G -> flatten_ref grow agrow fuel roots h = Done h' -> stays_still h G h'.
  Proof.
    intros S. unfold flatten_ref. destruct (index_schema fuel h roots ([], [])) as [[elts m]|] eqn:E; [|discriminate]. destruct (mapo _ _) as [ds|]; [|discriminate]. destruct (flatten _) as [order|]; [|discriminate].
    assert (He : Forall G elts) by (eapply index_still; eauto; [apply incl_refl|constructor]). destruct (foldo _ h order) as [h1|] eqn:Ef; [|discriminate].
    destruct (foldo_still _ _ _ _ _ _ S He Ef) as (G1 & S1 & M1). intros H. destruct (unpack_all_still _ _ _ _ _ (incl_refl roots) S1 H) as (G2 & S2 & M2). exists G2. auto.
  Qed.
End Still.

(* ---------- the other passes ---------- *)
Section Both.
  Variables (p0 : ptr) (others : list ptr).
  Hypothesis Np0 : ~ In p0 others.
  (* the plain schema in memory of its own; the others in the arrays I, their cells F *)
  Record beside (h : heap) (e : elem) (x0 : node) (I : nat -> Prop) (F : ptr -> Prop) : Prop := mkBeside {
    bs_good : good h e p0 x0;
    bs_bound : forall a, I a -> a < List.length h;
    bs_closed : closed I h F;
    bs_roots : forall r, In r others -> exists x, load h r = Some x /\ below_F I h F x /\ ~ I (fst r) /\ ~ I (n_at x) /\ atr h (n_at x) /\ ~ In (fst r) (foot h e x0) /\ ~ In (n_at x) (foot h e x0);
    bs_self : ~ I (fst p0);
    bs_foot : forall a, In a (foot h e x0) -> ~ I a }.
  Definition both (h : heap) (e : elem) : Prop := exists x0 I F, beside h e x0 I F.
  Definition apart_in (h0 : heap) (I : nat -> Prop) : Prop := forall r x, In r others -> load h0 r = Some x -> ~ I (fst r) /\ ~ I (n_at x) /\ exists l, nth_error h0 (n_at x) = Some (Ats l).
  Definition all_else (h : heap) (I : nat -> Prop) (a : nat) : Prop := I a \/ List.length h <= a.

  Lemma beside_inv h e x0 I F : beside h e x0 I F -> apart_in h (all_else h I) /\ Inv h (all_else h I) others h F.
  Proof.
    intros [G Bd C R S Ft]. split.
    - intros r x Hr L. destruct (R r Hr) as (y & Ly & _ & N1 & N2 & T & _). assert (y = x) by congruence. subst y. split; [intros [H|H]; [auto|apply load_bound in L; lia]|].
      split; [intros [H|H]; [auto|apply atr_bound in T; lia]|exact T].
    - assert (Bm : forall x, below_F I h F x -> below_F (all_else h I) h F x) by (intros x (A1 & A2 & A3); split; [left; auto|auto]).
      split; [auto|]. split; [|split; [|split; auto]].
      + intros p Hp. destruct (C p Hp) as (Hi & x & L & B & Ia & T). split; [left; auto|]. exists x. split; [auto|]. split; [auto|]. split; [left; auto|auto].
      + intros r Hr. destruct (R r Hr) as (x & L & B & _). exists x, x. split; [auto|]. split; [auto|]. split; [repeat split|]. auto.
  Qed.
  Lemma beside_kept h e x0 I F h' F' : beside h e x0 I F -> Inv h (all_else h I) others h' F' -> both h' e.
  Proof.
    intros B (Len & C & Kp & S1 & S2). destruct (beside_inv _ _ _ _ _ B) as [Ap _]. destruct B as [(L & R & N & Np) Bd _ Rt Sf Ft].
    assert (Fr : forall a, In a (foot h e x0) -> nth_error h' a = nth_error h a).
    { intros a Ha. pose proof (foot_bound _ _ _ R a Ha) as Hb. apply S1; auto; [intros [H|H]; [exact (Ft a Ha H)|lia]|]. intros Hi. apply in_map_iff in Hi. destruct Hi as (r & <- & Hr).
      destruct (Rt r Hr) as (x & _ & _ & _ & _ & _ & Nf & _). auto. }
    destruct (rep_frame e h h' x0 R Fr) as [R' E']. assert (L' : load h' p0 = Some x0).
    { rewrite S2; auto; [eapply load_bound; eauto|]. intros [H|H]; [auto|]. apply load_bound in L. lia. }
    exists x0, (fun a => all_else h I a /\ a < List.length h'), F'. constructor.
    - split; [auto|]. split; [auto|]. rewrite E'. auto.
    - intros a [_ H]. auto.
    - intros p Hp. destruct (C p Hp) as (Hi & x & Lx & (B1 & B2 & B3) & Ia & T). split; [split; [auto|eapply load_bound; eauto]|]. exists x. split; [auto|].
      split; [split; [split; [auto|apply els_bound; auto]|auto]|]. split; [split; [auto|apply atr_bound; auto]|auto].
    - intros r Hr. destruct (Kp r Hr) as (y & x & Ly & Lx & (E1 & E2 & E3 & E4) & Ea & (B1 & B2 & B3)). destruct (Rt r Hr) as (y' & Ly' & _ & N1 & N2 & T & N3 & N4). assert (y' = y) by congruence. subst y'.
      destruct (Ap r y Hr Ly) as (M1 & M2 & _). exists x. split; [auto|]. split; [split; [split; [auto|apply els_bound; auto]|auto]|]. rewrite E', E2. split; [intros [H _]; auto|]. split; [intros [H _]; auto|].
      split; [|auto]. unfold atr. rewrite Ea. exact T.
    - intros [[H|H] _]; [auto|]. apply load_bound in L. lia.
    - rewrite E'. intros a Ha [[H|H] _]; [exact (Ft a Ha H)|]. pose proof (foot_bound _ _ _ R a Ha). lia.
  Qed.
  Lemma beside_leaves h h' e e' x0 I F : beside h e x0 I F -> leaves h h' e e' p0 x0 -> both h' e'.
  Proof.
    intros [G Bd C Rt Sf Ft] Lv. destruct (leaves_good _ _ _ _ _ _ G Lv) as (x' & G' & Gr & Sb). pose proof (same_but_frames _ _ _ _ Sb) as (Len & F2 & F3). pose proof G as (L & _).
    assert (Fa : forall a, I a -> nth_error h' a = nth_error h a).
    { intros a Ha. destruct Sb as (_ & X & _). apply X; auto; [intros H; exact (Ft a H Ha)|]. intros ->. auto. }
    assert (Bm : forall x, below_F I h F x -> below_F I h' F x) by (intros x (A1 & (l & A2) & A3); split; [auto|]; split; [exists l; rewrite Fa; auto|auto]).
    assert (Fn : forall a, ~ In a (foot h e x0) -> a < List.length h -> ~ In a (foot h' e' x')) by (intros a Ha Hb Hi; destruct (Gr a Hi); [auto|lia]).
    exists x', I, F. constructor; auto.
    - intros a Ha. specialize (Bd a Ha). lia.
    - intros p Hp. destruct (C p Hp) as (Hi & x & Lx & B & Ia & (l & T)). split; [auto|]. exists x. split; [unfold load, cells in *; rewrite (Fa _ Hi); auto|]. split; [auto|]. split; [auto|]. exists l. rewrite Fa; auto.
    - intros r Hr. destruct (Rt r Hr) as (x & Lx & B & N1 & N2 & T & N3 & N4). exists x. split; [apply F3; auto; intros [<- |[]]; auto|]. split; [auto|]. split; [auto|]. split; [auto|].
      split; [|split; apply Fn; auto; [eapply load_bound; eauto|apply atr_bound; auto]]. destruct T as (l & T). exists l. destruct Sb as (_ & X & l1 & _ & Y & _). rewrite X; auto; [apply nth_error_Some; congruence|]. intros E. rewrite E in T. congruence.
    - intros a Ha Hi. destruct (Gr a Ha) as [H|H]; [exact (Ft a H Hi)|]. specialize (Bd a Hi). lia.
  Qed.

  (* a pass that may do anything to the others *)
  Definition free (f : ptr -> heap -> res heap) : Prop := forall (h0 : heap) (I : nat -> Prop), (forall a, List.length h0 <= a -> I a) -> apart_in h0 I ->
    forall r h F h', Inv h0 I others h F -> In r others -> f r h = Done h' -> goes h0 I others h F h'.
  Lemma others_pass f : free f -> forall rs h h' e, incl rs others -> both h e -> on_each f rs h = Done h' -> both h' e.
  Proof.
    intros Hf rs h h' e Hi (x0 & I & F & B) E. destruct (beside_inv _ _ _ _ _ B) as [Ap V].
    destruct (on_each_goes h (all_else h I) others f (Hf h _ (fun a Ha => or_intror Ha) Ap) rs h F h' Hi V E) as (F' & V' & _). eapply beside_kept; eauto.
  Qed.
  Lemma plain_pass f D R h e h' : pass f D R -> D e -> both h e -> f p0 h = Done h' -> exists e', R e e' /\ both h' e'.
  Proof.
    intros P Hd (x0 & I & F & B) E. destruct (P h e p0 x0 (bs_good _ _ _ _ _ B) Hd) as (h1 & e1 & E1 & R1 & Lv). assert (h1 = h') by congruence. subst h1. exists e1. split; [auto|]. eapply beside_leaves; eauto.
  Qed.
  Lemma on_each_app f l1 l2 h : on_each f (l1 ++ l2) h = bind (on_each f l1 h) (on_each f l2).
  Proof. revert h. induction l1 as [|r l1 IH]; intros h; cbn [app on_each bind]; auto. destruct (f r h); auto. Qed.
  Lemma all_pass f D R l1 l2 h h' e : incl l1 others -> incl l2 others -> free f -> pass f D R -> D e -> both h e -> on_each f (l1 ++ p0 :: l2) h = Done h' -> exists e', R e e' /\ both h' e'.
  Proof.
    intros I1 I2 Hf P Hd B. rewrite on_each_app. destruct (on_each f l1 h) as [h1| |] eqn:E1; cbn [bind]; try discriminate. cbn [on_each]. destruct (f p0 h1) as [h2| |] eqn:E2; try discriminate. intros E3.
    destruct (plain_pass f D R h1 e h2 P Hd (others_pass f Hf _ _ _ _ I1 B E1) E2) as (e' & R' & B'). exists e'. split; [auto|]. exact (others_pass f Hf _ _ _ _ I2 B' E3).
  Qed.
End Both.

Section Among.
  Variables (grow agrow : nat -> nat -> nat) (fuel : nat).
  Lemma defaults_free others : free others (defaults grow agrow fuel).
  Proof.
    intros h0 I Fr Ap r g G g' Vg Hr. unfold defaults, bind, attribute_default_type, element_default_type. destruct (default_type agrow "attribute" _ fuel r g) as [g1| |] eqn:D1; try discriminate.
    destruct (default_goes grow agrow h0 I others Fr Ap _ _ _ _ _ _ _ Vg Hr D1) as (G1 & W1 & Q1). destruct (default_type agrow "element" _ fuel r g1) as [g2| |] eqn:D2; try discriminate.
    destruct (default_goes grow agrow h0 I others Fr Ap _ _ _ _ _ _ _ W1 Hr D2) as (G2 & W2 & Q2). intros H. eapply goes_then; [exact Q1|]. eapply goes_then; [exact Q2|]. eapply copy_goes; eauto.
  Qed.
  Lemma expand_free others : free others (expand_shorthand grow fuel).
  Proof. intros h0 I Fr Ap r g G g' Vg Hr E. eapply shorthand_goes; eauto. Qed.
  Lemma name_app l1 l2 st : name_all grow agrow fuel (l1 ++ l2) st = bind (name_all grow agrow fuel l1 st) (name_all grow agrow fuel l2).
  Proof.
    revert st. induction l1 as [|r l1 IH]; intros st; cbn [app name_all bind]; auto. destruct (name_anonymous grow agrow fuel r st) as [[h n]| |]; auto. destruct (set_choices_optional agrow fuel r h); auto.
  Qed.
  Lemma names_others p0 others rs h n h' n' e : ~ In p0 others -> incl rs others -> both p0 others h e -> name_all grow agrow fuel rs (h, n) = Done (h', n') -> both p0 others h' e.
  Proof.
    intros Np Hi (x0 & I & F & B) E. destruct (beside_inv _ _ _ _ _ _ _ B) as [Ap V].
    destruct (name_all_goes grow agrow h (all_else h I) others (fun a Ha => or_intror Ha) Ap fuel rs h n F h' n' Hi V E) as (F' & V' & _). eapply beside_kept; eauto.
  Qed.
  Lemma names_pass p0 others l1 l2 h n h' n' e : ~ In p0 others -> incl l1 others -> incl l2 others -> height e <= fuel -> named_below e -> both p0 others h e ->
    name_all grow agrow fuel (l1 ++ p0 :: l2) (h, n) = Done (h', n') -> exists e', only_attrs (made_optional e) e e' /\ both p0 others h' e'.
  Proof.
    intros Np I1 I2 Hf Hn B. rewrite name_app. destruct (name_all grow agrow fuel l1 (h, n)) as [[h1 n1]| |] eqn:E1; cbn [bind]; try discriminate. cbn [name_all].
    pose proof (names_others _ _ _ _ _ _ _ _ Np I1 B E1) as B1. pose proof B1 as (x0 & I & F & Bs). pose proof (bs_good _ _ _ _ _ _ _ Bs) as (L & R & _).
    rewrite (name_fixed grow agrow fuel h1 p0 x0 e L R Hf n1 Hn). destruct (set_choices_optional agrow fuel p0 h1) as [h2| |] eqn:E2; try discriminate. intros E3.
    destruct (plain_pass p0 others Np _ _ _ h1 e h2 (optional_pass agrow fuel) Hf B1 E2) as (e' & R' & B'). exists e'. split; [auto|]. exact (names_others _ _ _ _ _ _ _ _ Np I2 B' E3).
  Qed.

  Lemma under_desc h x p : under h x p -> forall e, rep h e x -> exists q d y, descendant e q d /\ load h p = Some y /\ rep h d y.
  Proof.
    induction 1 as [x j Hj|x j z p Hj Lz U IH]; intros e R; rewrite (rep_len h e x R) in Hj; (destruct (nth_error (e_children e) j) as [k|] eqn:Ek; [|apply nth_error_None in Ek; lia]);
      destruct (rep_kid h e x j k R Ek) as (y & Ey & Ry & Ly & _).
    - exists [j], k, y. split; [|auto]. split; [discriminate|]. cbn [sub]. rewrite Ek. reflexivity.
    - assert (y = z) by congruence. subst z. destruct (IH k Ry) as (q & d & w & (_ & A1) & A2 & A3). exists (j :: q), d, w. split; [|auto]. split; [discriminate|]. cbn [sub]. rewrite Ek. exact A1.
  Qed.
  Lemma flatten_both p0 others roots h h' e : (forall r, In r roots -> r = p0 \/ In r others) -> no_refs_below e -> no_groups_below e -> both p0 others h e -> flatten_ref grow agrow fuel roots h = Done h' ->
    exists x', load h' p0 = Some x' /\ rep h' e x'.
  Proof.
    intros Hr Nr Ng (x0 & I & F & [(L & R & N & Np) Bd C Rt Sf Ft]) E. set (K := fun a => In a (foot h e x0)).
    assert (Pc : forall p, under h x0 p -> exists x, load h p = Some x /\ K (fst p) /\ K (n_at x) /\ K (n_arr x) /\ ref_of h x = "" /\ existsb is_group (kids h x) = false).
    { intros p U. destruct (under_desc h x0 p U e R) as (q & d & y & Dd & Ly & Ry). destruct (under_rep h x0 p U e R) as (d' & y' & Ly' & Ry' & Hi & Hp). assert (y' = y) by congruence. subst y'.
      assert (Kf : forall a, In a (foots h (e_children e) (kids h x0)) -> K a) by (intros a Ha; unfold K; rewrite foot_eq; cbn [In]; auto).
      exists y. split; [auto|]. split; [destruct Hp as [-> |Hp]; [unfold K; rewrite foot_eq; cbn [In]; auto|auto]|]. rewrite foot_eq in Hi. split; [apply Kf, Hi; cbn [In]; auto|]. split; [apply Kf, Hi; cbn [In]; auto|].
      unfold ref_of. rewrite (rep_attr h d y _ Ry). split; [exact (Nr q d Dd)|]. destruct (existsb is_group (kids h y)) eqn:Eg; auto. apply existsb_exists in Eg. destruct Eg as (z & Hz & Eg).
      apply In_nth_error in Hz. destruct Hz as (i & Hz). destruct (rep_kid_at h d y i z Ry Hz) as (k & Ek & Rk). destruct (Ng q d k Dd (nth_error_In _ _ Ek)) as (G1 & G2). unfold is_group in Eg. rewrite !(rep_is h k z _ Rk) in Eg.
      apply orb_true_iff in Eg. rewrite !xname_eqb_eq in Eg. destruct Eg; contradiction. }
    assert (S : Still h K (under h x0) p0 roots x0 h (fun p => under h x0 p \/ F p)).
    { split; [auto|]. split; [auto|]. split; [auto|]. split.
      - intros p [U|Hf].
        + destruct (Pc p U) as (x & Lx & Kp & _). split; [intros ->; exact (Np Kp)|]. split; [auto|]. exists x. split; [auto|]. intros i Hi. left. eapply under_next; eauto.
        + destruct (C p Hf) as (Hi & x & Lx & (_ & _ & B) & _). split; [intros ->; auto|]. split; [right; intros Hk; exact (Ft _ Hk Hi)|]. exists x. split; [auto|]. intros i Hl. right. auto.
      - intros r Hin. destruct (Hr r Hin) as [-> |Ho].
        + exists x0. split; [auto|]. intros i Hi. left. constructor. auto.
        + destruct (Rt r Ho) as (x & Lx & (_ & _ & B) & _). exists x. split; [auto|]. intros i Hi. right. auto. }
    destruct (flatten_still grow agrow h K (under h x0) p0 roots x0) with (fuel := fuel) (h := h) (G := fun p => under h x0 p \/ F p) (h' := h') as (G' & (_ & A & B & _) & _); auto.
    { intros a Ha. eapply foot_bound; eauto. }
    exists x0. split; [auto|]. exact (proj1 (rep_frame e h h' x0 R A)).
  Qed.

  Lemma start_both h l1 p0 l2 es : stands h (l1 ++ p0 :: l2) es -> exists e es1 es2, es = (es1 ++ e :: es2)%list /\ List.length es1 = List.length l1 /\ ~ In p0 (l1 ++ l2) /\ both p0 (l1 ++ l2) h e.
  Proof.
    intros (xs & L & B & Nr & Nf & Np). apply Forall2_app_inv_l in L. destruct L as (xs1 & xs' & L1 & L' & ->). inversion L' as [|? x0 ? xs2 L0 L2]; subst.
    apply Forall2_app_inv_r in B. destruct B as (es1 & es' & B1 & B' & ->). inversion B' as [|e ? es2 ? R0 B2]; subst. exists e, es1, es2. split; [auto|].
    split; [rewrite (Forall2_len _ _ _ B1); symmetry; eapply Forall2_len; eauto|]. pose proof (NoDup_remove_2 _ _ _ Nr) as N0. split; [auto|].
    assert (Le : List.length es1 = List.length xs1) by (eapply Forall2_len; eauto).
    assert (Ef : forall a, In a (foots h (es1 ++ e :: es2) (xs1 ++ x0 :: xs2)) <-> In a (foot h e x0) \/ In a (foots h (es1 ++ es2) (xs1 ++ xs2))).
    { intros a. assert (X : forall ds ys, List.length ds = List.length ys -> forall ds' ys', foots h (ds ++ ds') (ys ++ ys') = (foots h ds ys ++ foots h ds' ys')%list).
      { clear. induction ds as [|d ds IH]; intros [|y ys] H ds' ys'; try discriminate; cbn [app foots]; auto. rewrite IH by (cbn in H; lia). rewrite app_assoc. reflexivity. }
      rewrite !X by auto. cbn [foots]. rewrite !in_app_iff. tauto. }
    assert (N' : NoDup (foot h e x0 ++ foots h (es1 ++ es2) (xs1 ++ xs2))).
    { assert (X : forall ds ys, List.length ds = List.length ys -> forall ds' ys', foots h (ds ++ ds') (ys ++ ys') = (foots h ds ys ++ foots h ds' ys')%list).
      { clear. induction ds as [|d ds IH]; intros [|y ys] H ds' ys'; try discriminate; cbn [app foots]; auto. rewrite IH by (cbn in H; lia). rewrite app_assoc. reflexivity. }
      rewrite X in Nf by auto. rewrite X by auto. cbn [foots] in Nf. eapply Permutation.Permutation_NoDup; [|exact Nf]. rewrite !app_assoc. apply Permutation.Permutation_app_tail. apply Permutation.Permutation_app_comm. }
    destruct (nodup_app_inv _ _ N') as (N1 & N2 & N3).
    assert (Lo : Forall2 (fun p x => load h p = Some x) (l1 ++ l2) (xs1 ++ xs2)) by (apply Forall2_app; auto). assert (Bo : Forall2 (rep h) (es1 ++ es2) (xs1 ++ xs2)) by (apply Forall2_app; auto).
    assert (Npo : forall p, In p (l1 ++ l2) -> ~ In (fst p) (foots h (es1 ++ es2) (xs1 ++ xs2))) by (intros p Hp H; apply (Np p); [apply in_app_or in Hp; apply in_or_app; cbn [In]; tauto|apply Ef; auto]).
    assert (Npf : forall p, In p (l1 ++ p0 :: l2) -> ~ In (fst p) (foot h e x0)) by (intros p Hp H; apply (Np p Hp); apply Ef; auto).
    pose proof (start_inv h (l1 ++ l2) _ _ Lo Bo) as (_ & C & Kp & _). set (I := inner h (es1 ++ es2) (xs1 ++ xs2)) in *. set (F := Fin h (es1 ++ es2) (xs1 ++ xs2)) in *.
    pose proof (apart_ok h (l1 ++ l2) _ _ Lo Bo N2 Npo) as Ap. fold I in Ap.
    exists x0, (fun a => I a /\ a < List.length h), F. constructor.
    - split; [auto|]. split; [auto|]. split; [auto|]. apply Npf. apply in_or_app. cbn [In]. auto.
    - intros a [_ H]. auto.
    - intros p Hp. destruct (C p Hp) as (Hi & x & Lx & (B3 & B4 & B5) & Ia & T). split; [split; [auto|eapply load_bound; eauto]|]. exists x. split; [auto|].
      split; [split; [split; [auto|apply els_bound; auto]|auto]|]. split; [split; [auto|apply atr_bound; auto]|auto].
    - intros r Hr. destruct (Kp r Hr) as (y & x & Ly & Lx & _ & _ & (B3 & B4 & B5)). destruct (Ap r x Hr Lx) as (M1 & M2 & T). exists x. split; [auto|]. split; [split; [split; [auto|apply els_bound; auto]|auto]|].
      split; [intros [H _]; auto|]. split; [intros [H _]; auto|]. split; [exact T|]. split; [apply Npf; apply in_app_or in Hr; apply in_or_app; cbn [In]; tauto|].
      destruct (root_elem h (l1 ++ l2) _ _ Lo Bo r x Hr Lx) as (d & Hz & Rd). intros H. apply (N3 (n_at x) H). eapply foots_zip; eauto. rewrite foot_eq. left. auto.
    - intros [H Hl]. apply (Np p0); [apply in_or_app; cbn [In]; auto|]. apply Ef. right. apply inner_foot; auto.
    - intros a Ha [H Hl]. apply (N3 a Ha). apply inner_foot; auto.
  Qed.

  Lemma among h l1 p0 l2 es1 e es2 h' : stands h (l1 ++ p0 :: l2) (es1 ++ e :: es2) -> List.length es1 = List.length l1 -> 3 * height e <= fuel -> plain e ->
    normalize grow agrow fuel (l1 ++ p0 :: l2) h = Done h' -> exists e2 x', prepared e e2 /\ load h' p0 = Some x' /\ rep h' (below expand_el e2) x' /\ height (below expand_el e2) <= fuel /\ normal (below expand_el e2).
  Proof.
    intros St Le Hh P. destruct (start_both h l1 p0 l2 _ St) as (e' & es1' & es2' & Ee & Le' & N0 & B). assert (e' = e).
    { assert (X : nth_error (es1 ++ e :: es2) (List.length l1) = Some e) by (rewrite <- Le, nth_error_app2, Nat.sub_diag by lia; reflexivity). rewrite Ee, <- Le', nth_error_app2, Nat.sub_diag in X by lia. injection X as ->. auto. }
    subst e'. clear Ee es1' es2' Le'. assert (I1 : incl l1 (l1 ++ l2)) by (apply incl_appl, incl_refl). assert (I2 : incl l2 (l1 ++ l2)) by (apply incl_appr, incl_refl).
    unfold normalize, bind. destruct (on_each (defaults grow agrow fuel) _ h) as [h1| |] eqn:E1; try discriminate.
    destruct (all_pass p0 (l1 ++ l2) N0 _ _ _ l1 l2 h h1 e I1 I2 (defaults_free _) (defaults_plain grow agrow fuel) (conj (ltac:(lia) : height e <= fuel) P) B E1) as (e1 & R1 & B1).
    assert (H1 : height e1 = height e) by (exact (only_attrs_height agrow _ _ _ R1)).
    assert (P1 : plain e1) by (apply (changed_plain _ e e1 (defaulted_changed e e1 R1)); auto; discriminate). pose proof (defaulted_typed e e1 (pl_scope e P) R1) as T1.
    destruct (name_all grow agrow fuel _ (h1, 0)) as [[h2 n2]| |] eqn:E2; try discriminate. cbn [fst].
    destruct (names_pass p0 (l1 ++ l2) l1 l2 h1 0 h2 n2 e1 N0 I1 I2) as (e2 & R2 & B2); auto; [lia|exact (pl_named e1 P1)|].
    assert (H2 : height e2 = height e1) by (exact (only_attrs_height agrow _ _ _ R2)). pose proof (optional_changed e1 e2 R2) as Ch.
    assert (P2 : plain e2) by (apply (changed_plain _ e1 e2 Ch); auto; discriminate). assert (T2 : typed_below e2) by (apply (changed_typed _ e1 e2 Ch); auto; discriminate). pose proof (optional_choices e1 e2 R2) as C2.
    destruct (on_each (expand_shorthand grow fuel) _ h2) as [h3| |] eqn:E3; try discriminate.
    destruct (all_pass p0 (l1 ++ l2) N0 _ _ _ l1 l2 h2 h3 e2 I1 I2 (expand_free _) (expand_pass grow fuel)) as (e3 & -> & B3); auto.
    { split; [lia|]. rewrite (pl_schema e2 P2). discriminate. }
    pose proof (expanded_normal e2 P2 T2 C2) as Nm. intros E4. destruct (flatten_both p0 (l1 ++ l2) (l1 ++ p0 :: l2) h3 h' (below expand_el e2)) as (x' & L' & R'); auto.
    - intros r Hr. apply in_app_or in Hr. cbn [In] in Hr. rewrite in_app_iff. intuition.
    - exact (nf_refs _ Nm).
    - exact (nf_groups _ Nm).
    - exists e2, x'. split; [exists e1; auto|]. split; [auto|]. split; [auto|]. split; [|auto]. pose proof (below_height e2 (pl_flat e2 P2)). lia.
  Qed.
End Among.
