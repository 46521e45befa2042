(* Normalize never changes a root but for its children and content: name, attributes and scope stay.
   This holds of all schemas, whatever references, groups and anonymous types they have. *)
From Verif Require Import Base ScopeModel TreeModel TreeProofs GraphModel BuiltinModel XsdModel XsdProofs NormModel NormMem NormAttr.
Local Open Scope string_scope.

Section Keep.
  Variables grow agrow : nat -> nat -> nat.
  (* the memory at the start; the arrays below the roots, and all new ones *)
  Variable h0 : heap.
  Variable I : nat -> Prop.
  Variable roots : list ptr.
  Hypothesis fresh : forall a, List.length h0 <= a -> I a.
  Hypothesis apart : forall r x, In r roots -> load h0 r = Some x -> ~ I (fst r) /\ ~ I (n_at x) /\ exists l, nth_error h0 (n_at x) = Some (Ats l).

  Definition els (h : heap) (a : nat) : Prop := exists l, nth_error h a = Some (Els l).
  Definition atr (h : heap) (a : nat) : Prop := exists l, nth_error h a = Some (Ats l).
  (* F: the cells below the roots, and those that were *)
  Definition below_F (h : heap) (F : ptr -> Prop) (x : node) : Prop := I (n_arr x) /\ els h (n_arr x) /\ forall i, i < n_len x -> F (n_arr x, i).
  Definition fit (h : heap) (F : ptr -> Prop) (x : node) : Prop := below_F h F x /\ I (n_at x) /\ atr h (n_at x).
  Definition closed (h : heap) (F : ptr -> Prop) : Prop := forall p, F p -> I (fst p) /\ exists x, load h p = Some x /\ fit h F x.
  Definition same_root (x0 x : node) : Prop := n_name x = n_name x0 /\ n_at x = n_at x0 /\ n_alen x = n_alen x0 /\ n_scope x = n_scope x0.
  Definition kept (h : heap) (F : ptr -> Prop) (r : ptr) : Prop :=
    exists x0 x, load h0 r = Some x0 /\ load h r = Some x /\ same_root x0 x /\ nth_error h (n_at x0) = nth_error h0 (n_at x0) /\ below_F h F x.
  (* nothing else is touched *)
  Definition spared (h : heap) : Prop :=
    (forall a, a < List.length h0 -> ~ I a -> ~ In a (map fst roots) -> nth_error h a = nth_error h0 a) /\
    (forall p, fst p < List.length h0 -> ~ I (fst p) -> ~ In p roots -> load h p = load h0 p).
  Definition Inv (h : heap) (F : ptr -> Prop) : Prop := List.length h0 <= List.length h /\ closed h F /\ (forall r, In r roots -> kept h F r) /\ spared h.
  Definition pres (h : heap) (F : ptr -> Prop) (h' : heap) (F' : ptr -> Prop) : Prop :=
    (forall a, els h a -> els h' a) /\ (forall a, atr h a -> atr h' a) /\ forall p, F p -> F' p.

  Lemma pres_refl h F : pres h F h F.
  Proof. repeat split; auto. Qed.
  Lemma pres_trans h F h1 F1 h2 F2 : pres h F h1 F1 -> pres h1 F1 h2 F2 -> pres h F h2 F2.
  Proof. intros (A & B & C) (A' & B' & C'). repeat split; auto. Qed.
  Lemma below_mono h F h' F' x : pres h F h' F' -> below_F h F x -> below_F h' F' x.
  Proof. intros (A & B & C) (D1 & D2 & D3). repeat split; auto. Qed.
  Lemma fit_mono h F h' F' x : pres h F h' F' -> fit h F x -> fit h' F' x.
  Proof. intros P (D & D1 & D2). split; [eapply below_mono; eauto|]. split; [auto|]. destruct P as (_ & B & _). auto. Qed.
  Lemma inv_cell h F p : Inv h F -> F p -> I (fst p) /\ exists x, load h p = Some x /\ fit h F x.
  Proof. intros (_ & C & _) H. exact (C p H). Qed.
  Lemma inv_load h F p x : Inv h F -> F p -> load h p = Some x -> fit h F x.
  Proof. intros C H L. destruct (inv_cell _ _ _ C H) as (_ & y & L' & G). congruence. Qed.
  Lemma inv_root h F r x : Inv h F -> In r roots -> load h r = Some x -> below_F h F x.
  Proof. intros (_ & _ & C & _) H L. destruct (C r H) as (x0 & y & _ & L' & _ & _ & B). congruence. Qed.
  Lemma kids_cell h x i y : nth_error (kids h x) i = Some y -> i < n_len x /\ load h (n_arr x, i) = Some y.
  Proof.
    unfold kids, load. cbn [fst snd]. intros E. assert (i < n_len x).
    { assert (i < List.length (firstn (n_len x) (cells h (n_arr x)))) by (apply nth_error_Some; congruence). rewrite firstn_length in H. lia. }
    split; [auto|]. rewrite <- E. symmetry. revert E. generalize (cells h (n_arr x)), (n_len x), H. clear. intros l n H _. revert l n H.
    induction i as [|i IH]; intros [|z l] [|n] H; cbn [firstn nth_error]; auto; try lia. apply IH. lia.
  Qed.
  Lemma kids_fit h F x : Inv h F -> below_F h F x -> Forall (fit h F) (kids h x).
  Proof.
    intros V (_ & _ & K). apply Forall_forall. intros y Hy. apply In_nth_error in Hy. destruct Hy as (i & Hy). apply kids_cell in Hy. destruct Hy as (L & Hy).
    exact (inv_load _ _ _ _ V (K i L) Hy).
  Qed.
  Lemma old_ats r x0 : In r roots -> load h0 r = Some x0 -> ~ I (n_at x0) /\ atr h0 (n_at x0) /\ n_at x0 < List.length h0.
  Proof. intros H L. destruct (apart r x0 H L) as (_ & A & l & E). split; [auto|]. split; [exists l; auto|]. apply nth_error_Some. congruence. Qed.

  (* ---------- new arrays ---------- *)
  Lemma snoc_els h x a : els h a -> els (h ++ [x])%list a.
  Proof. intros (l & E). exists l. rewrite snoc_old; auto. apply nth_error_Some. congruence. Qed.
  Lemma snoc_atr h x a : atr h a -> atr (h ++ [x])%list a.
  Proof. intros (l & E). exists l. rewrite snoc_old; auto. apply nth_error_Some. congruence. Qed.
  Lemma snoc_load' h x p y : load h p = Some y -> load (h ++ [x])%list p = Some y.
  Proof. intros L. rewrite snoc_load; auto. eapply load_bound; eauto. Qed.
  Lemma snoc_inv h F x (F' : ptr -> Prop) : Inv h F -> (forall p, F p -> F' p) -> (forall p, F' p -> F p \/ I (fst p) /\ exists y, load (h ++ [x])%list p = Some y /\ fit (h ++ [x])%list F' y) ->
    Inv (h ++ [x])%list F' /\ pres h F (h ++ [x])%list F'.
  Proof.
    intros (L & C & K & (S1 & S2)) M N. assert (P : pres h F (h ++ [x])%list F') by (split; [|split]; auto using snoc_els, snoc_atr). split; [|exact P]. split; [rewrite app_length; lia|]. split; [|split; [|split]].
    - intros p Hp. destruct (N p Hp) as [H|H]; [|exact H]. destruct (C p H) as (Hi & y & Ly & G). split; [auto|]. exists y. split; [apply snoc_load'; auto|]. eapply fit_mono; eauto.
    - intros r Hr. destruct (K r Hr) as (x0 & y & L0 & L1 & S & E & B). exists x0, y. split; [auto|]. split; [apply snoc_load'; auto|]. split; [auto|]. split; [|eapply below_mono; eauto].
      destruct (old_ats r x0 Hr L0) as (_ & _ & Hb). rewrite snoc_old by lia. exact E.
    - intros a Ha Hi Hn. rewrite snoc_old by lia. auto.
    - intros p Ha Hi Hn. rewrite snoc_load by lia. auto.
  Qed.
  Lemma alloc_ats_inv h F l c : Inv h F -> let (h', a) := alloc_ats h l c in Inv h' F /\ pres h F h' F /\ I a /\ atr h' a.
  Proof.
    intros V. unfold alloc_ats. destruct (snoc_inv h F (Ats (l ++ repeat zero_attr (c - List.length l))%list) F V) as [V' P]; auto. split; [auto|]. split; [auto|].
    split; [apply fresh; exact (proj1 V)|]. eexists. apply snoc_new.
  Qed.
  Definition more (F : ptr -> Prop) (a n : nat) (p : ptr) : Prop := F p \/ fst p = a /\ snd p < n.
  Lemma alloc_inv h F l c : Inv h F -> Forall (fit h F) l -> let (h', a) := alloc h l c in
    Inv h' (more F a (List.length l)) /\ pres h F h' (more F a (List.length l)) /\ I a /\ els h' a.
  Proof.
    intros V G. unfold alloc. set (x := Els _). assert (A : I (List.length h)) by (apply fresh; exact (proj1 V)).
    assert (P : pres h F (h ++ [x])%list (more F (List.length h) (List.length l))). { split; [|split]; auto using snoc_els, snoc_atr. intros p Hp. left. auto. }
    destruct (snoc_inv h F x (more F (List.length h) (List.length l)) V) as [V' _].
    - intros p Hp. left. auto.
    - intros p [Hp|[Hp Hi]]; [left; auto|right]. rewrite Hp. split; [auto|]. destruct (nth_error l (snd p)) as [y|] eqn:E; [|apply nth_error_None in E; lia].
      exists y. split.
      + unfold load, cells. rewrite Hp, snoc_new. unfold x. rewrite nth_error_app1 by auto. exact E.
      + eapply fit_mono; eauto. rewrite Forall_forall in G. apply G. eapply nth_error_In; eauto.
    - split; [auto|]. split; [auto|]. split; [auto|]. eexists. apply snoc_new.
  Qed.

  (* ---------- writing ---------- *)
  Lemma set_arr (h : heap) a y b : a < List.length h -> nth_error (set_nth a y h) b = if Nat.eqb b a then Some y else nth_error h b.
  Proof. intros H. apply nth_error_set_nth. auto. Qed.
  Lemma els_bound h a : els h a -> a < List.length h.
  Proof. intros (l & E). apply nth_error_Some. congruence. Qed.
  Lemma atr_bound h a : atr h a -> a < List.length h.
  Proof. intros (l & E). apply nth_error_Some. congruence. Qed.
  Lemma atr_not_els h a : atr h a -> els h a -> False.
  Proof. intros (l & E) (m & E'). congruence. Qed.
  (* an array of attributes below the roots *)
  Lemma ats_inv h F a l : Inv h F -> I a -> atr h a -> Inv (set_nth a (Ats l) h) F /\ pres h F (set_nth a (Ats l) h) F.
  Proof.
    intros (L & C & K & (S1 & S2)) Ha T. pose proof (atr_bound _ _ T) as Hb.
    assert (Ld : forall p, load (set_nth a (Ats l) h) p = load h p).
    { intros p. unfold load, cells. rewrite set_arr by auto. destruct (Nat.eqb (fst p) a) eqn:E; auto. apply Nat.eqb_eq in E. destruct T as (m & E'). rewrite E, E'. reflexivity. }
    assert (P : pres h F (set_nth a (Ats l) h) F).
    { split; [|split]; auto; intros b (m & E); unfold els, atr; rewrite set_arr by auto; destruct (Nat.eqb b a) eqn:Eb; eauto. apply Nat.eqb_eq in Eb. subst b. destruct (atr_not_els h a T); exists m; auto. }
    split; [|exact P]. split; [rewrite set_nth_length; auto|]. split; [|split; [|split]].
    - intros p Hp. destruct (C p Hp) as (Hi & y & Ly & G). split; [auto|]. exists y. rewrite Ld. split; [auto|]. eapply fit_mono; eauto.
    - intros r Hr. destruct (K r Hr) as (x0 & y & L0 & L1 & S & E & B). exists x0, y. rewrite Ld. split; [auto|]. split; [auto|]. split; [auto|]. split; [|eapply below_mono; eauto].
      destruct (old_ats r x0 Hr L0) as (Hn & _). rewrite set_arr by auto. destruct (Nat.eqb (n_at x0) a) eqn:Eb; auto. apply Nat.eqb_eq in Eb. congruence.
    - intros b Hlt Hi Hn. rewrite set_arr by auto. destruct (Nat.eqb b a) eqn:Eb; [apply Nat.eqb_eq in Eb; congruence|auto].
    - intros p Hlt Hi Hn. rewrite Ld. auto.
  Qed.
  (* an array of cells below the roots: new cells come from old ones *)
  Lemma els_inv h F (F' : ptr -> Prop) a l : Inv h F -> I a -> els h a -> (forall p, F p -> F' p) ->
    (forall p, F' p -> fst p <> a -> F p) ->
    (forall i, F' (a, i) -> exists y, nth_error l i = Some y /\ fit h F y) ->
    Inv (set_nth a (Els l) h) F' /\ pres h F (set_nth a (Els l) h) F'.
  Proof.
    intros (L & C & K & (S1 & S2)) Ha T M Mo N. pose proof (els_bound _ _ T) as Hb.
    assert (Ld : forall p, fst p <> a -> load (set_nth a (Els l) h) p = load h p).
    { intros p Hp. unfold load, cells. rewrite set_arr by auto. destruct (Nat.eqb (fst p) a) eqn:E; auto. apply Nat.eqb_eq in E. contradiction. }
    assert (P : pres h F (set_nth a (Els l) h) F').
    { split; [|split]; auto; intros b (m & E); unfold els, atr; rewrite set_arr by auto; destruct (Nat.eqb b a) eqn:Eb; eauto. apply Nat.eqb_eq in Eb. subst b. destruct (atr_not_els h a); [exists m; auto|auto]. }
    split; [|exact P]. split; [rewrite set_nth_length; auto|]. split; [|split; [|split]].
    - intros p Hp. destruct (Nat.eq_dec (fst p) a) as [E|E].
      + destruct p as [b i]. cbn [fst] in *. subst b. split; [auto|]. destruct (N i Hp) as (y & Ey & G). exists y. split; [|eapply fit_mono; eauto].
        unfold load, cells. cbn [fst snd]. rewrite set_arr, Nat.eqb_refl by auto. exact Ey.
      + destruct (C p (Mo p Hp E)) as (Hi & y & Ly & G). split; [auto|]. exists y. rewrite Ld by auto. split; [auto|]. eapply fit_mono; eauto.
    - intros r Hr. destruct (K r Hr) as (x0 & y & L0 & L1 & S & E & B). destruct (apart r x0 Hr L0) as (Hn & Hn' & _).
      exists x0, y. rewrite Ld by congruence. split; [auto|]. split; [auto|]. split; [auto|]. split; [|eapply below_mono; eauto].
      rewrite set_arr by auto. destruct (Nat.eqb (n_at x0) a) eqn:Eb; auto. apply Nat.eqb_eq in Eb. congruence.
    - intros b Hlt Hi Hn. rewrite set_arr by auto. destruct (Nat.eqb b a) eqn:Eb; [apply Nat.eqb_eq in Eb; congruence|auto].
    - intros p Hlt Hi Hn. rewrite Ld by congruence. auto.
  Qed.
  Definition plus (F : ptr -> Prop) (q p : ptr) : Prop := F p \/ p = q.
  Lemma put_new h F q x y : Inv h F -> I (fst q) -> load h q = Some y -> fit h F x -> Inv (put h q x) (plus F q) /\ pres h F (put h q x) (plus F q).
  Proof.
    intros V Ha L G. destruct (load_array _ _ _ L) as (l & E & Ey). unfold put. rewrite (cells_ok _ _ _ E). apply els_inv; auto.
    - exists l. auto.
    - intros p Hp. left. auto.
    - intros p [Hp|Hp] Hn; auto. subst p. contradiction.
    - intros i Hi. assert (Hl : snd q < List.length l) by (apply nth_error_Some; congruence). rewrite nth_error_set_nth by auto. destruct (Nat.eqb i (snd q)) eqn:Ei; [eauto|].
      destruct Hi as [Hi|Hi]; [|rewrite <- Hi in Ei; cbn [snd] in Ei; rewrite Nat.eqb_refl in Ei; discriminate].
      destruct (inv_cell _ _ _ V Hi) as (_ & z & Lz & Gz). exists z. split; [|auto]. unfold load in Lz. cbn [fst snd] in Lz. rewrite (cells_ok _ _ _ E) in Lz. exact Lz.
  Qed.
  Lemma put_inv h F p x : Inv h F -> F p -> fit h F x -> Inv (put h p x) F /\ pres h F (put h p x) F.
  Proof.
    intros V Hp G. destruct (inv_cell _ _ _ V Hp) as (Ha & y & L & _). destruct (load_array _ _ _ L) as (l & E & Ey). unfold put. rewrite (cells_ok _ _ _ E). apply els_inv; auto.
    - exists l. auto.
    - intros i Hi. assert (Hl : snd p < List.length l) by (apply nth_error_Some; congruence). rewrite nth_error_set_nth by auto. destruct (Nat.eqb i (snd p)) eqn:Ei; [eauto|].
      destruct (inv_cell _ _ _ V Hi) as (_ & z & Lz & Gz). exists z. split; [|auto]. unfold load in Lz. cbn [fst snd] in Lz. rewrite (cells_ok _ _ _ E) in Lz. exact Lz.
  Qed.
  Lemma put_root h F r x y : Inv h F -> In r roots -> load h r = Some y -> same_root y x -> below_F h F x -> Inv (put h r x) F /\ pres h F (put h r x) F.
  Proof.
    intros (L & C & K & (S1 & S2)) Hr Ly S B. destruct (load_array _ _ _ Ly) as (l & E & Ey). assert (Hb : fst r < List.length h) by (eapply load_bound; eauto).
    destruct (K r Hr) as (x0 & y' & L0 & L1 & S0 & E0 & B0). assert (y' = y) by congruence. subst y'. destruct (apart r x0 Hr L0) as (Hn & _).
    assert (P : pres h F (put h r x) F).
    { split; [|split]; auto; intros b (m & Eb); unfold els, atr, put; rewrite set_arr by auto; destruct (Nat.eqb b (fst r)) eqn:Er; eauto. apply Nat.eqb_eq in Er. congruence. }
    assert (Ld : forall p, p <> r -> load (put h r x) p = load h p).
    { intros p Hp. unfold load, put. unfold cells at 1. rewrite set_arr by auto. destruct (Nat.eqb (fst p) (fst r)) eqn:Er; auto. apply Nat.eqb_eq in Er.
      rewrite Er. rewrite set_nth_other; auto. intros Hs. apply Hp. destruct p, r; cbn [fst snd] in *; congruence. }
    split; [|exact P]. split; [rewrite put_length; auto|]. split; [|split; [|split]].
    - intros p Hp. destruct (C p Hp) as (Hi & z & Lz & G). split; [auto|]. exists z. rewrite Ld by (intros ->; auto). split; [auto|]. eapply fit_mono; eauto.
    - intros r' Hr'. destruct (K r' Hr') as (z0 & z & M0 & M1 & M2 & M3 & M4). assert (Nat.eqb (n_at z0) (fst r) = false).
      { apply Nat.eqb_neq. intros Heq. destruct (old_ats r' z0 Hr' M0) as (_ & (m & Em) & _). rewrite <- M3, Heq in Em. congruence. }
      assert (Ez : nth_error (put h r x) (n_at z0) = nth_error h (n_at z0)). { unfold put. rewrite set_arr by auto. rewrite H. reflexivity. }
      destruct (ptr_eqb r' r) eqn:Er.
      + assert (r' = r). { unfold ptr_eqb in Er. apply andb_prop in Er. destruct Er as [E1 E2]. apply Nat.eqb_eq in E1, E2. destruct r', r; cbn [fst snd] in *; congruence. }
        subst r'. exists z0, x. split; [auto|]. split; [eapply load_put; eauto|]. split.
        * assert (z = y) by congruence. subst z. destruct M2 as (A1 & A2 & A3 & A4), S as (B1 & B2 & B3 & B4). repeat split; congruence.
        * split; [congruence|]. eapply below_mono; eauto.
      + exists z0, z. split; [auto|]. rewrite Ld; [|intros ->; unfold ptr_eqb in Er; rewrite !Nat.eqb_refl in Er; discriminate]. split; [auto|]. split; [auto|]. split; [congruence|]. eapply below_mono; eauto.
    - intros b Hlt Hi Hm. unfold put. rewrite set_arr by auto. destruct (Nat.eqb b (fst r)) eqn:Eb; [|auto]. apply Nat.eqb_eq in Eb. subst b. destruct Hm. apply in_map. auto.
    - intros p Hlt Hi Hm. rewrite Ld by (intros ->; auto). auto.
  Qed.

  (* ---------- steps ---------- *)
  Definition goes (h : heap) (F : ptr -> Prop) (h' : heap) : Prop := exists F', Inv h' F' /\ pres h F h' F'.
  Lemma goes_refl h F : Inv h F -> goes h F h.
  Proof. intros V. exists F. split; [auto|apply pres_refl]. Qed.
  Lemma goes_then h F h1 F1 h2 : pres h F h1 F1 -> goes h1 F1 h2 -> goes h F h2.
  Proof. intros P (F2 & V & P2). exists F2. split; [auto|]. eapply pres_trans; eauto. Qed.
  Lemma each_goes f : (forall h F p, Inv h F -> F p -> goes h F (f h p)) -> forall ps h F, Inv h F -> Forall F ps -> goes h F (each f h ps).
  Proof.
    intros Hf. induction ps as [|p ps IH]; intros h F V Hp; cbn [each]; [apply goes_refl; auto|]. inversion Hp as [|? ? H1 H2]; subst. destruct (Hf h F p V H1) as (F1 & V1 & P1).
    eapply goes_then; [exact P1|]. apply IH; [auto|]. eapply Forall_impl; [|exact H2]. apply P1.
  Qed.
  Lemma mapo_in {A B} (f : A -> option B) : forall l m, mapo f l = Some m -> forall b, In b m -> exists a, In a l /\ f a = Some b.
  Proof.
    induction l as [|a l IH]; cbn [mapo]; intros m H b Hb; [injection H as <-; destruct Hb|]. destruct (f a) as [y|] eqn:E; [|discriminate]. destruct (mapo f l) as [ys|]; [|discriminate].
    injection H as <-. destruct Hb as [<- |Hb]; [exists a; split; [left; auto|auto]|]. destruct (IH ys eq_refl b Hb) as (a' & Ha & E'). exists a'. split; [right; auto|auto].
  Qed.
  Lemma search_ptr_F fn h F : Inv h F -> forall fuel p ps, F p -> search_ptr fuel h fn p = Some ps -> Forall F ps.
  Proof.
    intros V. induction fuel as [|fuel IH]; intros p ps Hp; cbn [search_ptr]; [discriminate|]. destruct (load h p) as [x|] eqn:L; [|discriminate].
    destruct (mapo _ _) as [ls|] eqn:E; [|discriminate]. intros H. injection H as <-. destruct (inv_load _ _ _ _ V Hp L) as ((_ & _ & K) & _).
    apply Forall_app. split; [destruct (fn h x); auto|]. apply Forall_forall. intros q Hq. apply in_concat in Hq. destruct Hq as (l & Hl & Hq).
    destruct (mapo_in _ _ _ E l Hl) as (i & Hi & Ei). apply in_seq in Hi. specialize (IH _ _ (K i (proj2 Hi)) Ei). rewrite Forall_forall in IH. auto.
  Qed.
  Lemma search_F fn h F fuel r ps : Inv h F -> In r roots -> search_heap fuel h fn r = Some ps -> Forall F ps.
  Proof.
    intros V Hr. unfold search_heap. destruct (load h r) as [x|] eqn:L; [|discriminate]. destruct (mapo _ _) as [ls|] eqn:E; [|discriminate]. intros H. injection H as <-.
    destruct (inv_root _ _ _ _ V Hr L) as (_ & _ & K). apply Forall_forall. intros q Hq. apply in_concat in Hq. destruct Hq as (l & Hl & Hq).
    destruct (mapo_in _ _ _ E l Hl) as (i & Hi & Ei). apply in_seq in Hi. pose proof (search_ptr_F fn h F V fuel _ _ (K i (proj2 Hi)) Ei) as IH. rewrite Forall_forall in IH. auto.
  Qed.
  Lemma n_set_attr_inv h F x l v : Inv h F -> fit h F x -> let (h', x') := n_set_attr agrow h x l v in Inv h' F /\ pres h F h' F /\ fit h' F x'.
  Proof.
    intros V (B & Ha & T). unfold n_set_attr. destruct (Nat.leb _ _).
    - destruct (ats_inv h F (n_at x) (attr_set (n_attrs h x) "" l v ++ skipn (List.length (attr_set (n_attrs h x) "" l v)) (ats h (n_at x)))%list V Ha T) as [V' P].
      split; [auto|]. split; [auto|]. split; [eapply below_mono; eauto|]. cbn [with_ats n_at]. split; [auto|]. apply P. auto.
    - pose proof (alloc_ats_inv h F (attr_set (n_attrs h x) "" l v) (agrow (List.length (ats h (n_at x))) (List.length (attr_set (n_attrs h x) "" l v))) V) as H. destruct (alloc_ats _ _ _) as [h' a].
      destruct H as (V' & P & Ia & Ta). split; [auto|]. split; [auto|]. split; [eapply below_mono; eauto|]. cbn [with_ats n_at]. auto.
  Qed.
  Lemma set_attr_at_goes h F p l v : Inv h F -> F p -> Inv (set_attr_at agrow h p l v) F /\ pres h F (set_attr_at agrow h p l v) F.
  Proof.
    intros V Hp. unfold set_attr_at. destruct (inv_cell _ _ _ V Hp) as (_ & x & L & G). rewrite L. pose proof (n_set_attr_inv h F x l v V G) as H. destruct (n_set_attr agrow h x l v) as [h' x'].
    destruct H as (V' & P & G'). destruct (put_inv h' F p x' V' Hp G') as [V2 P2]. split; [auto|]. eapply pres_trans; eauto.
  Qed.
  Lemma set_attr_goes h F p l v : Inv h F -> F p -> goes h F (set_attr_at agrow h p l v).
  Proof. intros V Hp. exists F. apply set_attr_at_goes; auto. Qed.

  Lemma default_goes local any fuel r h F h' : Inv h F -> In r roots -> default_type agrow local any fuel r h = Done h' -> goes h F h'.
  Proof.
    intros V Hr. unfold default_type. destruct (search_heap _ _ _ _) as [ps|] eqn:E; [|discriminate]. intros H. injection H as <-. apply each_goes; [|auto|eapply search_F; eauto].
    intros h1 F1 p V1 Hp. destruct (load h1 p); [apply set_attr_goes; auto|apply goes_refl; auto].
  Qed.

  (* ---------- moving types ---------- *)
  Lemma append_goes h F r x : Inv h F -> In r roots -> fit h F x -> goes h F (append_kid grow h r x).
  Proof.
    intros V Hr G. unfold append_kid. destruct (load h r) as [y|] eqn:L; [|apply goes_refl; auto]. pose proof (inv_root _ _ _ _ V Hr L) as B. destruct B as (B1 & B2 & B3).
    destruct (Nat.ltb (n_len y) (List.length (cells h (n_arr y)))) eqn:El.
    - apply Nat.ltb_lt in El. destruct (nth_error (cells h (n_arr y)) (n_len y)) as [z|] eqn:Ez; [|apply nth_error_None in Ez; lia].
      destruct (put_new h F (n_arr y, n_len y) x z V B1 Ez G) as [V1 P1]. set (h1 := put h (n_arr y, n_len y) x) in *.
      assert (L1 : load h1 r = Some y).
      { destruct V as (_ & _ & K & _). destruct (K r Hr) as (x0 & _ & L0 & _). destruct (apart r x0 Hr L0) as (Hn & _). unfold load, cells, h1. rewrite put_other; [exact L|]. cbn [fst]. intros Eq. rewrite Eq in Hn. auto. }
      destruct (put_root h1 (plus F (n_arr y, n_len y)) r (with_kids y (n_arr y) (S (n_len y))) y V1 Hr L1) as [V2 P2].
      + repeat split; reflexivity.
      + split; [auto|]. cbn [with_kids n_arr n_len]. split; [apply P1; auto|]. intros i Hi. destruct (Nat.eq_dec i (n_len y)) as [-> |Hne]; [right; auto|]. left. apply B3. lia.
      + exists (plus F (n_arr y, n_len y)). split; [auto|]. eapply pres_trans; eauto.
    - pose proof (alloc_inv h F (firstn (n_len y) (cells h (n_arr y)) ++ [x])%list (grow (List.length (cells h (n_arr y))) (S (n_len y))) V) as H.
      destruct (alloc h (firstn (n_len y) (cells h (n_arr y)) ++ [x])%list (grow (List.length (cells h (n_arr y))) (S (n_len y)))) as [h1 a] eqn:Ea. destruct H as (V1 & P1 & Ia & Ta).
      { apply Forall_app. split; [|auto]. apply (kids_fit h F y V). repeat split; auto. }
      set (F1 := more F a (List.length (firstn (n_len y) (cells h (n_arr y)) ++ [x])%list)) in *.
      assert (L1 : load h1 r = Some y). { unfold alloc in Ea. injection Ea as <- _. apply snoc_load'. auto. }
      destruct (put_root h1 F1 r (with_kids y a (S (n_len y))) y V1 Hr L1) as [V2 P2].
      + repeat split; reflexivity.
      + split; [auto|]. cbn [with_kids n_arr n_len]. split; [auto|]. intros i Hi. right. cbn [fst snd]. split; [auto|]. rewrite app_length, firstn_length. cbn [List.length].
        assert (n_len y <= List.length (cells h (n_arr y))); [|lia]. destruct (Nat.eq_dec (n_len y) 0); [lia|]. assert (Hl : n_len y - 1 < n_len y) by lia. apply B3 in Hl.
        destruct (inv_cell _ _ _ V Hl) as (_ & z & Lz & _). unfold load in Lz. cbn [fst snd] in Lz. assert (n_len y - 1 < List.length (cells h (n_arr y))) by (apply nth_error_Some; congruence). lia.
      + exists F1. split; [auto|]. eapply pres_trans; eauto.
  Qed.
  Lemma remove_inv h F p i : Inv h F -> F p -> (forall x, load h p = Some x -> i < n_len x) -> Inv (remove_kid h p i) F /\ pres h F (remove_kid h p i) F.
  Proof.
    intros V Hp Hi. unfold remove_kid. destruct (inv_cell _ _ _ V Hp) as (_ & x & L & ((B1 & (c & Ec) & B3) & Ha & T)). rewrite L. specialize (Hi x L). rewrite (cells_ok _ _ _ Ec).
    assert (Lc : n_len x <= List.length c).
    { assert (Hl : n_len x - 1 < n_len x) by lia. apply B3 in Hl. destruct (inv_cell _ _ _ V Hl) as (_ & z & Lz & _). unfold load in Lz. cbn [fst snd] in Lz. rewrite (cells_ok _ _ _ Ec) in Lz.
      assert (n_len x - 1 < List.length c) by (apply nth_error_Some; congruence). lia. }
    set (l := (firstn i c ++ skipn (S i) (firstn (n_len x) c) ++ skipn (n_len x - 1) c)%list).
    assert (Hc : forall j, F (n_arr x, j) -> exists y, nth_error c j = Some y /\ fit h F y).
    { intros j Hj. destruct (inv_cell _ _ _ V Hj) as (_ & z & Lz & G). unfold load in Lz. cbn [fst snd] in Lz. rewrite (cells_ok _ _ _ Ec) in Lz. eauto. }
    assert (Hs : forall (m : list node) k j, nth_error (skipn k m) j = nth_error m (k + j)).
    { clear. induction m as [|z m IH]; intros [|k] j; cbn [skipn Nat.add nth_error]; auto. destruct j; auto. }
    assert (Hf : forall (m : list node) k j, j < k -> nth_error (firstn k m) j = nth_error m j).
    { clear. induction m as [|z m IH]; intros [|k] [|j] H; cbn [firstn nth_error]; auto; try lia. apply IH. lia. }
    assert (Hl : forall j, nth_error l j = if Nat.ltb j i then nth_error c j else if Nat.ltb j (n_len x - 1) then nth_error c (S j) else nth_error c j).
    { intros j. unfold l. destruct (Nat.ltb j i) eqn:E1.
      - apply Nat.ltb_lt in E1. rewrite nth_error_app1 by (rewrite firstn_length; lia). apply Hf. auto.
      - apply Nat.ltb_ge in E1. rewrite nth_error_app2 by (rewrite firstn_length; lia). rewrite firstn_length, Nat.min_l by lia.
        assert (L2 : List.length (skipn (S i) (firstn (n_len x) c)) = n_len x - S i) by (rewrite skipn_length, firstn_length; lia).
        destruct (Nat.ltb j (n_len x - 1)) eqn:E2.
        + apply Nat.ltb_lt in E2. rewrite nth_error_app1 by lia. rewrite Hs, Hf by lia. f_equal. lia.
        + apply Nat.ltb_ge in E2. rewrite nth_error_app2 by lia. rewrite Hs, L2. f_equal. lia. }
    destruct (els_inv h F F (n_arr x) l V B1) as [V1 P1]; auto.
    - exists c. auto.
    - intros j Hj. rewrite Hl. destruct (Nat.ltb j i); auto. destruct (Nat.ltb j (n_len x - 1)) eqn:E2; auto. apply Nat.ltb_lt in E2. apply Hc. apply B3. lia.
    - destruct (put_inv (set_nth (n_arr x) (Els l) h) F p (with_kids x (n_arr x) (n_len x - 1)) V1 Hp) as [V2 P2].
      + destruct P1 as (Q1 & Q2 & Q3). split; [split; [auto|]|auto]. cbn [with_kids n_arr n_len]. split; [apply Q1; exists c; auto|]. intros j Hj. apply B3. lia.
      + split; [auto|]. eapply pres_trans; eauto.
  Qed.
  Lemma clear_inv h F p : Inv h F -> F p -> Inv (clear_content h p) F /\ pres h F (clear_content h p) F.
  Proof.
    intros V Hp. unfold clear_content. destruct (inv_cell _ _ _ V Hp) as (_ & x & L & G). rewrite L. apply put_inv; auto.
  Qed.
  Lemma first_anon_at h : forall l i0 i t, first_anon h l i0 = Some (i, t) -> i0 <= i /\ nth_error l (i - i0) = Some t.
  Proof.
    induction l as [|y l IH]; intros i0 i t; cbn [first_anon]; [discriminate|]. destruct (is_anon h y); intros H.
    - injection H as <- <-. rewrite Nat.sub_diag. auto.
    - destruct (IH _ _ _ H) as [H1 H2]. split; [lia|]. replace (i - i0) with (S (i - S i0)) by lia. exact H2.
  Qed.
  (* the number of children of a cell does not change when attributes are set *)
  Lemma n_set_attr_len h x l v : let (h', x') := n_set_attr agrow h x l v in n_len x' = n_len x /\ n_arr x' = n_arr x.
  Proof. unfold n_set_attr. destruct (Nat.leb _ _); [auto|]. destruct (alloc_ats _ _ _). auto. Qed.
  Lemma n_set_attr_load h F x l v p y : Inv h F -> fit h F x -> load h p = Some y -> load (fst (n_set_attr agrow h x l v)) p = Some y.
  Proof.
    intros V (B & Ha & T) L. unfold n_set_attr. destruct (Nat.leb _ _); cbn [fst].
    - destruct (load_array _ _ _ L) as (c & Ec & Ey). unfold load, cells. rewrite set_arr by (apply atr_bound; auto). destruct (Nat.eqb (fst p) (n_at x)) eqn:E; [|rewrite Ec; exact Ey].
      apply Nat.eqb_eq in E. destruct (atr_not_els h (n_at x) T). rewrite <- E. exists c. auto.
    - unfold alloc_ats. cbn [fst]. apply snoc_load'. auto.
  Qed.
  Lemma set_attr_at_load h F p l v x : Inv h F -> F p -> load h p = Some x -> exists x', load (set_attr_at agrow h p l v) p = Some x' /\ n_len x' = n_len x.
  Proof.
    intros V Hp L. unfold set_attr_at. rewrite L. pose proof (inv_load _ _ _ _ V Hp L) as G. pose proof (n_set_attr_len h x l v) as Hl. pose proof (n_set_attr_load h F x l v p x V G L) as L'.
    destruct (n_set_attr agrow h x l v) as [h' x']. cbn [fst] in L'. exists x'. split; [eapply load_put; eauto|apply Hl].
  Qed.
  (* give the child t of p a name, point p to it, and move it to the root *)
  Lemma hoist_goes h F p r i x t l v : Inv h F -> F p -> In r roots -> load h p = Some x -> i < n_len x -> fit h F t ->
    goes h F (append_kid grow (clear_content (remove_kid (set_attr_at agrow h p l v) p i) p) r t).
  Proof.
    intros V Hp Hr L Hi G. destruct (set_attr_at_goes h F p l v V Hp) as [V1 P1]. destruct (set_attr_at_load h F p l v x V Hp L) as (x1 & L1 & E1).
    destruct (remove_inv _ F p i V1 Hp) as [V2 P2]; [intros y Ly; assert (y = x1) by congruence; subst y; lia|]. destruct (clear_inv _ F p V2 Hp) as [V3 P3].
    pose proof (pres_trans _ _ _ _ _ _ (pres_trans _ _ _ _ _ _ P1 P2) P3) as P. eapply goes_then; [exact P|]. apply append_goes; auto. eapply fit_mono; eauto.
  Qed.
  Lemma copy_name_goes r tns : In r roots -> forall h used F p, Inv h F -> F p -> goes h F (fst (copy_name grow agrow r tns (h, used) p)).
  Proof.
    intros Hr h used F p V Hp. cbn [copy_name]. destruct (inv_cell _ _ _ V Hp) as (_ & x & L & G). rewrite L. destruct (name_in _ used); [apply goes_refl; auto|].
    destruct (first_anon h (kids h x) 0) as [[i t]|] eqn:Ea; [|apply goes_refl; auto]. apply first_anon_at in Ea. rewrite Nat.sub_0_r in Ea. destruct Ea as [_ Ea].
    destruct (kids_cell _ _ _ _ Ea) as [Hi Lt]. assert (Gt : fit h F t) by (apply (inv_load h F (n_arr x, i) t V); [apply G; auto|exact Lt]).
    pose proof (n_set_attr_inv h F t "name" (nattr h x "name") V Gt) as Hs. pose proof (n_set_attr_load h F t "name" (nattr h x "name") p x V Gt L) as Lp.
    destruct (n_set_attr agrow h t "name" (nattr h x "name")) as [h1 t1]. destruct Hs as (V1 & P1 & G1). cbn [fst] in *. eapply goes_then; [exact P1|]. eapply hoist_goes; eauto.
  Qed.
  Lemma copy_each_goes r tns : In r roots -> forall ps h used F, Inv h F -> Forall F ps -> goes h F (fst (each (copy_name grow agrow r tns) (h, used) ps)).
  Proof.
    intros Hr. induction ps as [|p ps IH]; intros h used F V Hp; cbn [each]; [apply goes_refl; auto|]. inversion Hp as [|? ? H1 H2]; subst. pose proof (copy_name_goes r tns Hr h used F p V H1) as Hg.
    destruct (copy_name grow agrow r tns (h, used) p) as [h1 u1]. destruct Hg as (F1 & V1 & P1). cbn [fst] in *. eapply goes_then; [exact P1|]. apply IH; [auto|]. eapply Forall_impl; [|exact H2]. apply P1.
  Qed.
  Lemma copy_goes fuel r h F h' : Inv h F -> In r roots -> copy_elt_names grow agrow fuel r h = Done h' -> goes h F h'.
  Proof.
    intros V Hr. unfold copy_elt_names. destruct (load h r) as [x|]; [|discriminate]. destruct (search_heap fuel h _ r) as [named|]; [|discriminate].
    destruct (search_heap fuel h (fun h x => _ && has_anon h x) r) as [ps|] eqn:E; [|discriminate]. intros H. injection H as <-. apply copy_each_goes; auto. eapply search_F; eauto.
  Qed.
  Lemma name_kids_goes r p tns upd accum : In r roots -> forall f i h n F, Inv h F -> F p -> goes h F (fst (name_kids grow agrow f r p tns upd accum i (h, n))).
  Proof.
    intros Hr. induction f as [|f IH]; intros i h n F V Hp; cbn [name_kids]; [apply goes_refl; auto|]. destruct (inv_cell _ _ _ V Hp) as (_ & x & L & G). rewrite L.
    destruct (nth_error (kids h x) i) as [t|] eqn:Et; [|apply goes_refl; auto]. destruct (negb (is_anon h t)); [apply IH; auto|].
    destruct (kids_cell _ _ _ _ Et) as [Hi Lt]. assert (Gt : fit h F t) by (apply (inv_load h F (n_arr x, i) t V); [apply G; auto|exact Lt]).
    pose proof (n_set_attr_inv h F t "name" (anon_name (S n)) V Gt) as Hs. pose proof (n_set_attr_load h F t "name" (anon_name (S n)) p x V Gt L) as Lp.
    destruct (n_set_attr agrow h t "name" (anon_name (S n))) as [h1 t1]. destruct Hs as (V1 & P1 & G1). cbn [fst] in Lp.
    pose proof (n_set_attr_inv h1 F t1 "_isAnonymous" "true" V1 G1) as Hs2. pose proof (n_set_attr_load h1 F t1 "_isAnonymous" "true" p x V1 G1 Lp) as Lp2.
    destruct (n_set_attr agrow h1 t1 "_isAnonymous" "true") as [h2 t2]. destruct Hs2 as (V2 & P2 & G2). cbn [fst] in Lp2.
    destruct accum; match goal with |- context [set_attr_at agrow h2 p upd ?v] => destruct (hoist_goes h2 F p r i x t2 upd v V2 Hp Hr Lp2 Hi G2) as (F3 & V3 & P3) end;
      pose proof (pres_trans _ _ _ _ _ _ (pres_trans _ _ _ _ _ _ P1 P2) P3) as P.
    - eapply goes_then; [exact P|]. apply IH; [auto|]. apply P. auto.
    - cbn [fst]. exists F3. auto.
  Qed.
  Lemma name_each_goes r tns : In r roots -> forall ps h n F h' n', Inv h F -> Forall F ps -> name_each grow agrow r tns ps (h, n) = Done (h', n') -> goes h F h'.
  Proof.
    intros Hr. induction ps as [|p ps IH]; intros h n F h' n' V Hp; cbn [name_each]; [intros H; injection H as <- _; apply goes_refl; auto|]. inversion Hp as [|? ? H1 H2]; subst.
    cbn [fst]. destruct (load h p) as [x|]; [|discriminate]. destruct (negb _); [apply IH; auto|]. destruct (updates _) as [[upd accum]|]; [|discriminate].
    pose proof (name_kids_goes r p tns upd accum Hr (n_len x) 0 h n F V H1) as Hg. destruct (name_kids grow agrow (n_len x) r p tns upd accum 0 (h, n)) as [h1 n1]. cbn [fst] in Hg. destruct Hg as (F1 & V1 & P1).
    intros H. eapply goes_then; [exact P1|]. eapply IH; [exact V1| |exact H]. eapply Forall_impl; [|exact H2]. apply P1.
  Qed.

  (* ---------- choices, the long form, groups ---------- *)
  Lemma each_seq_goes a n (f : heap -> nat -> heap) : (forall h F i, Inv h F -> F (a, i) -> goes h F (f h i)) ->
    forall h F, Inv h F -> (forall i, i < n -> F (a, i)) -> goes h F (each f h (seq 0 n)).
  Proof.
    intros Hf h F V Hn. assert (Ha : Forall (fun i => F (a, i)) (seq 0 n)) by (apply Forall_forall; intros i Hi; apply in_seq in Hi; apply Hn; lia).
    clear Hn. revert h F V Ha. generalize (seq 0 n). induction l as [|i l IH]; intros h F V Ha; cbn [each]; [apply goes_refl; auto|]. inversion Ha as [|? ? H1 H2]; subst.
    destruct (Hf h F i V H1) as (F1 & V1 & P1). eapply goes_then; [exact P1|]. apply IH; [auto|]. eapply Forall_impl; [|exact H2]. intros j. apply P1.
  Qed.
  Lemma choice_goes h F p : Inv h F -> F p -> goes h F (optional_choice agrow h p).
  Proof.
    intros V Hp. unfold optional_choice. destruct (inv_cell _ _ _ V Hp) as (_ & x & L & ((_ & _ & K) & _)). rewrite L. apply each_seq_goes with (a := n_arr x); auto. clear V L K Hp h F.
    intros h F i V Hi. destruct (inv_cell _ _ _ V Hi) as (_ & y & L & ((_ & _ & K) & _)). rewrite L. destruct (is_elem "sequence" y); [|apply set_attr_goes; auto].
    unfold optional_kids. apply each_seq_goes with (a := n_arr y); auto. intros h1 F1 j V1 Hj. apply set_attr_goes; auto.
  Qed.
  Lemma choices_goes fuel r h F h' : Inv h F -> In r roots -> set_choices_optional agrow fuel r h = Done h' -> goes h F h'.
  Proof.
    intros V Hr. unfold set_choices_optional. destruct (search_heap _ _ _ _) as [ps|] eqn:E; [|discriminate]. intros H. injection H as <-. apply each_goes; [|auto|eapply search_F; eauto].
    intros h1 F1 p V1 Hp. apply choice_goes; auto.
  Qed.
  Lemma filter_fit h F g l : Forall (fit h F) l -> Forall (fit h F) (filter g l).
  Proof. intros H. apply Forall_forall. intros x Hx. apply filter_In in Hx. rewrite Forall_forall in H. apply H. apply Hx. Qed.
  Lemma more_in F a n i : i < n -> more F a n (a, i).
  Proof. right. auto. Qed.
  Lemma expand_goes h F p : Inv h F -> F p -> goes h F (expand_one grow h p).
  Proof.
    intros V Hp. unfold expand_one. destruct (inv_cell _ _ _ V Hp) as (_ & x & L & G). rewrite L. destruct (existsb is_content (kids h x)); [apply goes_refl; auto|].
    pose proof (kids_fit h F x V (proj1 G)) as Gk. set (ks := kids h x) in *.
    pose proof (alloc_inv h F _ (n_len x) V (filter_fit h F (fun y => negb (keeps y)) ks Gk)) as A1. destruct (alloc h _ (n_len x)) as [h1 a]. destruct A1 as (V1 & P1 & I1 & E1).
    set (F1 := more F a _) in *.
    pose proof (alloc_ats_inv h1 F1 [mkAttr (mkName "" "base") (prefix (n_scope x) (xs "anyType"))] 1 V1) as A2. destruct (alloc_ats h1 _ 1) as [h2 ra]. destruct A2 as (V2 & P2 & I2 & E2).
    set (restr := mkNode (xs "restriction") ra 1 (n_scope x) "" a _).
    assert (G2 : fit h2 F1 restr). { split; [|auto]. split; [auto|]. split; [apply P2; auto|]. intros i Hi. apply more_in. auto. }
    pose proof (alloc_inv h2 F1 [restr] 1 V2) as A3. destruct (alloc h2 [restr] 1) as [h3 b]. destruct A3 as (V3 & P3 & I3 & E3); [auto|]. set (F3 := more F1 b _) in *.
    pose proof (alloc_ats_inv h3 F3 [] 0 V3) as A4. destruct (alloc_ats h3 [] 0) as [h4 ca]. destruct A4 as (V4 & P4 & I4 & E4).
    set (content := mkNode (xs "complexContent") ca 0 (n_scope x) "" b 1).
    assert (G4 : fit h4 F3 content). { split; [|auto]. split; [auto|]. split; [apply P4; auto|]. intros i Hi. apply more_in. auto. }
    pose proof (pres_trans _ _ _ _ _ _ (pres_trans _ _ _ _ _ _ (pres_trans _ _ _ _ _ _ P1 P2) P3) P4) as P14.
    set (cap := if Nat.ltb _ _ then _ else _). pose proof (alloc_inv h4 F3 (filter keeps ks ++ [content])%list cap V4) as A5. destruct (alloc h4 (filter keeps ks ++ [content])%list cap) as [h5 c].
    destruct A5 as (V5 & P5 & I5 & E5).
    { apply Forall_app. split; [|auto]. eapply Forall_impl; [|exact (filter_fit h F keeps ks Gk)]. intros y. apply fit_mono. exact P14. }
    set (F5 := more F3 c _) in *. pose proof (pres_trans _ _ _ _ _ _ P14 P5) as P.
    destruct (put_inv h5 F5 p (with_kids (no_content x) c (List.length (filter keeps ks ++ [content])%list)) V5) as [V6 P6].
    - apply P. auto.
    - split; [|split; [apply G|apply P; apply G]]. split; [auto|]. split; [auto|]. intros i Hi. apply more_in. auto.
    - exists F5. split; [auto|]. eapply pres_trans; eauto.
  Qed.
  Lemma shorthand_goes fuel r h F h' : Inv h F -> In r roots -> expand_shorthand grow fuel r h = Done h' -> goes h F h'.
  Proof.
    intros V Hr. unfold expand_shorthand. destruct (search_heap _ _ _ _) as [ps|] eqn:E; [|discriminate]. intros H. injection H as <-. apply each_goes; [|auto|eapply search_F; eauto].
    intros h1 F1 p V1 Hp. apply expand_goes; auto.
  Qed.
  Lemma unpack_goes h F p : Inv h F -> F p -> goes h F (unpack_one grow h p).
  Proof.
    intros V Hp. unfold unpack_one. destruct (inv_cell _ _ _ V Hp) as (_ & x & L & G). rewrite L. set (new := flat_map _ _). set (cap := if Nat.leb _ _ then _ else _).
    pose proof (alloc_inv h F new cap V) as A. destruct (alloc h new cap) as [h1 a]. destruct A as (V1 & P1 & I1 & E1).
    { apply Forall_forall. intros y Hy. apply in_flat_map in Hy. destruct Hy as (k & Hk & Hy). pose proof (kids_fit h F x V (proj1 G)) as Gk. rewrite Forall_forall in Gk. specialize (Gk k Hk).
      destruct (is_group k); [|destruct Hy as [<- |[]]; auto]. pose proof (kids_fit h F k V (proj1 Gk)) as Gk2. rewrite Forall_forall in Gk2. auto. }
    destruct (put_inv h1 (more F a (List.length new)) p (with_kids x a (List.length new)) V1) as [V2 P2].
    - apply P1. auto.
    - split; [|split; [apply G|apply P1; apply G]]. split; [auto|]. split; [auto|]. intros i Hi. apply more_in. auto.
    - exists (more F a (List.length new)). split; [auto|]. eapply pres_trans; eauto.
  Qed.
  Lemma deref_goes h F ref real p : Inv h F -> F p -> fit h F real -> let (h', x) := deref_node grow agrow h ref real in goes h F (put h' p x).
  Proof.
    intros V Hp G. unfold deref_node. pose proof (kids_fit h F real V (proj1 G)) as Gk.
    pose proof (alloc_inv h F (kids h real) (grow 0 (List.length (kids h real))) V Gk) as A1. destruct (alloc h (kids h real) _) as [h1 a]. destruct A1 as (V1 & P1 & I1 & E1).
    set (F1 := more F a _) in *. set (l := override _ _). pose proof (alloc_ats_inv h1 F1 l (agrow 0 (List.length l)) V1) as A2. destruct (alloc_ats h1 l _) as [h2 b]. destruct A2 as (V2 & P2 & I2 & E2).
    set (x := mkNode _ _ _ _ _ _ _). pose proof (pres_trans _ _ _ _ _ _ P1 P2) as P. destruct (put_inv h2 F1 p x V2) as [V3 P3].
    - apply P. auto.
    - split; [|auto]. split; [auto|]. split; [apply P2; auto|]. intros i Hi. apply more_in. auto.
    - exists F1. split; [auto|]. eapply pres_trans; eauto.
  Qed.
  Lemma deref_one_goes elts m h F id h' : Inv h F -> Forall F elts -> deref_one grow agrow elts m h id = Some h' -> goes h F h'.
  Proof.
    intros V Hp. unfold deref_one. destruct (nth_error elts (Z.to_nat id)) as [p|] eqn:Ep; [|intros H; injection H as <-; apply goes_refl; auto].
    rewrite Forall_forall in Hp. pose proof (Hp p (nth_error_In _ _ Ep)) as Fp. destruct (load h p) as [el|] eqn:L; [|intros H; injection H as <-; apply goes_refl; auto].
    destruct (String.eqb _ ""); [intros H; injection H as <-; apply goes_refl; auto|]. destruct (key_get _ m) as [d|]; [|discriminate].
    destruct (nth_error elts d) as [q|] eqn:Eq; [|intros H; injection H as <-; apply goes_refl; auto]. pose proof (Hp q (nth_error_In _ _ Eq)) as Fq.
    destruct (load h q) as [real|] eqn:Lq; [|intros H; injection H as <-; apply goes_refl; auto].
    pose proof (deref_goes h F el real p V Fp (inv_load _ _ _ _ V Fq Lq)) as Hg. destruct (deref_node grow agrow h el real) as [h1 x]. intros H. injection H as <-. exact Hg.
  Qed.
  Lemma foldo_goes elts m : forall l h F h', Inv h F -> Forall F elts -> foldo (deref_one grow agrow elts m) h l = Some h' -> goes h F h'.
  Proof.
    induction l as [|id l IH]; intros h F h' V Hp; cbn [foldo]; [intros H; injection H as <-; apply goes_refl; auto|]. destruct (deref_one grow agrow elts m h id) as [h1|] eqn:E; [|discriminate].
    destruct (deref_one_goes _ _ _ _ _ _ V Hp E) as (F1 & V1 & P1). intros H. eapply goes_then; [exact P1|]. eapply IH; [exact V1| |exact H]. eapply Forall_impl; [|exact Hp]. apply P1.
  Qed.
  Lemma index_F fuel h F : Inv h F -> forall rs st els m, incl rs roots -> Forall F (fst st) -> index_schema fuel h rs st = Some (els, m) -> Forall F els.
  Proof.
    intros V. induction rs as [|r rs IH]; intros st es m Hi Hs; cbn [index_schema]; [intros H; injection H as ->; auto|]. destruct (load h r) as [x|]; [|discriminate].
    destruct (search_heap fuel h _ r) as [ps|] eqn:E; [|discriminate]. apply IH; [intros z Hz; apply Hi; right; auto|]. assert (Hp : Forall F ps) by (eapply search_F; eauto; apply Hi; left; auto).
    clear E. revert st Hs. induction Hp as [|p ps H1 H2 IHp]; intros st Hs; cbn [each]; auto. apply IHp. destruct st as [a b]. unfold index_one. cbn [fst] in *. destruct (load h p); cbn [fst]; apply Forall_app; auto.
  Qed.
  Lemma on_each_goes f : (forall r h F h', Inv h F -> In r roots -> f r h = Done h' -> goes h F h') ->
    forall rs h F h', incl rs roots -> Inv h F -> on_each f rs h = Done h' -> goes h F h'.
  Proof.
    intros Hf. induction rs as [|r rs IH]; intros h F h' Hi V; cbn [on_each]; [intros H; injection H as <-; apply goes_refl; auto|]. destruct (f r h) as [h1| |] eqn:E; try discriminate.
    destruct (Hf r h F h1 V (Hi r (or_introl eq_refl)) E) as (F1 & V1 & P1). intros H. eapply goes_then; [exact P1|]. eapply IH; eauto. intros z Hz. apply Hi. right. auto.
  Qed.
  Lemma unpack_all_goes fuel : forall rs h F h', incl rs roots -> Inv h F -> unpack_all grow fuel rs h = Done h' -> goes h F h'.
  Proof.
    induction rs as [|r rs IH]; intros h F h' Hi V; cbn [unpack_all]; [intros H; injection H as <-; apply goes_refl; auto|]. unfold unpack_groups.
    destruct (search_heap _ _ _ r) as [ps|] eqn:E; [|discriminate]. destruct (each_goes (unpack_one grow) unpack_goes ps h F V) as (F1 & V1 & P1); [eapply search_F; eauto; apply Hi; left; auto|].
    destruct (cyclic fuel _ r []) as [[|]|]; try discriminate. intros H. eapply goes_then; [exact P1|]. eapply IH; eauto. intros z Hz. apply Hi. right. auto.
  Qed.
  Lemma flatten_goes fuel h F h' : Inv h F -> flatten_ref grow agrow fuel roots h = Done h' -> goes h F h'.
  Proof.
    intros V. unfold flatten_ref. destruct (index_schema fuel h roots ([], [])) as [[elts m]|] eqn:E; [|discriminate]. destruct (mapo _ _) as [ds|]; [|discriminate]. destruct (flatten _) as [order|]; [|discriminate].
    assert (Hp : Forall F elts) by (eapply index_F; eauto; [apply incl_refl|constructor]). destruct (foldo _ h order) as [h1|] eqn:Ef; [|discriminate].
    destruct (foldo_goes _ _ _ _ _ _ V Hp Ef) as (F1 & V1 & P1). intros H. eapply goes_then; [exact P1|]. eapply unpack_all_goes; eauto. apply incl_refl.
  Qed.
  Lemma name_all_goes fuel : forall rs h n F h' n', incl rs roots -> Inv h F -> name_all grow agrow fuel rs (h, n) = Done (h', n') -> goes h F h'.
  Proof.
    induction rs as [|r rs IH]; intros h n F h' n' Hi V; cbn [name_all]; [intros H; injection H as <- _; apply goes_refl; auto|]. assert (Hr : In r roots) by (apply Hi; left; auto).
    destruct (name_anonymous grow agrow fuel r (h, n)) as [[h1 n1]| |] eqn:E; try discriminate. unfold name_anonymous in E. cbn [fst] in E. destruct (load h r) as [x|]; [|discriminate].
    destruct (search_heap fuel h has_anon r) as [ps|] eqn:Es; [|discriminate]. destruct (name_each_goes r _ Hr ps h n F h1 n1 V (search_F _ _ _ _ _ _ V Hr Es) E) as (F1 & V1 & P1).
    destruct (set_choices_optional agrow fuel r h1) as [h2| |] eqn:Ec; try discriminate. destruct (choices_goes _ _ _ _ _ V1 Hr Ec) as (F2 & V2 & P2). intros H.
    eapply goes_then; [exact P1|]. eapply goes_then; [exact P2|]. eapply IH; eauto. intros z Hz. apply Hi. right. auto.
  Qed.
  Lemma normalize_goes fuel h F h' : Inv h F -> normalize grow agrow fuel roots h = Done h' -> goes h F h'.
  Proof.
    intros V. unfold normalize, bind. destruct (on_each (defaults grow agrow fuel) roots h) as [h1| |] eqn:E1; try discriminate.
    destruct (on_each_goes (defaults grow agrow fuel)) with (rs := roots) (h := h) (F := F) (h' := h1) as (F1 & V1 & P1); auto using incl_refl.
    { intros r g G g' Vg Hr. unfold defaults, bind, attribute_default_type, element_default_type. destruct (default_type agrow "attribute" _ fuel r g) as [g1| |] eqn:D1; try discriminate.
      destruct (default_goes _ _ _ _ _ _ _ Vg Hr D1) as (G1 & W1 & Q1). destruct (default_type agrow "element" _ fuel r g1) as [g2| |] eqn:D2; try discriminate.
      destruct (default_goes _ _ _ _ _ _ _ W1 Hr D2) as (G2 & W2 & Q2). intros H. eapply goes_then; [exact Q1|]. eapply goes_then; [exact Q2|]. eapply copy_goes; eauto. }
    destruct (name_all grow agrow fuel roots (h1, 0)) as [[h2 n2]| |] eqn:E2; try discriminate. cbn [fst]. destruct (name_all_goes _ _ _ _ _ _ _ (incl_refl roots) V1 E2) as (F2 & V2 & P2).
    destruct (on_each (expand_shorthand grow fuel) roots h2) as [h3| |] eqn:E3; try discriminate.
    destruct (on_each_goes (expand_shorthand grow fuel)) with (rs := roots) (h := h2) (F := F2) (h' := h3) as (F3 & V3 & P3); auto using incl_refl.
    { intros r g G g' Vg Hr. apply shorthand_goes; auto. }
    intros H. eapply goes_then; [exact P1|]. eapply goes_then; [exact P2|]. eapply goes_then; [exact P3|]. eapply flatten_goes; eauto.
  Qed.
End Keep.
