(* Passes that collect pointers to elements and then work on them one after the other, on memory
   in which no two cells share an array. *)
From Verif Require Import Base ScopeModel TreeModel TreeProofs BuiltinModel XsdModel XsdProofs NormModel NormMem.
Local Open Scope string_scope.

(* ---------- searching ---------- *)
Fixpoint height (e : elem) : nat :=
  let '(Elem _ _ _ _ ks) := e in S ((fix go (l : list elem) : nat := match l with [] => 0 | k :: l' => Nat.max (height k) (go l') end) ks).
Fixpoint heights (l : list elem) : nat := match l with [] => 0 | k :: l' => Nat.max (height k) (heights l') end.
Lemma height_eq e : height e = S (heights (e_children e)).
Proof. destruct e as [n a s c ks]. cbn [height e_children]. f_equal. Qed.

(* the pointers a search finds, in the memory h *)
Fixpoint hits (g : elem -> bool) (h : heap) (e : elem) (p : ptr) (x : node) {struct e} : list ptr :=
  ((if g e then [p] else []) ++
   let '(Elem _ _ _ _ ks) := e in
   (fix go (ks : list elem) (xs : list node) (i : nat) {struct ks} : list ptr :=
      match ks, xs with
      | k :: ks', y :: xs' => (hits g h k (n_arr x, i) y ++ go ks' xs' (S i))%list
      | _, _ => []
      end) ks (kids h x) 0)%list.
Fixpoint hits_kids (g : elem -> bool) (h : heap) (b : nat) (ks : list elem) (xs : list node) (i : nat) {struct ks} : list ptr :=
  match ks, xs with
  | k :: ks', y :: xs' => (hits g h k (b, i) y ++ hits_kids g h b ks' xs' (S i))%list
  | _, _ => []
  end.
Lemma hits_eq g h e p x : hits g h e p x = ((if g e then [p] else []) ++ hits_kids g h (n_arr x) (e_children e) (kids h x) 0)%list.
Proof.
  destruct e as [n a s c ks]. cbn [hits e_children]. f_equal. generalize 0. generalize (kids h x).
  induction ks as [|k ks IH]; intros [|y l] i; cbn [hits_kids]; auto. rewrite IH. reflexivity.
Qed.
Lemma hits_frame g : forall e h h' p x, (forall a, In a (foot h e x) -> nth_error h' a = nth_error h a) -> hits g h' e p x = hits g h e p x.
Proof.
  induction e as [n a s c ks IH] using elem_ind'. intros h h' p x F. rewrite !hits_eq. cbn [e_children]. f_equal.
  rewrite foot_eq in F. cbn [e_children] in F.
  assert (Ek : kids h' x = kids h x) by (unfold kids, cells; rewrite (F (n_arr x)) by (right; left; auto); reflexivity).
  rewrite Ek. assert (F' : forall b, In b (foots h ks (kids h x)) -> nth_error h' b = nth_error h b) by (intros b Hb; apply F; right; right; auto).
  clear F Ek. revert F'. generalize 0. generalize (kids h x). induction ks as [|k ks IHk]; intros [|y l] i F; cbn [hits_kids]; auto.
  cbn [foots] in F. f_equal; [apply IH; [left; auto|intros; apply F, in_or_app; auto]|].
  apply IHk; [intros e He; apply IH; right; auto|intros; apply F, in_or_app; auto].
Qed.

Section Search.
  Variables (fn : heap -> node -> bool) (g : elem -> bool) (h : heap).
  Hypothesis Hfn : forall e x, rep h e x -> fn h x = g e.
  Lemma mapo_app_some {A B} (f : A -> option B) l m l' m' : mapo f l = Some l' -> mapo f m = Some m' -> mapo f (l ++ m)%list = Some (l' ++ m')%list.
  Proof.
    revert l'. induction l as [|a l IH]; cbn [mapo app]; intros l' H1 H2; [injection H1 as <-; auto|].
    destruct (f a); [|discriminate]. destruct (mapo f l) eqn:E; [|discriminate]. injection H1 as <-. rewrite (IH l0); auto.
  Qed.
  Lemma search_kids b ks xs fuel : forall i, Forall2 (rep h) ks xs -> (forall j, j < List.length xs -> load h (b, i + j) = nth_error xs j) ->
    (forall k, In k ks -> forall p x, load h p = Some x -> rep h k x -> search_ptr fuel h fn p = Some (hits g h k p x)) ->
    exists ls, mapo (fun i => search_ptr fuel h fn (b, i)) (seq i (List.length xs)) = Some ls /\ concat ls = hits_kids g h b ks xs i.
  Proof.
    revert xs. induction ks as [|k ks IH]; intros xs i B L S; inversion B as [|k' y ks' ys Hky B']; subst; cbn [List.length seq mapo hits_kids].
    - exists []. auto.
    - assert (Ly : load h (b, i) = Some y) by (specialize (L 0); rewrite Nat.add_0_r in L; apply L; cbn; lia).
      rewrite (S k (or_introl eq_refl) _ _ Ly Hky).
      destruct (IH ys (Datatypes.S i) B') as (ls & E1 & E2).
      + intros j Hj. specialize (L (Datatypes.S j)). rewrite Nat.add_succ_r in L. apply L. cbn. lia.
      + intros k0 H0. apply S. right. auto.
      + rewrite E1. eexists. split; [reflexivity|]. cbn [concat]. rewrite E2. reflexivity.
  Qed.
  Lemma kids_loaded e x : rep h e x -> forall j, j < List.length (kids h x) -> load h (n_arr x, 0 + j) = nth_error (kids h x) j.
  Proof.
    intros R j Hj. cbn [Nat.add]. eapply load_kid; eauto. apply rep_eq in R. destruct R as (_ & _ & _ & _ & K & _).
    rewrite <- (kids_length h x K). exact Hj.
  Qed.
  Lemma search_hits : forall e fuel p x, load h p = Some x -> rep h e x -> height e <= fuel -> search_ptr fuel h fn p = Some (hits g h e p x).
  Proof.
    induction e as [n a s c ks IH] using elem_ind'. intros fuel p x L R H. rewrite height_eq in H. cbn [e_children] in H.
    destruct fuel as [|fuel]; [lia|]. cbn [search_ptr]. rewrite L, hits_eq. cbn [e_children].
    rewrite (rep_len h _ x R). cbn [e_children]. pose proof R as R'. apply rep_eq in R'. destruct R' as (_ & _ & _ & _ & K & B). cbn [e_children] in B.
    rewrite (Forall2_len _ _ _ B).
    destruct (search_kids (n_arr x) ks (kids h x) fuel 0 B (kids_loaded _ _ R)) as (ls & E1 & E2).
    - intros k Hk q y Lq Rq. apply IH; auto. assert (height k <= heights ks); [|lia]. clear -Hk. induction ks as [|z ks IH]; [destruct Hk|].
      cbn [heights]. destruct Hk as [-> |Hk]; [lia|]. specialize (IH Hk). lia.
    - rewrite E1, E2, (Hfn _ _ R). reflexivity.
  Qed.
  Lemma search_heap_hits e fuel p x : load h p = Some x -> rep h e x -> height e <= fuel ->
    search_heap fuel h fn p = Some (hits_kids g h (n_arr x) (e_children e) (kids h x) 0).
  Proof.
    intros L R H. unfold search_heap. rewrite L, (rep_len h _ x R). pose proof R as R'. apply rep_eq in R'. destruct R' as (_ & _ & _ & _ & K & B).
    rewrite (Forall2_len _ _ _ B). rewrite height_eq in H.
    destruct (search_kids (n_arr x) (e_children e) (kids h x) fuel 0 B (kids_loaded _ _ R)) as (ls & E1 & E2).
    - intros k Hk q y Lq Rq. apply search_hits; auto. assert (height k <= heights (e_children e)); [|lia]. clear -Hk. induction (e_children e) as [|z ks IH]; [destruct Hk|].
      cbn [heights]. destruct Hk as [-> |Hk]; [lia|]. specialize (IH Hk). lia.
    - rewrite E1. cbn [option_map]. rewrite E2. reflexivity.
  Qed.
End Search.

(* ---------- working on one subtree ---------- *)
Definition good (h : heap) (e : elem) (p : ptr) (x : node) : Prop :=
  load h p = Some x /\ rep h e x /\ NoDup (foot h e x) /\ ~ In (fst p) (foot h e x).
Definition orep (h : heap) (o : option elem) (x : node) : Prop := match o with Some e => rep h e x | None => True end.
Definition ofoot (h : heap) (o : option elem) (x : node) : list nat := match o with Some e => foot h e x | None => [] end.
Definition grown (h : heap) (new old : list nat) : Prop := forall a, In a new -> In a old \/ List.length h <= a.
(* the cell p, x before, stands for e' afterwards; and x itself, if copied, stands for o *)
Definition becomes (h h' : heap) (e e' : elem) (o : option elem) (p : ptr) (x : node) : Prop :=
  (exists x', load h' p = Some x' /\ rep h' e' x' /\ NoDup (foot h' e' x') /\ grown h (foot h' e' x') (foot h e x)) /\
  (orep h' o x /\ NoDup (ofoot h' o x) /\ grown h (ofoot h' o x) (foot h e x)) /\
  same_but h h' (foot h e x) p.
(* f does so in any memory that has this subtree in place *)
Definition works (h0 : heap) (f : heap -> heap) (e e' : elem) (o : option elem) (p : ptr) (x : node) : Prop :=
  forall h, (forall a, In a (foot h0 e x) -> nth_error h a = nth_error h0 a) -> load h p = Some x -> becomes h (f h) e e' o p x.
Inductive plan (h0 : heap) (b : nat) : nat -> list (heap -> heap) -> list elem -> list elem -> list (option elem) -> list node -> Prop :=
| plan_nil i : plan h0 b i [] [] [] [] []
| plan_cons i f fs k ks k' ks' o os x xs : works h0 f k k' o (b, i) x -> plan h0 b (S i) fs ks ks' os xs ->
    plan h0 b i (f :: fs) (k :: ks) (k' :: ks') (o :: os) (x :: xs).
Definition run (fs : list (heap -> heap)) (h : heap) : heap := each (fun h f => f h) h fs.
Fixpoint ofoots (h : heap) (os : list (option elem)) (xs : list node) : list nat :=
  match os, xs with o :: os', x :: xs' => (ofoot h o x ++ ofoots h os' xs')%list | _, _ => [] end.
Definition same_kids (h h' : heap) (fp : list nat) (b i n : nat) : Prop :=
  List.length h <= List.length h' /\
  (forall a, a < List.length h -> ~ In a fp -> a <> b -> nth_error h' a = nth_error h a) /\
  (exists l l', nth_error h b = Some (Els l) /\ nth_error h' b = Some (Els l') /\ List.length l' = List.length l /\
     forall j, ~ (i <= j < i + n) -> nth_error l' j = nth_error l j).

Lemma foot_agree h h' e x : (forall a, In a (foot h e x) -> nth_error h' a = nth_error h a) -> rep h e x -> foot h' e x = foot h e x.
Proof. intros F R. apply rep_frame; auto. Qed.
Lemma nodup_app {A} (l m : list A) : NoDup l -> NoDup m -> (forall a, In a l -> ~ In a m) -> NoDup (l ++ m)%list.
Proof.
  induction l as [|a l IH]; cbn [app]; auto. intros N1 N2 D. inversion N1; subst. constructor.
  - rewrite in_app_iff. intros [H|H]; [auto|]. apply (D a); [left; auto|auto].
  - apply IH; auto. intros b Hb. apply D. right. auto.
Qed.
Lemma nodup_app_inv {A} (l m : list A) : NoDup (l ++ m)%list -> NoDup l /\ NoDup m /\ (forall a, In a l -> ~ In a m).
Proof.
  induction l as [|a l IH]; cbn [app]; intros N.
  - split; [constructor|]. split; [auto|]. intros b [].
  - inversion N as [|? ? N1 N2]; subst. destruct (IH N2) as (I1 & I2 & I3). rewrite in_app_iff in N1. split; [constructor; tauto|].
    split; auto. intros b [<- |Hb]; auto.
Qed.
Lemma orep_frame o h h' x : orep h o x -> (forall a, In a (ofoot h o x) -> nth_error h' a = nth_error h a) -> orep h' o x /\ ofoot h' o x = ofoot h o x.
Proof. destruct o as [e|]; cbn [orep ofoot]; auto. intros R F. apply rep_frame; auto. Qed.
Lemma ofoot_bound o h x : orep h o x -> forall a, In a (ofoot h o x) -> a < List.length h.
Proof. destruct o as [e|]; cbn [orep ofoot]; [apply foot_bound|intros _ a []]. Qed.

Lemma run_kids : forall fs ks ks' os xs h0 b i, plan h0 b i fs ks ks' os xs -> Forall2 (rep h0) ks xs -> NoDup (foots h0 ks xs) -> ~ In b (foots h0 ks xs) ->
  b < List.length h0 ->
  forall h, List.length h0 <= List.length h -> (forall a, In a (foots h0 ks xs) -> nth_error h a = nth_error h0 a) ->
  (exists l, nth_error h b = Some (Els l)) ->
  (forall j, j < List.length xs -> load h (b, i + j) = nth_error xs j) ->
  let h' := run fs h in
  (exists xs', (forall j, j < List.length xs -> load h' (b, i + j) = nth_error xs' j) /\ Forall2 (rep h') ks' xs' /\ List.length xs' = List.length xs /\
     NoDup (foots h' ks' xs') /\ grown h (foots h' ks' xs') (foots h0 ks xs)) /\
  (Forall2 (orep h') os xs /\ NoDup (ofoots h' os xs) /\ grown h (ofoots h' os xs) (foots h0 ks xs)) /\
  same_kids h h' (foots h0 ks xs) b i (List.length xs).
Proof.
  intros fs ks ks' os xs h0 b i P. induction P as [i|i f fs k ks k' ks' o os x xs W P IH]; intros R N Nb Hb h Hlen F (l0 & El) L; cbn zeta.
  - cbn [run each]. split.
    { exists []. split; [auto|]. split; [constructor|]. split; [auto|]. split; [constructor|]. intros a0 []. }
    split; [split; [constructor|]; split; [constructor|]; intros a0 []|].
    split; [auto|]. split; [auto|]. exists l0, l0. auto.
  - inversion R as [|? ? ? ? Rk Rks]; subst. cbn [foots] in N, Nb, F. destruct (nodup_app_inv _ _ N) as (N1 & N2 & N3).
    assert (Fk : forall a, In a (foot h0 k x) -> nth_error h a = nth_error h0 a) by (intros; apply F, in_or_app; auto).
    assert (Lx : load h (b, i) = Some x) by (specialize (L 0); rewrite Nat.add_0_r in L; apply L; cbn; lia).
    destruct (rep_frame k h0 h x Rk Fk) as [Rk' Ek].
    destruct (W h Fk Lx) as ((x' & L1 & R1 & ND1 & G1) & (O1 & O2 & O3) & (S1 & S2 & l & l' & S3 & S4 & S5 & S6)).
    cbn [fst snd] in *. set (h1 := f h) in *. rewrite Ek in G1, O3, S2.
    assert (Bd : forall a, In a (foots h0 ks xs) -> a < List.length h0) by (intros; eapply foots_bound; eauto).
    assert (Bk : forall a, In a (foot h0 k x) -> a < List.length h0) by (intros; eapply foot_bound; eauto).
    rewrite in_app_iff in Nb.
    destruct (IH Rks N2) with (h := h1) as ((xs' & X1 & X2 & X3 & X4 & X5) & (Y1 & Y2 & Y3) & (Z1 & Z2 & m & m' & Z3 & Z4 & Z5 & Z6)); auto.
    { lia. }
    { intros a Ha. rewrite S2; [apply F, in_or_app; auto|specialize (Bd a Ha); lia|intros Hk; exact (N3 a Hk Ha)|intros ->; tauto]. }
    { exists l'. auto. }
    { intros j Hj. specialize (L (S j)). rewrite Nat.add_succ_r in L. cbn [nth_error List.length] in L. rewrite <- L by lia.
      unfold load, cells. cbn [fst snd]. rewrite S4, S3. apply S6. lia. }
    cbn zeta in *. change (run (f :: fs) h) with (run fs h1). set (h2 := run fs h1) in *.
    (* what was done to the first kid stays *)
    assert (K1 : forall a, a < List.length h1 -> (In a (foot h0 k x) \/ List.length h <= a) -> nth_error h2 a = nth_error h1 a).
    { intros a Ha H1. apply Z2; auto.
      - intros H2. destruct H1 as [H1|H1]; [exact (N3 a H1 H2)|]. specialize (Bd a H2). lia.
      - intros ->. destruct H1 as [H1|H1]; [tauto|]. lia. }
    destruct (rep_frame k' h1 h2 x' R1) as [R2 E2]; [intros a Ha; apply K1; [eapply foot_bound; eauto|apply G1; auto]|].
    destruct (orep_frame o h1 h2 x O1) as [O1' E3]; [intros a Ha; apply K1; [eapply ofoot_bound; eauto|apply O3; auto]|].
    assert (m = l') by congruence. subst m.
    assert (Dis : forall A B, grown h A (foot h0 k x) -> (forall a, In a A -> a < List.length h1) -> grown h1 B (foots h0 ks xs) -> forall a, In a A -> ~ In a B).
    { intros A B GA BA GB a HA HB. destruct (GB a HB) as [HB'|HB']; [|specialize (BA a HA); lia].
      destruct (GA a HA) as [HA'|HA']; [exact (N3 a HA' HB')|]. specialize (Bd a HB'). lia. }
    split; [|split].
    + exists (x' :: xs'). split; [|split; [constructor; auto|split; [cbn [List.length]; lia|split]]].
      * intros [|j] Hj; cbn [nth_error].
        -- rewrite Nat.add_0_r. rewrite <- L1. unfold load, cells. cbn [fst snd]. rewrite Z4, S4. apply Z6. lia.
        -- rewrite Nat.add_succ_r. apply X1. cbn [List.length] in Hj. lia.
      * cbn [foots]. rewrite E2. apply nodup_app; auto. apply Dis; auto. intros; eapply foot_bound; eauto.
      * cbn [foots]. rewrite E2. intros a Ha. apply in_app_or in Ha. rewrite in_app_iff. destruct Ha as [Ha|Ha].
        -- destruct (G1 a Ha); auto.
        -- destruct (X5 a Ha); auto. right. lia.
    + split; [constructor; auto|]. cbn [ofoots foots]. rewrite E3. split; [apply nodup_app; auto; apply Dis; auto; intros; eapply ofoot_bound; eauto|].
      intros a Ha. apply in_app_or in Ha. rewrite in_app_iff. destruct Ha as [Ha|Ha]; [destruct (O3 a Ha); auto|]. destruct (Y3 a Ha); auto. right. lia.
    + cbn [List.length foots]. split; [lia|split].
      * intros a Ha Hn Hb'. rewrite in_app_iff in Hn. rewrite Z2, S2; auto; lia.
      * exists l, m'. split; [auto|]. split; [auto|]. split; [lia|]. intros j Hj. rewrite Z6, S6; auto; lia.
Qed.
