(* Elements in memory: which tree a cell stands for, and which arrays it uses. *)
From Verif Require Import Base ScopeModel TreeModel TreeProofs BuiltinModel XsdModel XsdProofs NormModel.
Local Open Scope string_scope.

Lemma Forall2_len {A B} (R : A -> B -> Prop) l m : Forall2 R l m -> List.length l = List.length m.
Proof. induction 1; cbn [List.length]; auto. Qed.
(* the cell x stands for the tree e *)
Fixpoint rep (h : heap) (e : elem) (x : node) {struct e} : Prop :=
  let '(Elem n a s c ks) := e in
  n_name x = n /\ n_scope x = s /\ n_content x = c /\
  (exists la, nth_error h (n_at x) = Some (Ats la) /\ n_alen x <= List.length la /\ firstn (n_alen x) la = a) /\
  (exists lc, nth_error h (n_arr x) = Some (Els lc) /\ n_len x <= List.length lc) /\
  (fix go (ks : list elem) (xs : list node) {struct ks} : Prop :=
     match ks, xs with
     | [], [] => True
     | k :: ks', y :: xs' => rep h k y /\ go ks' xs'
     | _, _ => False
     end) ks (kids h x).
(* the arrays it uses, once for every cell that does *)
Fixpoint foot (h : heap) (e : elem) (x : node) {struct e} : list nat :=
  let '(Elem _ _ _ _ ks) := e in
  n_at x :: n_arr x ::
  (fix go (ks : list elem) (xs : list node) {struct ks} : list nat :=
     match ks, xs with
     | k :: ks', y :: xs' => (foot h k y ++ go ks' xs')%list
     | _, _ => []
     end) ks (kids h x).
Fixpoint foots (h : heap) (ks : list elem) (xs : list node) {struct ks} : list nat :=
  match ks, xs with
  | k :: ks', y :: xs' => (foot h k y ++ foots h ks' xs')%list
  | _, _ => []
  end.

Definition attrs_ok (h : heap) (x : node) (a : list xattr) :=
  exists la, nth_error h (n_at x) = Some (Ats la) /\ n_alen x <= List.length la /\ firstn (n_alen x) la = a.
Definition kids_ok (h : heap) (x : node) := exists lc, nth_error h (n_arr x) = Some (Els lc) /\ n_len x <= List.length lc.
Lemma rep_eq h e x : rep h e x <->
  n_name x = e_name e /\ n_scope x = e_scope e /\ n_content x = e_content e /\ attrs_ok h x (e_attrs e) /\ kids_ok h x /\
  Forall2 (rep h) (e_children e) (kids h x).
Proof.
  destruct e as [n a s c ks]. cbn [rep e_name e_scope e_content e_attrs e_children].
  assert (G : forall l m, (fix go (ks : list elem) (xs : list node) {struct ks} : Prop :=
     match ks, xs with [], [] => True | k :: ks', y :: xs' => rep h k y /\ go ks' xs' | _, _ => False end) l m <-> Forall2 (rep h) l m).
  { induction l as [|k l IH]; intros [|y m]; split; intros H; auto; try (inversion H; fail); try contradiction.
    - destruct H as [H1 H2]. constructor; auto. apply IH; auto.
    - inversion H; subst. split; auto. apply IH; auto. }
  rewrite G. unfold attrs_ok, kids_ok. tauto.
Qed.
Lemma foot_eq h e x : foot h e x = n_at x :: n_arr x :: foots h (e_children e) (kids h x).
Proof. destruct e as [n a s c ks]. cbn [foot e_children]. do 2 f_equal. generalize (kids h x). induction ks as [|k ks IH]; intros [|y l]; cbn [foots]; auto. rewrite IH. reflexivity. Qed.

Lemma attrs_ok_eq h x a : attrs_ok h x a -> n_attrs h x = a.
Proof. intros (la & E & _ & F). unfold n_attrs, ats. rewrite E. exact F. Qed.
Lemma kids_length h x : kids_ok h x -> List.length (kids h x) = n_len x.
Proof. intros (lc & E & L). unfold kids, cells. rewrite E. apply firstn_length_le. exact L. Qed.
Lemma rep_len h e x : rep h e x -> n_len x = List.length (e_children e).
Proof. intros H. apply rep_eq in H. destruct H as (_ & _ & _ & _ & K & F). rewrite <- (kids_length h x K). symmetry. eapply Forall2_len. exact F. Qed.
Lemma rep_attr h e x l : rep h e x -> nattr h x l = attr e "" l.
Proof. intros H. apply rep_eq in H. destruct H as (_ & _ & _ & A & _). unfold nattr, attr. rewrite (attrs_ok_eq _ _ _ A). reflexivity. Qed.
Lemma rep_is h e x l : rep h e x -> is_elem l x = xname_eqb (e_name e) (xs l).
Proof. intros H. apply rep_eq in H. destruct H as (N & _). unfold is_elem. rewrite N. reflexivity. Qed.
Lemma load_kid h e x i : rep h e x -> i < n_len x -> load h (n_arr x, i) = nth_error (kids h x) i.
Proof.
  intros H L. unfold load, kids. cbn [fst snd]. revert L. generalize (cells h (n_arr x)) (n_len x). clear.
  induction i as [|i IH]; intros [|y l] [|n] L; cbn [firstn nth_error]; auto; try lia. apply IH. lia.
Qed.

(* ---------- what does not change ---------- *)
Lemma rep_frame : forall e h h' x, rep h e x -> (forall a, In a (foot h e x) -> nth_error h' a = nth_error h a) ->
  rep h' e x /\ foot h' e x = foot h e x.
Proof.
  induction e as [n a s c ks IH] using elem_ind'. intros h h' x R F. apply rep_eq in R. destruct R as (N & S & C & (la & A1 & A2 & A3) & (lc & K1 & K2) & B).
  cbn [e_name e_scope e_content e_attrs e_children] in *. rewrite foot_eq in F. cbn [e_children] in F.
  assert (Ek : kids h' x = kids h x) by (unfold kids, cells; rewrite (F (n_arr x)) by (right; left; auto); reflexivity).
  assert (G : Forall2 (rep h') ks (kids h x) /\ foots h' ks (kids h x) = foots h ks (kids h x)).
  { assert (F' : forall a, In a (foots h ks (kids h x)) -> nth_error h' a = nth_error h a) by (intros b Hb; apply F; right; right; auto).
    clear F Ek K1 K2 A1. induction B as [|k y ks' ys Hky B IHB]; [split; [constructor|reflexivity]|].
    cbn [foots] in F'.
    destruct (IH k (or_introl eq_refl) h h' y Hky) as [R1 E1]; [intros b Hb; apply F', in_or_app; auto|].
    destruct IHB as [R2 E2]; [intros e He; apply IH; right; auto|intros b Hb; apply F', in_or_app; auto|].
    split; [constructor; auto|]. cbn [foots]. rewrite E1, E2. reflexivity. }
  destruct G as [G1 G2]. split.
  - apply rep_eq. cbn [e_name e_scope e_content e_attrs e_children]. rewrite Ek.
    repeat (split; [assumption|]). split; [|split; [|exact G1]].
    + exists la. rewrite F by (left; auto). auto.
    + exists lc. rewrite F by (right; left; auto). auto.
  - rewrite !foot_eq. cbn [e_children]. rewrite Ek, G2. reflexivity.
Qed.
Lemma reps_frame h h' es xs : Forall2 (rep h) es xs -> (forall a, In a (foots h es xs) -> nth_error h' a = nth_error h a) ->
  Forall2 (rep h') es xs /\ foots h' es xs = foots h es xs.
Proof.
  intros B. induction B as [|k y ks' ys Hky B IHB]; intros F; [split; [constructor|reflexivity]|]. cbn [foots] in F.
  destruct (rep_frame k h h' y Hky) as [R1 E1]; [intros b Hb; apply F, in_or_app; auto|].
  destruct IHB as [R2 E2]; [intros b Hb; apply F, in_or_app; auto|].
  split; [constructor; auto|]. cbn [foots]. rewrite E1, E2. reflexivity.
Qed.
Lemma foot_bound : forall e h x, rep h e x -> forall a, In a (foot h e x) -> a < List.length h.
Proof.
  induction e as [n at' s c ks IH] using elem_ind'. intros h x R a. apply rep_eq in R.
  destruct R as (_ & _ & _ & (la & A1 & _) & (lc & K1 & _) & B). rewrite foot_eq. cbn [e_children] in *. intros [<- |[<- |H]].
  - apply nth_error_Some. congruence.
  - apply nth_error_Some. congruence.
  - clear K1. induction B as [|k y ks' ys Hky B IHB]; cbn [foots] in H; [destruct H|].
    apply in_app_or in H. destruct H as [H|H]; [eapply (IH k (or_introl eq_refl)); eauto|]. apply IHB; auto. intros e He. apply IH. right. auto.
Qed.
Lemma foots_bound h es xs : Forall2 (rep h) es xs -> forall a, In a (foots h es xs) -> a < List.length h.
Proof. intros B. induction B as [|k y ks' ys Hky B IHB]; cbn [foots]; intros a H; [destruct H|]. apply in_app_or in H. destruct H as [H|H]; eauto using foot_bound. Qed.

(* h' differs from h in the arrays fp, in the cell p, and in new arrays *)
Definition same_but (h h' : heap) (fp : list nat) (p : ptr) : Prop :=
  List.length h <= List.length h' /\
  (forall a, a < List.length h -> ~ In a fp -> a <> fst p -> nth_error h' a = nth_error h a) /\
  (exists l l', nth_error h (fst p) = Some (Els l) /\ nth_error h' (fst p) = Some (Els l') /\ List.length l' = List.length l /\
     forall j, j <> snd p -> nth_error l' j = nth_error l j).
Lemma same_but_refl h fp p x : load h p = Some x -> same_but h h fp p.
Proof.
  intros L. split; [auto|split; [auto|]]. unfold load, cells in L. destruct (nth_error h (fst p)) as [[l|l]|] eqn:E; try (destruct (snd p); discriminate).
  exists l, l. auto.
Qed.
Lemma same_but_trans h1 h2 h3 fp p fp' : same_but h1 h2 fp p -> same_but h2 h3 fp' p ->
  (forall a, In a fp' -> In a fp \/ List.length h1 <= a) -> same_but h1 h3 fp p.
Proof.
  intros (L1 & F1 & l1 & l2 & A1 & A2 & A3 & A4) (L2 & F2 & m1 & m2 & B1 & B2 & B3 & B4) I. split; [lia|split].
  - intros a Ha Hn Hp. rewrite F2; auto; [lia|]. intros Hi. destruct (I a Hi); [auto|lia].
  - assert (m1 = l2) by congruence. subst m1. exists l1, m2. repeat (split; [auto; congruence|]). intros j Hj. rewrite B4, A4; auto.
Qed.
Lemma same_but_more h h' fp fp' p : same_but h h' fp p -> incl fp fp' -> same_but h h' fp' p.
Proof. intros (L & F & C) I. split; [exact L|split; [|exact C]]. intros a Ha Hn Hp. apply F; auto. Qed.

(* ---------- basic operations ---------- *)
Lemma cells_ok h a l : nth_error h a = Some (Els l) -> cells h a = l.
Proof. intros E. unfold cells. rewrite E. reflexivity. Qed.
Lemma load_array h p x : load h p = Some x -> exists l, nth_error h (fst p) = Some (Els l) /\ nth_error l (snd p) = Some x.
Proof. unfold load, cells. destruct (nth_error h (fst p)) as [[l|l]|]; try (destruct (snd p); discriminate). eauto. Qed.
Lemma load_put h p x y : load h p = Some x -> load (put h p y) p = Some y.
Proof.
  intros L. destruct (load_array _ _ _ L) as (l & E & N). unfold load, put. erewrite (cells_ok h) by eauto.
  unfold cells. rewrite nth_error_set_nth by (apply nth_error_Some; congruence). rewrite Nat.eqb_refl.
  rewrite nth_error_set_nth by (apply nth_error_Some; congruence). rewrite Nat.eqb_refl. reflexivity.
Qed.
Lemma put_other h p x a : a <> fst p -> nth_error (put h p x) a = nth_error h a.
Proof.
  intros N. unfold put. destruct (le_lt_dec (List.length h) (fst p)) as [H|H].
  - assert (E : forall (l : heap) i y, List.length l <= i -> set_nth i y l = l).
    { clear. induction l as [|z l IH]; intros [|i] y H; cbn [set_nth List.length] in *; auto; try lia. rewrite IH; auto. lia. }
    rewrite E; auto.
  - rewrite nth_error_set_nth by auto. destruct (Nat.eqb a (fst p)) eqn:Ea; auto. apply Nat.eqb_eq in Ea. contradiction.
Qed.
Lemma put_length h p x : List.length (put h p x) = List.length h.
Proof. apply set_nth_length. Qed.
Lemma put_same_but h p x y : load h p = Some x -> same_but h (put h p y) [] p.
Proof.
  intros L. destruct (load_array _ _ _ L) as (l & E & N). split; [rewrite put_length; auto|split].
  - intros a _ _ Ha. apply put_other; auto.
  - exists l, (set_nth (snd p) y l). split; [auto|]. split.
    + unfold put. rewrite (cells_ok _ _ _ E). rewrite nth_error_set_nth by (apply nth_error_Some; congruence). rewrite Nat.eqb_refl. reflexivity.
    + rewrite set_nth_length. split; [auto|]. intros j Hj. rewrite nth_error_set_nth by (apply nth_error_Some; congruence).
      destruct (Nat.eqb j (snd p)) eqn:Ej; auto. apply Nat.eqb_eq in Ej. contradiction.
Qed.
Lemma snoc_old {A} (h : list A) x a : a < List.length h -> nth_error (h ++ [x])%list a = nth_error h a.
Proof. intros H. apply nth_error_app1. auto. Qed.
Lemma snoc_new {A} (h : list A) x : nth_error (h ++ [x])%list (List.length h) = Some x.
Proof. rewrite nth_error_app2, Nat.sub_diag by lia. reflexivity. Qed.
Lemma snoc_load h x p : fst p < List.length h -> load (h ++ [x])%list p = load h p.
Proof. intros H. unfold load, cells. rewrite snoc_old by auto. reflexivity. Qed.
Lemma load_bound h p x : load h p = Some x -> fst p < List.length h.
Proof. intros L. destruct (load_array _ _ _ L) as (l & E & N). apply nth_error_Some. congruence. Qed.
Lemma snoc_same_but h x p y fp : load h p = Some y -> same_but h (h ++ [x])%list fp p.
Proof.
  intros L. destruct (load_array _ _ _ L) as (l & E & N). split; [rewrite app_length; cbn; lia|split].
  - intros a Ha _ _. apply snoc_old; auto.
  - exists l, l. rewrite snoc_old by (apply nth_error_Some; congruence). auto.
Qed.
