(* Trees in memory of their own satisfy the invariant of NormKeep.v; hence Normalize keeps the roots. *)
From Verif Require Import Base ScopeModel TreeModel TreeProofs GraphModel BuiltinModel XsdModel XsdProofs NormModel NormMem NormAttr NormOps NormPath NormSpec NormKeep.
Local Open Scope string_scope.

(* the cells below a node *)
Inductive under (h : heap) : node -> ptr -> Prop :=
| under_kid x i : i < n_len x -> under h x (n_arr x, i)
| under_deep x i y p : i < n_len x -> load h (n_arr x, i) = Some y -> under h y p -> under h x p.
Lemma under_next h x p y i : under h x p -> load h p = Some y -> i < n_len y -> under h x (n_arr y, i).
Proof.
  induction 1 as [x j Hj|x j z p Hj Lz U IH]; intros L Hi.
  - eapply under_deep; eauto. constructor. auto.
  - eapply under_deep; eauto.
Qed.
Lemma under_rep h x p : under h x p -> forall e, rep h e x -> exists d y, load h p = Some y /\ rep h d y /\ incl (foot h d y) (foots h (e_children e) (kids h x)) /\
  (fst p = n_arr x \/ In (fst p) (foots h (e_children e) (kids h x))).
Proof.
  induction 1 as [x j Hj|x j z p Hj Lz U IH]; intros e R.
  - rewrite (rep_len h e x R) in Hj. destruct (nth_error (e_children e) j) as [k|] eqn:Ek; [|apply nth_error_None in Ek; lia].
    destruct (rep_kid h e x j k R Ek) as (y & Ey & Ry & Ly & _). exists k, y. split; [auto|]. split; [auto|]. split; [|left; auto]. intros a. eapply foot_kid; eauto.
  - pose proof Hj as Hj'. rewrite (rep_len h e x R) in Hj. destruct (nth_error (e_children e) j) as [k|] eqn:Ek; [|apply nth_error_None in Ek; lia].
    destruct (rep_kid h e x j k R Ek) as (y & Ey & Ry & Ly & _). assert (y = z) by congruence. subst z. destruct (IH k Ry) as (d & w & A1 & A2 & A3 & A4).
    assert (Hi : forall a, In a (foots h (e_children k) (kids h y)) \/ a = n_arr y -> In a (foots h (e_children e) (kids h x))).
    { intros a Ha. eapply foot_kid; eauto. rewrite foot_eq. cbn [In]. destruct Ha as [Ha| ->]; auto. }
    exists d, w. split; [auto|]. split; [auto|]. split; [intros a Ha; apply Hi; left; auto|]. right. destruct A4 as [-> |A4]; apply Hi; auto.
Qed.
Lemma zip_in {A B} (R : A -> B -> Prop) l m a : Forall2 R l m -> In a l -> exists b, In (a, b) (combine l m) /\ R a b.
Proof. induction 1 as [|x y l m H F IH]; intros Ha; [destruct Ha|]. destruct Ha as [-> |Ha]; [exists y; split; [left; auto|auto]|]. destruct (IH Ha) as (b & Hb & Rb). exists b. split; [right; auto|auto]. Qed.
Lemma zip_rel {A B} (R : A -> B -> Prop) l m a b : Forall2 R l m -> In (a, b) (combine l m) -> R a b.
Proof. induction 1 as [|x y l m H F IH]; intros Ha; [destruct Ha|]. destruct Ha as [E|Ha]; [injection E as <- <-; auto|auto]. Qed.
Lemma foots_zip h es xs e x : In (e, x) (combine es xs) -> incl (foot h e x) (foots h es xs).
Proof.
  revert xs. induction es as [|d es IH]; intros [|y xs]; cbn [combine foots]; intros H; try destruct H as [].
  - intros a Ha. apply in_or_app. injection H as <- <-. auto.
  - intros a Ha. apply in_or_app. right. eapply IH; eauto.
Qed.
(* the trees have no attributes in common *)
Lemma foots_heads h : forall es xs, Forall2 (rep h) es xs -> NoDup (foots h es xs) -> forall e x e' x', In (e, x) (combine es xs) -> In (e', x') (combine es xs) ->
  ~ (n_at x = n_arr x' \/ In (n_at x) (foots h (e_children e') (kids h x'))).
Proof.
  intros es xs B. induction B as [|d y es xs Hd B IH]; intros N e x e' x' H1 H2; [destruct H1|]. cbn [foots] in N. destruct (nodup_app_inv _ _ N) as (N1 & N2 & N3).
  assert (Hh : forall e x, In (n_at x) (foot h e x)) by (intros f z; rewrite foot_eq; left; auto).
  assert (Hr : forall e x a, a = n_arr x \/ In a (foots h (e_children e) (kids h x)) -> In a (foot h e x)) by (intros f z a Ha; rewrite foot_eq; right; cbn [In]; destruct Ha as [-> |Ha]; auto).
  destruct H1 as [E1|H1], H2 as [E2|H2]; try injection E1 as <- <-; try injection E2 as <- <-.
  - rewrite foot_eq in N1. inversion N1 as [|? ? N4 N5]; subst. intros H. apply N4. cbn [In]. destruct H as [H|H]; auto.
  - intros H. apply (N3 (n_at y)); [auto|]. eapply foots_zip; eauto.
  - intros H. apply (N3 (n_at x)); [apply Hr; auto|]. eapply foots_zip; eauto.
  - eauto.
Qed.

Section Start.
  Variables (h : heap) (roots : list ptr) (es : list elem) (xs : list node).
  Hypothesis L : Forall2 (fun p x => load h p = Some x) roots xs.
  Hypothesis B : Forall2 (rep h) es xs.
  Hypothesis N : NoDup (foots h es xs).
  Hypothesis Np : forall p, In p roots -> ~ In (fst p) (foots h es xs).
  Definition inner (a : nat) : Prop := List.length h <= a \/ exists e x, In (e, x) (combine es xs) /\ (a = n_arr x \/ In a (foots h (e_children e) (kids h x))).
  Definition Fin (p : ptr) : Prop := exists e x, In (e, x) (combine es xs) /\ under h x p.
  Lemma rep_ats e x : rep h e x -> atr h (n_at x) /\ els h (n_arr x).
  Proof. intros R. apply rep_eq in R. destruct R as (_ & _ & _ & (l & E & _) & (m & E' & _) & _). split; eexists; eauto. Qed.
  Lemma root_elem r x : In r roots -> load h r = Some x -> exists e, In (e, x) (combine es xs) /\ rep h e x.
  Proof.
    intros Hr Lr. clear N Np. revert es B. induction L as [|p y ps ys Hy L' IH]; intros fs B'; [destruct Hr|]. inversion B' as [|e ? es' ? R B2]; subst. destruct Hr as [-> |Hr].
    - exists e. assert (y = x) by congruence. subst. split; [left; auto|auto].
    - destruct (IH L' Hr es' B2) as (f & H1 & H2). exists f. split; [right; auto|auto].
  Qed.
  Lemma inner_foot a : inner a -> a < List.length h -> In a (foots h es xs).
  Proof.
    intros [H|(e & x & H & Ha)] Hl; [lia|]. eapply foots_zip; eauto. rewrite foot_eq. cbn [In]. destruct Ha as [-> |Ha]; auto.
  Qed.
  Lemma fresh_ok a : List.length h <= a -> inner a.
  Proof. intros H. left. auto. Qed.
  Lemma apart_ok r x : In r roots -> load h r = Some x -> ~ inner (fst r) /\ ~ inner (n_at x) /\ exists l, nth_error h (n_at x) = Some (Ats l).
  Proof.
    intros Hr Lr. destruct (root_elem r x Hr Lr) as (e & Hz & R). split; [|split].
    - intros Hi. apply (Np r Hr). apply inner_foot; auto. eapply load_bound; eauto.
    - intros Hi. assert (Hb : n_at x < List.length h) by (apply atr_bound; eapply rep_ats; eauto). destruct Hi as [Hi|(e' & x' & Hz' & Hi)]; [lia|]. exact (foots_heads h es xs B N e x e' x' Hz Hz' Hi).
    - apply (rep_ats e x R).
  Qed.
  Lemma node_fits e x y d : In (e, x) (combine es xs) -> rep h d y -> incl (foot h d y) (foots h (e_children e) (kids h x)) -> (forall i, i < n_len y -> Fin (n_arr y, i)) -> fit inner h Fin y.
  Proof.
    intros Hz R Hi K. destruct (rep_ats d y R) as [T1 T2]. rewrite foot_eq in Hi. split; [split; [|split]|split]; auto; right; exists e, x; (split; [auto|]); right; apply Hi; cbn [In]; auto.
  Qed.
  Lemma start_inv : Inv h inner roots h Fin.
  Proof.
    split; [auto|]. split; [|split; [|split; auto]].
    - intros p (e & x & Hz & U). destruct (under_rep h x p U e (zip_rel _ _ _ _ _ B Hz)) as (d & y & Ly & R & Hi & Hp). split.
      + right. exists e, x. auto.
      + exists y. split; [auto|]. eapply node_fits; eauto. intros i Hlt. exists e, x. split; [auto|]. eapply under_next; eauto.
    - intros r Hr. destruct (zip_in _ _ _ r L Hr) as (x & _ & Lr). destruct (root_elem r x Hr Lr) as (e & Hz & R). exists x, x. split; [auto|]. split; [auto|]. split; [repeat split|]. split; [auto|].
      destruct (rep_ats e x R) as [_ T]. split; [right; exists e, x; auto|]. split; [auto|]. intros i Hi. exists e, x. split; [auto|]. constructor. auto.
  Qed.
End Start.

(* the attributes of a root, as they are read *)
Definition alike (e e' : elem) : Prop := e_name e' = e_name e /\ e_attrs e' = e_attrs e /\ e_scope e' = e_scope e.
Lemma roots_kept grow agrow fuel roots es h h' : stands h roots es -> normalize grow agrow fuel roots h = Done h' ->
  Forall2 (fun r e => exists x, load h' r = Some x /\ n_name x = e_name e /\ n_attrs h' x = e_attrs e /\ n_scope x = e_scope e) roots es.
Proof.
  intros (xs & L & B & Nr & Nf & Np) H.
  destruct (normalize_goes grow agrow h (inner h es xs) roots (fresh_ok h es xs) (apart_ok h roots es xs L B Nf Np) fuel h (Fin h es xs) h' (start_inv h roots es xs L B)) as (F' & (_ & _ & K & _) & _); [exact H|].
  clear H Nr Nf Np. revert K. generalize (inner h es xs). intros I K. revert es B.
  induction L as [|r x rs ys Lr L' IH]; intros es B; inversion B as [|e ? es' ? R B']; subst; constructor.
  - destruct (K r (or_introl eq_refl)) as (x0 & y & L0 & L1 & (S1 & S2 & S3 & S4) & E & _). assert (x0 = x) by congruence. subst x0. apply rep_eq in R. destruct R as (R1 & R2 & R3 & RA & _).
    exists y. split; [auto|]. split; [congruence|]. split; [|congruence]. unfold n_attrs, ats. rewrite S2, S3, E. exact (attrs_ok_eq h x (e_attrs e) RA).
  - apply IH; auto; intros r' Hr'. apply K. right. auto.
Qed.
