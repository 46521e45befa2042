(* The declarations do not depend on the order of the types. *)
From Verif Require Import Base SortLib ScopeModel TreeModel EqualModel Utf8 Decimal BuiltinModel CodecModel XsdModel XsdProofs TypesModel TypesSpec TypesProofs NormAttr GraphModel GenModel SgModel SgStruct SgProofs SgNames SgDecl SgExamples SgFlat SgClosed SgFlatSpec SgFlatten SgExpandSpec SgExpand SgExpandFields SliceModel SgGen SgGenSpec SgGenProofs SgOrder SgOrderSpec BindProofs.
Local Open Scope string_scope.

Lemma bare_none fa c : bare fa c <-> no_attributes fa c.
Proof. unfold bare, no_attributes. rewrite Forall_forall. reflexivity. Qed.
Lemma text_unpacks fa st c : unpacks fa st c = true <-> no_attributes fa c /\ is_text st (ct_base c).
Proof. rewrite bare_unpack, bare_none. unfold is_text. destruct (ct_base c); reflexivity. Qed.
Lemma fa_with fa : (forall a t, filtered fa (retype_at a t) = filtered fa a) -> forall a t, filtered fa (with_ty_a a t) = filtered fa a.
Proof. intros H. exact H. Qed.

(* ---------- flattening in any order ---------- *)
Section Flat.
  Variable fa : option (attribute -> bool).
  Hypothesis Hfa : forall a t, filtered fa (retype_at a t) = filtered fa a.
  Variable ft : option (xname -> bool).
  Variable allow : option (list xname).
  Variable h : nat -> nat.
  Hypothesis Hb : forall i, h i <= N.to_nat 1000.
  Variable st : store.
  Hypothesis G : generable h st.
  Hypothesis Sy : steady fa st.
  Lemma any_root : forall i s, nth_error st i = Some (DS s) -> useful s (root_of st i) = false -> root_of st i <> 0%Z.
  Proof.
    intros i s E U Z. apply useful_plain in U. rewrite Z in U. apply (sy_any _ _ Sy i s E U).
    pose proof (good_root _ _ _ (complete_good st (gn_complete _ _ G)) (TPtr i) (nth_lt _ _ _ E)) as A. cbn [bt] in A. rewrite Z in A. exact A.
  Qed.
  Lemma no_switch0 : forall i c j b, nth_error st i = Some (DC c) -> bare fa c -> ct_base c = TPtr j -> nth_error st j = Some (DC b) -> unpacks fa st b = false.
  Proof.
    intros i c j b E B Eb Ej. destruct (unpacks fa st b) eqn:U; [|reflexivity]. exfalso. apply text_unpacks in U as [U1 U2]. apply (sy_text _ _ Sy i c j b); auto. apply bare_none. exact B.
  Qed.
  Lemma flatten_any_order types types' st1 l st2 l' : (forall t, In t types -> known st t) -> (forall b, In (TB b) types -> translated b) -> (forall t, In t types <-> In t types') ->
    flatten_types fa ft allow st types = Ret (st1, l) -> flatten_types fa ft allow st types' = Ret (st2, l') -> st2 = st1 /\ forall x, In x l' <-> In x l.
  Proof. exact (flatten_order fa (fa_with fa Hfa) st (gn_complete _ _ G) h (gn_ranked _ _ G) (sy_simple _ _ Sy) any_root no_switch0 ft allow Hb types types' st1 l st2 l' (gn_apart _ _ G) (gn_translated _ _ G)). Qed.
  Lemma flatten_still types st1 l : (forall t, In t types -> known st t) -> flatten_types fa ft allow st types = Ret (st1, l) -> between fa st st1.
  Proof. exact (flatten_between fa (fa_with fa Hfa) st (gn_complete _ _ G) h (gn_ranked _ _ G) (sy_simple _ _ Sy) any_root no_switch0 ft allow Hb types st1 l). Qed.
  Lemma flatten_unpacks st1 i c c0 : between fa st st1 -> nth_error st1 i = Some (DC c) -> nth_error st i = Some (DC c0) -> unpacks fa st1 c = unpacks fa st c0.
  Proof. exact (unpack_same fa (fa_with fa Hfa) st any_root no_switch0 st1 i c c0). Qed.
End Flat.

(* ---------- expansion in any order ---------- *)
Lemma wanted_same st l l' i : (forall x, In x l' <-> In x l) -> wanted st l' i <-> wanted st l i.
Proof. intros I. split; intros [t [H1 H2]]; exists t; (split; [apply I; exact H1|exact H2]). Qed.
Lemma expand_any_order st l l' st1 st2 : rooted st -> apart st -> NoDup l -> NoDup l' -> (forall t, In t l -> known st t) -> (forall x, In x l' <-> In x l) ->
  expand_types st l = Ret st1 -> expand_types st l' = Ret st2 -> st2 = st1.
Proof.
  intros R A N N' K I E1 E2. assert (K' : forall t, In t l' -> known st t) by (intros t Ht; apply K, I, Ht).
  apply nth_ext_eq. intros i. destruct (nth_error st i) as [d|] eqn:E.
  - destruct (expand_each st l st1 R A N K E1 i d E) as [X|(c & j & es & ats & -> & D & W & Ih & X)]; destruct (expand_each st l' st2 R A N' K' E2 i _ E) as [X'|(c' & j' & es' & ats' & Ed & D' & W' & Ih' & X')].
    + congruence.
    + subst d. apply (wanted_same st l l' i I) in W'. destruct (expand_want st l st1 R A N K E1 i j' c' E W' D') as (es & ats & Ih & Y). destruct (inherits_det _ _ _ _ Ih _ _ Ih') as [-> ->]. congruence.
    + apply (wanted_same st l l' i I) in W. destruct (expand_want st l' st2 R A N' K' E2 i j c E W D) as (es' & ats' & Ih' & Y). destruct (inherits_det _ _ _ _ Ih _ _ Ih') as [-> ->]. congruence.
    + injection Ed as <-. destruct (inherits_det _ _ _ _ Ih _ _ Ih') as [-> ->]. congruence.
  - apply nth_error_None in E. assert (nth_error st1 i = None) by (apply nth_error_None; rewrite (expand_len st l st1 R A N K E1); exact E). assert (nth_error st2 i = None) by (apply nth_error_None; rewrite (expand_len st l' st2 R A N' K' E2); exact E). congruence.
Qed.
(* afterwards there is nothing left to inherit *)
Lemma merge_none src base : (forall b, In b base -> exists s, In s src /\ at_name s = at_name b) -> merge_attributes src base = src.
Proof.
  unfold merge_attributes. induction base as [|b base IH]; intros H; cbn [fold_left]; [reflexivity|]. assert (X : existsb (fun s => xname_eqb (at_name s) (at_name b)) src = true).
  { destruct (H b (or_introl eq_refl)) as [s [H1 H2]]. apply existsb_exists. exists s. split; [exact H1|]. apply xname_eqb_eq. exact H2. }
  rewrite X. apply IH. intros x Hx. apply H. right. exact Hx.
Qed.
Lemma others_covers {A} (name : A -> xname) own l x : In x l -> exists y, In y (own ++ others name own l)%list /\ name y = name x.
Proof.
  intros Hx. destruct (existsb (fun y => xname_eqb (name y) (name x)) own) eqn:E.
  - apply existsb_exists in E as [y [Hy E]]. apply xname_eqb_eq in E. exists y. split; [apply in_or_app; left; exact Hy|exact E].
  - exists x. split; [|reflexivity]. apply in_or_app. right. unfold others. apply filter_In. split; [exact Hx|]. rewrite E. reflexivity.
Qed.
Definition inert (st : store) (t : ty) : Prop := forall i c, t = TPtr i -> nth_error st i = Some (DC c) -> inherit st c = c.
Lemma expand_inert st l st' : rooted st -> apart st -> NoDup l -> (forall t, In t l -> known st t) -> expand_types st l = Ret st' -> wild_named st -> forall t, In t l -> inert st' t.
Proof.
  intros R A N K E Wd t Ht i c -> Ec. unfold inherit. destruct (ct_base c) as [|z|n|j] eqn:Eb; try reflexivity. destruct (get_c st' j) as [b|] eqn:Ej; [|reflexivity]. apply get_c_nth in Ej.
  assert (D' : derives st' i j) by (exists c; split; [exact Ec|split; [exact Eb|exists b; exact Ej]]). pose proof (proj1 (expand_derives st l st' R A N K E i j) D') as D.
  assert (W : wanted st l i) by (exists (TPtr i); split; [exact Ht|constructor]).
  destruct D as (c1 & E1 & Eb1 & (b1 & Ej1)). assert (D : derives st i j) by (exists c1; split; [exact E1|split; [exact Eb1|exists b1; exact Ej1]]).
  destruct (expand_want st l st' R A N K E i j c1 E1 W D) as (es & ats & Ih & X). assert (c = with_fields c1 es ats) by congruence.
  inversion Ih as [i2 c2 H1 D1|i2 j2 c2 es2 ats2 H1 D1 Hj]; subst i2; [exfalso; exact (D1 j D)|]. assert (c2 = c1) by congruence. subst c2. assert (j2 = j) by exact (derives_fun _ _ _ _ D D1). subst j2.
  assert (Wj : wanted st l j) by (exists (TPtr i); split; [exact Ht|]; apply an_base; cbn [base_of]; rewrite E1; cbn [def_base]; rewrite Eb1; [discriminate|constructor]).
  assert (Xb : ct_elems b = es2 /\ ct_attrs b = ats2).
  { destruct (expand_each st l st' R A N K E j _ Ej1) as [Y|(c3 & k & es3 & ats3 & Ed & Dk & _ & Ih3 & Y)].
    - assert (b1 = b) as -> by congruence. assert (Q : (ct_elems b = es2 /\ ct_attrs b = ats2) \/ exists k, derives st j k). { inversion Hj as [i3 c3 G3 D3|i3 k c3 es3 ats3 G3 D3 Hk]; [left; assert (c3 = b) as -> by congruence; auto|right; exists k; exact D3]. }
      destruct Q as [Q|[k D3]]; [exact Q|].
      destruct (expand_want st l st' R A N K E j k b Ej1 Wj D3) as (es4 & ats4 & Ih4 & Z). destruct (inherits_det _ _ _ _ Hj _ _ Ih4) as [Q1 Q2]. assert (Z' : b = with_fields b es4 ats4) by congruence. rewrite <- Q1, <- Q2. split; [exact (f_equal ct_elems Z')|exact (f_equal ct_attrs Z')].
    - destruct (inherits_det _ _ _ _ Hj _ _ Ih3) as [-> ->]. assert (b = with_fields c3 es2 ats2) as -> by congruence. auto. }
  destruct Xb as [Xe Xa].
  assert (Ee : ct_elems c = (others el_name (ct_elems c1) (ct_elems b) ++ ct_elems c1)%list) by (subst c; cbn [with_fields ct_elems]; congruence).
  assert (Ea : ct_attrs c = (ct_attrs c1 ++ others at_name (ct_attrs c1) (ct_attrs b))%list) by (subst c; cbn [with_fields ct_attrs]; congruence).
  rewrite (merge_none (ct_attrs c) (ct_attrs b)) by (intros x Hx; rewrite Ea; exact (others_covers at_name (ct_attrs c1) (ct_attrs b) x Hx)).
  assert (Wild : existsb el_wild (ct_elems c) = true \/ find el_wild (ct_elems b) = None).
  { destruct (find el_wild (ct_elems b)) as [e|] eqn:F; [left|right; reflexivity]. apply find_some in F as [F1 F2]. destruct (others_covers el_name (ct_elems c1) (ct_elems b) e F1) as [y [Y1 Y2]].
    apply existsb_exists. exists y. split; [rewrite Ee; apply in_or_app; apply in_app_or in Y1; tauto|].
    assert (Fo : forall k es ats, inherits st k es ats -> forall x, In x es -> el_wild x = true <-> el_name x = mkName "" "").
    { intros k es' ats' I x Hx. apply (proj1 (inherits_nearest st k es' ats' R I)) in Hx as (m & _ & (cm & Hm & Ho) & _). exact (Wd m cm x Hm Ho). }
    assert (Hy : el_wild y = true <-> el_name y = mkName "" ""). { apply in_app_or in Y1 as [Y1|Y1]; [exact (Wd i c1 y E1 Y1)|]. apply others_in in Y1 as [Y1 _]. rewrite Xe in Y1. exact (Fo j es2 ats2 Hj y Y1). }
    apply Hy. rewrite Y2. rewrite Xe in F1. apply (Fo j es2 ats2 Hj e F1). exact F2. }
  destruct c as [d n b0 an es0 ats0 ab ex mx]. cbn [ct_elems ct_attrs set_fields ct_doc ct_name ct_base ct_anon ct_abstract ct_extends ct_mixed] in *. unfold set_fields. cbn. destruct Wild as [-> | ->]; [reflexivity|]. destruct (existsb el_wild es0); reflexivity.
Qed.
