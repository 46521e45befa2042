(* Which fields are inherited; expanding twice; expanding after flattening. *)
From Verif Require Import Base SortLib ScopeModel TreeModel EqualModel BuiltinModel XsdModel XsdProofs TypesModel TypesSpec TypesProofs NormAttr GraphModel GraphSpec GraphProofs GenModel SgModel SgProofs SgNames SgFlat SgFlatSpec SgFlatten SgExpandSpec SgExpand.
Local Open Scope string_scope.

Lemma others_in {A} (name : A -> xname) own l x : In x (others name own l) <-> In x l /\ forall y, In y own -> name y <> name x.
Proof.
  unfold others. rewrite filter_In. split; intros [H1 H2]; (split; [exact H1|]).
  - intros y Hy E. apply negb_true_iff in H2. assert (existsb (fun y => xname_eqb (name y) (name x)) own = true); [|congruence]. apply existsb_exists. exists y. split; [exact Hy|]. apply xname_eqb_eq. exact E.
  - apply negb_true_iff. apply not_true_is_false. intros E. apply existsb_exists in E as [y [Hy E]]. apply xname_eqb_eq in E. exact (H2 y Hy E).
Qed.
Lemma others_nil {A} (name : A -> xname) own l : (forall x, In x l -> exists y, In y own /\ name y = name x) -> others name own l = [].
Proof.
  intros H. destruct (others name own l) as [|x m] eqn:E; [reflexivity|]. exfalso. assert (Hx : In x (others name own l)) by (rewrite E; left; reflexivity). apply others_in in Hx as [H1 H2].
  destruct (H x H1) as [y [Y1 Y2]]. exact (H2 y Y1 Y2).
Qed.
Lemma derives_fun st i j k : derives st i j -> derives st i k -> k = j.
Proof. intros [c [H1 [H2 _]]] [c' [H3 [H4 _]]]. congruence. Qed.
Lemma lineage_start st i j : lineage st i j -> complex_at st i.
Proof. intros H. destruct H as [i H|i j k [c [H _]] _]; [exact H|exists c; exact H]. Qed.
Lemma lineage_end st i j : lineage st i j -> complex_at st j.
Proof. induction 1; assumption. Qed.
Lemma lineage_rank st : rooted st -> forall i j, lineage st i j -> j = i \/ rank_of st j < rank_of st i.
Proof. intros R. induction 1 as [i H|i j k D L IH]; [left; reflexivity|]. right. pose proof (derives_rank st R i j D). destruct IH as [->|IH]; lia. Qed.
Lemma lineage_inv st i k : lineage st i k -> k = i \/ exists j, derives st i j /\ lineage st j k.
Proof. intros H. inversion H; subst; eauto. Qed.

(* a field of kind A is inherited from the nearest type that has one of its name *)
Section Nearest.
  Context {A : Type}.
  Variable name : A -> xname.
  Variable get : complexT -> list A.
  Variable st : store.
  Hypothesis R : rooted st.
  Notation owns := (owns get st).
  Notation nearest := (nearest name get st).
  Lemma nearest_root i c x : nth_error st i = Some (DC c) -> (forall j, ~ derives st i j) -> (In x (get c) <-> exists k, nearest i k x).
  Proof.
    intros H D. split.
    - intros Hx. exists i. split; [constructor; exists c; exact H|]. split; [exists c; auto|]. intros m y L1 L2 N. apply lineage_inv in L1 as [->|[j [Hj _]]]; [congruence|]. exfalso. exact (D j Hj).
    - intros [k [L [[c' [H1 H2]] _]]]. apply lineage_inv in L as [->|[j [Hj _]]]; [congruence|]. exfalso. exact (D j Hj).
  Qed.
  Lemma nearest_step i j c x l : nth_error st i = Some (DC c) -> derives st i j -> (forall x, In x l <-> exists k, nearest j k x) ->
    (In x (get c) \/ In x (others name (get c) l) <-> exists k, nearest i k x).
  Proof.
    intros H D IH. rewrite others_in, IH. split.
    - intros [Hx|[[k [L [O N]]] Sh]].
      + exists i. split; [constructor; exists c; exact H|]. split; [exists c; auto|]. intros m y L1 L2 Nm. exfalso.
        destruct (lineage_rank st R _ _ L1) as [->|X]; [congruence|]. destruct (lineage_rank st R _ _ L2) as [E|Y]; [congruence|lia].
      + exists k. split; [eapply li_step; [exact D|eassumption]|]. split; [exact O|]. intros m y L1 L2 Nm Oy. apply lineage_inv in L1 as [->|[j' [Hj L1]]].
        * destruct Oy as [c' [Y1 Y2]]. assert (c' = c) as -> by congruence. exact (Sh y Y2).
        * rewrite (derives_fun _ _ _ _ D Hj) in *. exact (N m y L1 L2 Nm Oy).
    - intros [k [L [O N]]]. apply lineage_inv in L as [->|[j' [Hj L]]].
      + left. destruct O as [c' [Y1 Y2]]. congruence.
      + rewrite (derives_fun _ _ _ _ D Hj) in *. right. split.
        * exists k. split; [exact L|]. split; [exact O|]. intros m y L1 L2 Nm Oy. apply (N m y); try assumption. eapply li_step; [exact D|eassumption].
        * intros y Hy. apply (N i y); [constructor; exists c; exact H|eapply li_step; [exact D|eassumption]| |exists c; auto]. intros ->.
          pose proof (derives_rank st R _ _ D). destruct (lineage_rank st R _ _ L) as [->|X]; lia.
  Qed.
End Nearest.
Lemma inherits_nearest st i es ats : rooted st -> inherits st i es ats ->
  (forall e, In e es <-> exists k, nearest el_name ct_elems st i k e) /\ (forall a, In a ats <-> exists k, nearest at_name ct_attrs st i k a).
Proof.
  intros R H. induction H as [i c H D|i j c es ats H D Hj [IH1 IH2]]; split; intros x.
  - apply nearest_root; assumption.
  - apply nearest_root; assumption.
  - rewrite in_app_iff, or_comm. eapply nearest_step; eassumption.
  - rewrite in_app_iff. eapply nearest_step; eassumption.
Qed.
Lemma inherits_det st i es ats : inherits st i es ats -> forall es' ats', inherits st i es' ats' -> es' = es /\ ats' = ats.
Proof.
  induction 1 as [i c H D|i j c es ats H D Hj IH]; intros es' ats' H'; inversion H' as [i2 c' H1 D1|i2 j' c' es2 ats2 H1 D1 Hj1]; subst; assert (c' = c) as -> by congruence.
  - auto.
  - exfalso. exact (D _ D1).
  - exfalso. exact (D1 _ D).
  - rewrite (derives_fun _ _ _ _ D D1) in *. destruct (IH _ _ Hj1) as [-> ->]. auto.
Qed.

(* ---------- what expanding leaves alone ---------- *)
Section Again.
  Variables (st : store) (l : list ty) (st' : store).
  Hypothesis R : rooted st.
  Hypothesis A : apart st.
  Hypothesis N : NoDup l.
  Hypothesis K : forall t, In t l -> known st t.
  Hypothesis E : expand_types st l = Ret st'.
  Lemma expand_len : List.length st' = List.length st.
  Proof. destruct (expand_all st l R A N K) as [s [E0 [L _]]]. congruence. Qed.
  Lemma expand_each i d : nth_error st i = Some d -> nth_error st' i = Some d \/
    exists c j es ats, d = DC c /\ derives st i j /\ wanted st l i /\ inherits st i es ats /\ nth_error st' i = Some (DC (with_fields c es ats)).
  Proof. destruct (expand_all st l R A N K) as [s [E0 [_ [_ [_ H]]]]]. assert (s = st') as -> by congruence. apply H. Qed.
  Lemma expand_want i j c : nth_error st i = Some (DC c) -> wanted st l i -> derives st i j -> exists es ats, inherits st i es ats /\ nth_error st' i = Some (DC (with_fields c es ats)).
  Proof. destruct (expand_all st l R A N K) as [s [E0 [_ [H _]]]]. assert (s = st') as -> by congruence. apply H. Qed.
  Lemma expand_base i : base_of st' (TPtr i) = base_of st (TPtr i).
  Proof.
    cbn [base_of]. destruct (nth_error st i) as [d|] eqn:Ei.
    - destruct (expand_each i d Ei) as [->|[c [j [es [ats [-> [_ [_ [_ ->]]]]]]]]]; reflexivity.
    - apply nth_error_None in Ei. rewrite <- expand_len in Ei. apply nth_error_None in Ei. rewrite Ei. reflexivity.
  Qed.
  Lemma expand_name t : type_name st' t = type_name st t.
  Proof.
    destruct t as [| | |i]; try reflexivity. cbn [type_name]. destruct (nth_error st i) as [d|] eqn:Ei.
    - destruct (expand_each i d Ei) as [->|[c [j [es [ats [-> [_ [_ [_ ->]]]]]]]]]; reflexivity.
    - apply nth_error_None in Ei. rewrite <- expand_len in Ei. apply nth_error_None in Ei. rewrite Ei. reflexivity.
  Qed.
  Lemma expand_back i d' : nth_error st' i = Some d' -> exists d, nth_error st i = Some d.
  Proof. intros H. destruct (nth_error st i) as [d|] eqn:Ei; [eauto|]. apply nth_error_None in Ei. rewrite <- expand_len in Ei. apply nth_error_None in Ei. congruence. Qed.
  Lemma expand_ancestor t u : ancestor st t u <-> ancestor st' t u.
  Proof.
    assert (B : forall t, base_of st' t = base_of st t) by (intros [| | |i]; try reflexivity; apply expand_base).
    split; (induction 1 as [t|t u Hn Ha IH]; [constructor|]); apply an_base; [rewrite B; exact Hn|rewrite B; exact IH|rewrite <- B; exact Hn|rewrite <- B; exact IH].
  Qed.
  Lemma expand_rooted : rooted st'.
  Proof. intros i d' H. destruct (expand_back i d' H) as [d Hd]. destruct (R i d Hd) as [b Hb]. exists b. apply expand_ancestor. exact Hb. Qed.
  Lemma expand_apart : apart st'.
  Proof.
    intros i d' t H Ht. destruct (expand_back i d' H) as [d Hd]. rewrite expand_name in Ht. apply (A i d t Hd). rewrite Ht. pose proof (expand_name (TPtr i)) as X. cbn [type_name] in X. rewrite H, Hd in X. exact X.
  Qed.
  Lemma expand_complex i : complex_at st' i <-> complex_at st i.
  Proof.
    split; intros [c H].
    - destruct (expand_back i _ H) as [d Hd]. destruct (expand_each i d Hd) as [X|[c0 [j [es [ats [-> _]]]]]]; [exists c; congruence|exists c0; exact Hd].
    - destruct (expand_each i _ H) as [X|[c0 [j [es [ats [_ [_ [_ [_ X]]]]]]]]]; eexists; exact X.
  Qed.
  Lemma expand_derives i j : derives st' i j <-> derives st i j.
  Proof.
    split; intros [c [H1 [H2 H3]]]; apply expand_complex in H3.
    - destruct (proj1 (expand_complex i) (ex_intro _ c H1)) as [c0 H0]. exists c0. split; [exact H0|]. split; [|exact H3]. pose proof (expand_base i) as X. cbn [base_of] in X. rewrite H1, H0 in X. cbn [def_base] in X. congruence.
    - destruct (proj2 (expand_complex i) (ex_intro _ c H1)) as [c0 H0]. exists c0. split; [exact H0|]. split; [|exact H3]. pose proof (expand_base i) as X. cbn [base_of] in X. rewrite H1, H0 in X. cbn [def_base] in X. congruence.
  Qed.
  (* inheriting again adds nothing to a type that was expanded *)
  Lemma inherits_again i es2 ats2 : inherits st' i es2 ats2 -> wanted st l i -> exists c', nth_error st' i = Some (DC c') /\ es2 = ct_elems c' /\ ats2 = ct_attrs c' /\ inherits st i es2 ats2.
  Proof.
    induction 1 as [i c' H D|i j c' es ats H D Hj IH]; intros W.
    - exists c'. split; [exact H|]. split; [reflexivity|]. split; [reflexivity|]. destruct (expand_back i _ H) as [d Hd]. destruct (expand_each i d Hd) as [X|[c0 [j [_ [_ [_ [X _]]]]]]].
      + assert (d = DC c') as -> by congruence. constructor; [exact Hd|]. intros j Hj. apply (D j). apply expand_derives. exact Hj.
      + exfalso. apply (D j). apply expand_derives. exact X.
    - exists c'. split; [exact H|]. apply expand_derives in D. pose proof D as [c [H1 [H2 H3]]]. destruct (IH (wanted_base st l i j W D)) as [cj [J1 [-> [-> J2]]]].
      destruct (expand_want i j c H1 W D) as [es1 [ats1 [I1 I2]]]. assert (c' = with_fields c es1 ats1) as -> by congruence. cbn [ct_elems ct_attrs with_fields].
      inversion I1 as [i2 c2 X1 X2|i2 j2 c2 es3 ats3 X1 X2 X3]; subst; [exfalso; exact (X2 j D)|]. rewrite (derives_fun _ _ _ _ D X2) in *. assert (c2 = c) as -> by congruence.
      destruct (inherits_det _ _ _ _ J2 _ _ X3) as [-> ->].
      assert (Z1 : forall (B : Type) (name : B -> xname) own m, others name (others name own m ++ own)%list m = [] /\ others name (own ++ others name own m)%list m = []).
      { intros B name own m. assert (forall x, In x m -> exists y, (In y own \/ In y (others name own m)) /\ name y = name x) as Y.
        { intros x Hx. destruct (existsb (fun y => xname_eqb (name y) (name x)) own) eqn:Ex.
          - apply existsb_exists in Ex as [y [Y1 Y2]]. apply xname_eqb_eq in Y2. exists y. auto.
          - exists x. split; [|reflexivity]. right. unfold others. apply filter_In. rewrite Ex. auto. }
        split; apply others_nil; intros x Hx; destruct (Y x Hx) as [y [Y1 Y2]]; exists y; (split; [apply in_or_app; tauto|exact Y2]). }
      destruct (Z1 _ el_name (ct_elems c) (ct_elems cj)) as [-> _]. destruct (Z1 _ at_name (ct_attrs c) (ct_attrs cj)) as [_ ->]. rewrite app_nil_r. cbn [app].
      split; [reflexivity|]. split; [reflexivity|]. exact I1.
  Qed.
  Theorem expand_again l2 : NoDup l2 -> (forall t, In t l2 -> known st t) -> exists st2, expand_types st' l2 = Ret st2 /\ forall i, wanted st l i -> nth_error st2 i = nth_error st' i.
  Proof.
    intros N2 K2. assert (K2' : forall t, In t l2 -> known st' t). { intros t Ht. specialize (K2 t Ht). destruct t; cbn [known] in *; auto. rewrite expand_len. exact K2. }
    destruct (expand_all st' l2 expand_rooted expand_apart N2 K2') as [st2 [E2 [_ [_ [H2 H3]]]]]. exists st2. split; [exact E2|]. intros i W.
    destruct (nth_error st' i) as [d|] eqn:Ei; [|rewrite H2; [exact Ei|]].
    - destruct (H3 i d Ei) as [X|[c [j [es [ats [-> [D [_ [I X]]]]]]]]]; [exact X|]. destruct (inherits_again i es ats I W) as [c' [J1 [-> [-> J2]]]]. assert (c' = c) as -> by congruence. rewrite X.
      f_equal. f_equal. apply expand_derives in D. destruct D as [c0 [D1 [D2 D3]]]. destruct (expand_want i j c0 D1 W) as [es [ats [_ Y]]]; [exists c0; auto|]. assert (c = with_fields c0 es ats) as -> by congruence. reflexivity.
    - right. intros j [c [X _]]. congruence.
  Qed.
End Again.

(* ---------- after flattening ---------- *)
Lemma lineage_ancestor st i k : lineage st i k -> ancestor st (TPtr i) (TPtr k).
Proof.
  induction 1 as [i H|i j k [c [H1 [H2 _]]] L IH]; [constructor|]. apply an_base; cbn [base_of]; rewrite H1; cbn [def_base]; rewrite H2; [discriminate|exact IH].
Qed.
Lemma names_nodup st l : (forall l1 v l2 w, l = (l1 ++ v :: l2)%list -> In w l1 -> type_name st w <> type_name st v) -> NoDup l.
Proof.
  induction l as [|x l IH] using rev_ind; intros H; [constructor|]. apply NoDup_snoc.
  - apply IH. intros l1 v l2 w E. apply (H l1 v (l2 ++ [x])%list w). rewrite E, <- app_assoc. reflexivity.
  - intros Hx. exact (H l x [] x eq_refl Hx eq_refl).
Qed.
Lemma flattened_name fa st d d' : flattened fa st d d' -> def_name d' = def_name d.
Proof. destruct d, d'; cbn [flattened def_name]; try contradiction; [tauto|]. intros [_ ->]. reflexivity. Qed.
Lemma flattened_apart fa st st' : apart st -> List.length st' = List.length st -> (forall i d, nth_error st i = Some d -> exists d', nth_error st' i = Some d' /\ flattened fa st d d') -> apart st'.
Proof.
  intros A L F i d' t H Ht. destruct (nth_error st i) as [d|] eqn:E; [|apply nth_error_None in E; rewrite <- L in E; apply nth_error_None in E; congruence].
  destruct (F i d E) as [d1 [E1 F1]]. assert (d1 = d') as -> by congruence. apply (A i d t E). rewrite <- (flattened_name _ _ _ _ F1), <- Ht.
  destruct t as [| | |j]; try reflexivity. cbn [type_name] in *. destruct (nth_error st j) as [dj|] eqn:Ej.
  - destruct (F j dj Ej) as [dj' [-> Fj]]. cbn [option_map]. rewrite (flattened_name _ _ _ _ Fj). reflexivity.
  - apply nth_error_None in Ej. rewrite <- L in Ej. apply nth_error_None in Ej. rewrite Ej. reflexivity.
Qed.
Lemma complete_rooted st : complete st -> rooted st.
Proof. intros C i d H. exact (proj1 (C i d H)). Qed.
Theorem analysed fa ft allow st types : (forall a t, filtered fa (retype_at a t) = filtered fa a) -> complete st -> apart st -> (forall t, In t types -> known st t) ->
  exists st1 l st2, flatten_types fa ft allow st types = Ret (st1, l) /\ expand_types st1 l = Ret st2 /\ rooted st1 /\ apart st1 /\ NoDup l /\ forall t, In t l -> known st1 t.
Proof.
  intros Fa C A K. destruct (flatten_all fa ft allow st types Fa C K) as [st1 [l [E [F [L [_ [C1 [K1 [_ N]]]]]]]]].
  pose proof (flattened_apart fa st st1 A L F) as A1. pose proof (complete_rooted _ C1) as R1. pose proof (names_nodup st1 l N) as N1.
  destruct (expand_main st1 l R1 A1 N1 K1) as [st2 [E2 _]]. exists st1, l, st2. auto 10.
Qed.
Theorem closed_fields fa ft allow h st types : (forall a t, filtered fa (retype_at a t) = filtered fa a) -> complete st -> apart st -> ranked h st -> (forall i, h i <= N.to_nat 1000) -> (forall t, In t types -> known st t) ->
  exists st1 l st2, flatten_types fa ft allow st types = Ret (st1, l) /\ expand_types st1 l = Ret st2 /\
    forall i c u, In (TPtr i) l -> nth_error st2 i = Some (DC c) -> In u (map el_type (ct_elems c) ++ map at_type (ct_attrs c))%list -> listed st2 l u.
Proof.
  intros Fa C A Rk B K. destruct (analysed fa ft allow st types Fa C A K) as [st1 [l [st2 [E1 [E2 [R1 [A1 [N1 K1]]]]]]]]. exists st1, l, st2. split; [exact E1|]. split; [exact E2|].
  intros i c u Hi Hc Hu. destruct (flatten_closed fa ft allow h st types Fa C Rk B K) as [st1' [l' [E1' Hr]]]. assert (st1' = st1) as -> by congruence. assert (l' = l) as -> by congruence. clear E1'.
  assert (Ls : forall u, listed st1 l u -> listed st2 l u). { intros v [w [W1 W2]]. exists w. split; [exact W1|]. rewrite !(expand_name st1 l st2 R1 A1 N1 K1 E2). exact W2. }
  apply Ls. pose proof (Hr _ Hi) as Rd.
  assert (Own : forall k ck v, lineage st1 i k -> nth_error st1 k = Some (DC ck) -> In v (map el_type (ct_elems ck) ++ map at_type (ct_attrs ck))%list -> listed st1 l v).
  { intros k ck v Lk Hk Hv. specialize (Rd k (lineage_ancestor _ _ _ Lk)). rewrite Hk in Rd. exact (proj1 (proj1 Rd v Hv)). }
  destruct (expand_back st1 l st2 R1 A1 N1 K1 E2 i _ Hc) as [d Hd]. destruct (expand_each st1 l st2 R1 A1 N1 K1 E2 i d Hd) as [X|[c0 [j [es [ats [-> [D [_ [I X]]]]]]]]].
  - assert (d = DC c) as -> by congruence. apply (Own i c u); [constructor; exists c; exact Hd|exact Hd|exact Hu].
  - assert (c = with_fields c0 es ats) as -> by congruence. cbn [ct_elems ct_attrs with_fields] in Hu. destruct (inherits_nearest st1 i es ats R1 I) as [I1 I2]. apply in_app_or in Hu as [Hu|Hu]; apply in_map_iff in Hu as [x [<- Hx]].
    + apply I1 in Hx as [k [Lk [[ck [Hk Ho]] _]]]. apply (Own k ck _ Lk Hk). apply in_or_app. left. apply in_map. exact Ho.
    + apply I2 in Hx as [k [Lk [[ck [Hk Ho]] _]]]. apply (Own k ck _ Lk Hk). apply in_or_app. right. apply in_map. exact Ho.
Qed.
