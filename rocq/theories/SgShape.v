(* What the declarations look like. *)
From Verif Require Import Base SortLib ScopeModel TreeModel EqualModel Utf8 Decimal BuiltinModel CodecModel XsdModel XsdProofs TypesModel TypesSpec TypesProofs NormAttr GraphModel GenModel SgModel SgStruct SgProofs SgNames SgDecl SgExamples SgFlat SgClosed SgFlatSpec SgFlatten SgExpandSpec SgExpand SgExpandFields SgExpandExamples SliceModel SgGen SgGenSpec SgGenProofs SgGenCode SgGenClosed SgGenName SgOrderSpec SgOrderReach SgOrderGen SgOrderCode SgShapeSpec.
Local Open Scope string_scope.

Lemma forall2_comp {A B C} (R : A -> B -> Prop) (S : B -> C -> Prop) (T : A -> C -> Prop) l m n : (forall x y z, R x y -> S y z -> T x z) -> Forall2 R l m -> Forall2 S m n -> Forall2 T l n.
Proof. intros H F. revert n. induction F as [|x y l m Hx F IH]; intros n G; inversion G; subst; constructor; eauto. Qed.
Lemma forall2_filter {A B} (R : A -> B -> Prop) p q l m : (forall x y, R x y -> p x = q y) -> Forall2 R l m -> Forall2 R (filter p l) (filter q m).
Proof. intros H F. induction F as [|x y l m Hx F IH]; cbn [filter]; [constructor|]. rewrite <- (H x y Hx). destruct (p x); [constructor; auto|auto]. Qed.
Lemma existsb_forall2 {A B} (R : A -> B -> Prop) p q l m : (forall x y, R x y -> p x = q y) -> Forall2 R l m -> existsb p l = existsb q m.
Proof. intros H F. induction F as [|x y l m Hx F IH]; cbn [existsb]; [reflexivity|]. rewrite (H x y Hx), IH. reflexivity. Qed.
Lemma others_forall2 {A} (name : A -> xname) (R : A -> A -> Prop) own own' l l' : (forall x y, R x y -> name y = name x) -> Forall2 R own own' -> Forall2 R l l' -> Forall2 R (others name own l) (others name own' l').
Proof.
  intros N O F. unfold others. apply forall2_filter; [|exact F]. intros x y H. f_equal. apply (existsb_forall2 R); [|exact O]. intros a b Hab. rewrite (N _ _ Hab), (N _ _ H). reflexivity.
Qed.

Section Track.
  Variable fa : option (attribute -> bool).
  Hypothesis Hfa : forall a t, filtered fa (retype_at a t) = filtered fa a.
  Variable st0 : store.
  Hypothesis C0 : complete st0.
  Hypothesis Fm : firm fa st0.
  Definition re (e e' : element) : Prop := known st0 (el_type e) /\ kept fa st0 (el_type e) (el_type e') /\ e' = retype_el e (el_type e').
  Definition ra (a a' : attribute) : Prop := known st0 (at_type a) /\ kept fa st0 (at_type a) (at_type a') /\ a' = retype_at a (at_type a').
  Lemma re_name e e' : re e e' -> el_name e' = el_name e.
  Proof. intros (_ & _ & ->). reflexivity. Qed.
  Lemma ra_name a a' : ra a a' -> at_name a' = at_name a.
  Proof. intros (_ & _ & ->). reflexivity. Qed.
  (* a type with its own fields, or with all it inherits *)
  Definition own_fields (c0 c : complexT) : Prop := Forall2 re (ct_elems c0) (ct_elems c) /\ Forall2 ra (ct_attrs c0) (ct_attrs c).
  Definition full (i : nat) (c : complexT) : Prop := exists es ats, inherits st0 i es ats /\ Forall2 re es (ct_elems c) /\ Forall2 ra ats (ct_attrs c).
  Definition fullat (st : store) (i : nat) : Prop := exists c, nth_error st i = Some (DC c) /\ full i c.
  Record tracks (D : nat -> Prop) (st : store) : Prop := mkTracks {
    tr_follows : follows fa st0 st;
    tr_simple : forall i s0, nth_error st0 i = Some (DS s0) -> exists s, nth_error st i = Some (DS s) /\ sd_name s = sd_name s0 /\ sd_list s = sd_list s0 /\ sd_union s = sd_union s0;
    tr_complex : forall i c0, nth_error st0 i = Some (DC c0) -> exists c, nth_error st i = Some (DC c) /\ ct_name c = ct_name c0 /\ ct_doc c = ct_doc c0 /\ ct_mixed c = ct_mixed c0 /\
      kept fa st0 (ct_base c0) (ct_base c) /\ (own_fields c0 c \/ D i);
    tr_full : forall i c0, nth_error st0 i = Some (DC c0) -> D i -> fullat st i }.
  Lemma tracks_start : tracks (fun _ => False) st0.
  Proof.
    assert (X : forall i c, nth_error st0 i = Some (DC c) -> own_fields c c).
    { intros i c E. pose proof (proj2 (C0 i _ E)) as K. cbn [uses] in K. split.
      - assert (Q : forall e, In e (ct_elems c) -> known st0 (el_type e)) by (intros e He; apply K; right; apply in_or_app; left; apply in_map; exact He). revert Q. generalize (ct_elems c). intros l Q. induction l as [|e l IH]; constructor; [|apply IH; intros x Hx; apply Q; right; exact Hx].
        split; [apply Q; left; reflexivity|]. split; [left; reflexivity|]. destruct e; reflexivity.
      - assert (Q : forall a, In a (ct_attrs c) -> known st0 (at_type a)) by (intros a Ha; apply K; right; apply in_or_app; right; apply in_map; exact Ha). revert Q. generalize (ct_attrs c). intros l Q. induction l as [|a l IH]; constructor; [|apply IH; intros x Hx; apply Q; right; exact Hx].
        split; [apply Q; left; reflexivity|]. split; [left; reflexivity|]. destruct a; reflexivity. }
    split; [apply follows_refl|intros i s E; exists s; auto| |intros ? ? _ []].
    intros i c E. exists c. do 4 (split; [auto|]). split; [left; reflexivity|]. left. exact (X i c E).
  Qed.

  Section One.
    Variables (D : nat -> Prop) (st : store).
    Hypothesis T : tracks D st.
    Lemma track_back_s k s : nth_error st k = Some (DS s) -> exists s0, nth_error st0 k = Some (DS s0).
    Proof.
      intros E. destruct (nth_error st0 k) as [[c0|s0]|] eqn:E0; [|eauto|].
      - destruct (tr_complex _ _ T k c0 E0) as (c & Ec & _). congruence.
      - apply nth_error_None in E0. rewrite <- (fo_len _ _ _ (tr_follows _ _ T)) in E0. apply nth_error_None in E0. congruence.
    Qed.
    Lemma track_back_c k c : nth_error st k = Some (DC c) -> exists c0, nth_error st0 k = Some (DC c0).
    Proof.
      intros E. destruct (nth_error st0 k) as [[c0|s0]|] eqn:E0; [eauto| |].
      - destruct (tr_simple _ _ T k s0 E0) as (s & Es & _). congruence.
      - apply nth_error_None in E0. rewrite <- (fo_len _ _ _ (tr_follows _ _ T)) in E0. apply nth_error_None in E0. congruence.
    Qed.
    Lemma inherits_own i es ats c0 : inherits st0 i es ats -> nth_error st0 i = Some (DC c0) -> incl (ct_attrs c0) ats.
    Proof.
      intros J E a Ha. inversion J as [i0 c1 H1 H2|i0 j0 c1 es0 ats0 H1 H2 H3]; subst; assert (c1 = c0) as -> by congruence; [exact Ha|]. apply in_or_app. left. exact Ha.
    Qed.
    Lemma track_attrs i c0 c : nth_error st0 i = Some (DC c0) -> nth_error st i = Some (DC c) -> (forall a, In a (ct_attrs c) -> filtered fa a = true) -> forall a, In a (ct_attrs c0) -> filtered fa a = true.
    Proof.
      intros E0 E F a Ha. assert (X : exists ats, Forall2 ra ats (ct_attrs c) /\ In a ats).
      { destruct (tr_complex _ _ T i c0 E0) as (c1 & E1 & _ & _ & _ & _ & [[_ O]|O]); [assert (c1 = c) as -> by congruence; eauto|]. destruct (tr_full _ _ T i c0 E0 O) as (c2 & E2 & es & ats & J & _ & O2). assert (c2 = c) as -> by congruence.
        exists ats. split; [exact O2|]. exact (inherits_own i es ats c0 J E0 a Ha). }
      destruct X as (ats & O & Hi). destruct (forall2_forth _ _ _ _ O Hi) as (a' & Ha' & _ & _ & Ea). specialize (F a' Ha'). rewrite Ea, Hfa in F. exact F.
    Qed.
    Lemma kept_more u u' u'' : known st0 u -> kept fa st0 u u' -> kept fa st u' u'' -> kept fa st0 u u''.
    Proof.
      pose proof (tr_follows _ _ T) as Fo. intros K [->|(A1 & B1 & S1 & X1)] H2.
      - destruct H2 as [->|(A2 & B2 & S2 & X2)]; [left; reflexivity|right]. split; [exact (fo_anc _ _ _ Fo _ _ K A2)|]. split; [rewrite <- (fo_complex _ _ _ Fo); exact B2|]. split.
        + intros j s -> E. destruct (fo_plain _ _ _ Fo j s E) as (s' & E' & P). destruct (S2 j s' eq_refl E') as (b & -> & Pb). exists b. split; [reflexivity|]. apply P. exact Pb.
        + intros j c0 -> E. destruct (tr_complex _ _ T j c0 E) as (c & Ec & _). destruct (X2 j c eq_refl Ec) as [Y1 Y2]. split; [exact (track_attrs j c0 c E Ec Y1)|]. destruct Y2 as [(b & Z1 & Z2)|(k & s & Z1 & Z2)].
          * left. exists b. split; [exact (fo_anc _ _ _ Fo _ _ K Z1)|exact Z2].
          * right. destruct (track_back_s k s Z1) as (s0 & Es). exists k, s0. split; [exact Es|exact (fo_anc _ _ _ Fo _ _ K Z2)].
      - right. destruct H2 as [->|(A2 & B2 & S2 & X2)]; [auto|]. assert (K' : known st0 u') by exact (ancestor_known st0 u u' C0 K A1). pose proof (fo_anc _ _ _ Fo _ _ K' A2) as A2'.
        split; [exact (ancestor_trans _ _ _ _ A1 A2')|]. split; [rewrite <- (fo_complex _ _ _ Fo); exact B2|]. split; [|exact X1]. intros j s -> E. destruct (S1 j s eq_refl E) as (b & -> & Pb). exists b. split; [|exact Pb].
        inversion A2' as [|t w Hn Ha Et Ew]; [reflexivity|]. subst. exfalso. apply Hn. reflexivity.
    Qed.
    Lemma re_more x y z : re x y -> (kept fa st (el_type y) (el_type z) /\ z = retype_el y (el_type z)) -> re x z.
    Proof. intros (K & Q & E) (Q' & E'). split; [exact K|]. split; [exact (kept_more _ _ _ K Q Q')|]. rewrite E' at 1. rewrite E. reflexivity. Qed.
    Lemma ra_more x y z : ra x y -> (kept fa st (at_type y) (at_type z) /\ z = retype_at y (at_type z)) -> ra x z.
    Proof. intros (K & Q & E) (Q' & E'). split; [exact K|]. split; [exact (kept_more _ _ _ K Q Q')|]. rewrite E' at 1. rewrite E. reflexivity. Qed.
    Lemma full_more i c c1 : full i c -> flattened fa st (DC c) (DC c1) -> full i c1.
    Proof. intros (es & ats & J & Fe & Fa') (_ & Ge & Ga & _). exists es, ats. split; [exact J|]. split; [exact (forall2_comp _ _ _ _ _ _ re_more Fe Ge)|exact (forall2_comp _ _ _ _ _ _ ra_more Fa' Ga)]. Qed.
    Lemma track_flat st1 : List.length st1 = List.length st -> (forall i d, nth_error st i = Some d -> exists d', nth_error st1 i = Some d' /\ flattened fa st d d') -> follows fa st st1 -> tracks D st1.
    Proof.
      intros L F Fo. split; [exact (follows_trans _ _ _ _ (tr_follows _ _ T) Fo)| | |].
      - intros i s0 E0. destruct (tr_simple _ _ T i s0 E0) as (s & E & N1 & N2 & N3). destruct (F i _ E) as ([c'|s'] & E' & Q); cbn [flattened] in Q; [contradiction|]. exists s'. split; [exact E'|]. destruct Q as [_ ->]. cbn [sd_name sd_list sd_union]. auto.
      - intros i c0 E0. destruct (tr_complex _ _ T i c0 E0) as (c & E & N1 & N2 & N3 & Kb & O). destruct (F i _ E) as ([c1|s'] & E1 & Q); [|cbn [flattened] in Q; contradiction]. exists c1. split; [exact E1|]. pose proof Q as (Qb & Qe & Qa & Qn & Qd & _ & Qm & _).
        split; [congruence|]. split; [congruence|]. split; [congruence|]. split; [apply (kept_more _ (ct_base c)); auto; exact (proj2 (C0 i _ E0) _ (or_introl eq_refl))|]. destruct O as [[O1 O2]|O]; [left|right; exact O].
        split; [exact (forall2_comp _ _ _ _ _ _ re_more O1 Qe)|exact (forall2_comp _ _ _ _ _ _ ra_more O2 Qa)].
      - intros i c0 E0 Di. destruct (tr_full _ _ T i c0 E0 Di) as (c & E & O). destruct (F i _ E) as ([c1|s'] & E1 & Q); [|cbn [flattened] in Q; contradiction]. exists c1. split; [exact E1|exact (full_more i c c1 O Q)].
    Qed.
    (* bases that are complex stay, or have nothing to offer *)
    Lemma derives_back i j : derives st i j -> derives st0 i j.
    Proof.
      intros (c & E & Eb & (b & Ej)). destruct (track_back_c i c E) as (c0 & E0). destruct (track_back_c j b Ej) as (b0 & Ej0). exists c0. split; [exact E0|]. split; [|exists b0; exact Ej0].
      destruct (tr_complex _ _ T i c0 E0) as (c' & E' & _ & _ & _ & Kb & _). assert (c' = c) as -> by congruence. destruct Kb as [Kb|(_ & Kb & _)]; [congruence|]. rewrite Eb in Kb. cbn [is_complex] in Kb. rewrite Ej0 in Kb. discriminate.
    Qed.
    Lemma derives_forth i j c : derives st0 i j -> nth_error st i = Some (DC c) -> derives st i j \/ inherits st0 j [] [] /\ ~ stays fa st0 (TPtr j) /\ kept fa st0 (TPtr j) (ct_base c) /\ is_complex st0 (ct_base c) = false.
    Proof.
      intros D0 E. pose proof (Fm i j D0) as F. destruct D0 as (c0 & E0 & Eb & (b0 & Ej0)). destruct (tr_complex _ _ T i c0 E0) as (c' & E' & _ & _ & _ & Kb & _). assert (c' = c) as -> by congruence. destruct (tr_complex _ _ T j b0 Ej0) as (b & Ej & _).
      rewrite Eb in Kb. assert (Q : ct_base c = TPtr j \/ is_complex st0 (ct_base c) = false) by (destruct Kb as [Q|(_ & Q & _)]; auto). destruct Q as [Q|Q]; [left; exists c; split; [exact E|]; split; [exact Q|exists b; exact Ej]|right].
      assert (Ns : ~ stays fa st0 (TPtr j)). { intros S. rewrite (kept_stays fa st0 _ _ Kb (nth_lt _ _ _ Ej0) C0 S) in Q. cbn [is_complex] in Q. rewrite Ej0 in Q. discriminate. }
      split; [destruct F as [F|F]; [contradiction|exact F]|]. auto.
    Qed.
    Lemma inherits_lift i es1 ats1 : inherits st i es1 ats1 -> exists es ats, inherits st0 i es ats /\ Forall2 re es es1 /\ Forall2 ra ats ats1.
    Proof.
      induction 1 as [i c E N|i j c es1 ats1 E Dj J IH].
      - destruct (track_back_c i c E) as (c0 & E0). destruct (tr_complex _ _ T i c0 E0) as (c' & E' & _ & _ & _ & _ & [[O1 O2]|O]); [|destruct (tr_full _ _ T i c0 E0 O) as (c'' & E'' & O'); assert (c'' = c) as -> by congruence; exact O'].
        assert (c' = c) as -> by congruence. exists (ct_elems c0), (ct_attrs c0). split; [|auto]. destruct (derives_dec st0 i) as [[j Dj]|Nj]; [|exact (inh_root st0 i c0 E0 Nj)].
        destruct (derives_forth i j c Dj E) as [Q|(Q & _)]; [exfalso; exact (N j Q)|]. pose proof (inh_derived st0 i j c0 [] [] E0 Dj Q) as J. cbn [others filter app] in J. rewrite app_nil_r in J. exact J.
      - destruct IH as (es & ats & J0 & Fe & Fa'). destruct (track_back_c i c E) as (c0 & E0). apply derives_back in Dj. destruct (tr_complex _ _ T i c0 E0) as (c' & E' & _ & _ & _ & _ & [[O1 O2]|O]).
        + assert (c' = c) as -> by congruence. exists (others el_name (ct_elems c0) es ++ ct_elems c0)%list, (ct_attrs c0 ++ others at_name (ct_attrs c0) ats)%list. split; [exact (inh_derived _ _ _ _ _ _ E0 Dj J0)|].
          split; apply Forall2_app; auto; apply others_forall2; auto; [exact re_name|exact ra_name].
        + destruct (tr_full _ _ T i c0 E0 O) as (c'' & E'' & es' & ats' & J' & O1 & O2). assert (c'' = c) as -> by congruence. exists es', ats'. split; [exact J'|].
          inversion J' as [i0 c1 H1 H2|i0 j0 c1 es0 ats0 H1 H2 H3]; subst; [exfalso; exact (H2 j Dj)|]. assert (j0 = j) as -> by exact (derives_fun _ _ _ _ Dj H2). assert (c1 = c0) as -> by congruence. destruct (inherits_det _ _ _ _ J0 _ _ H3) as [-> ->].
          rewrite (others_nil el_name (ct_elems c) es1), (others_nil at_name (ct_attrs c) ats1), app_nil_r; [auto| |].
          * intros a Ha. destruct (forall2_back _ _ _ _ Fa' Ha) as (a0 & Ha0 & Ra). destruct (others_covers at_name (ct_attrs c0) ats a0 Ha0) as (y & Hy & Ny). destruct (forall2_forth _ _ _ _ O2 Hy) as (y' & Hy' & Ry). exists y'. split; [exact Hy'|]. rewrite (ra_name _ _ Ry), (ra_name _ _ Ra). exact Ny.
          * intros a Ha. destruct (forall2_back _ _ _ _ Fe Ha) as (a0 & Ha0 & Ra). destruct (others_covers el_name (ct_elems c0) es a0 Ha0) as (y & Hy & Ny). assert (Hy2 : In y (others el_name (ct_elems c0) es ++ ct_elems c0)%list) by (apply in_app_or in Hy; apply in_or_app; tauto).
            destruct (forall2_forth _ _ _ _ O1 Hy2) as (y' & Hy' & Ry). exists y'. split; [exact Hy'|]. rewrite (re_name _ _ Ry), (re_name _ _ Ra). exact Ny.
    Qed.
    Section Expand.
      Variables (l : list ty) (st2 : store).
      Hypothesis R : rooted st.
      Hypothesis A : apart st.
      Hypothesis N : NoDup l.
      Hypothesis K : forall t, In t l -> known st t.
      Hypothesis E : expand_types st l = Ret st2.
      Lemma lift_full i es ats c : inherits st i es ats -> full i (with_fields c es ats).
      Proof. intros J. destruct (inherits_lift i es ats J) as (es0 & ats0 & J0 & Fe & Fa'). exists es0, ats0. auto. Qed.
      Lemma full_stays i : fullat st i -> fullat st2 i.
      Proof.
        intros (c & Ec & O). destruct (expand_each st l st2 R A N K E i _ Ec) as [X|(c' & j & es & ats & _ & _ & _ & J & X)]; [exists c; auto|]. eexists. split; [exact X|]. apply lift_full. exact J.
      Qed.
      Lemma wanted_full i c0 : nth_error st0 i = Some (DC c0) -> wanted st l i -> fullat st2 i.
      Proof.
        intros E0 W. destruct (tr_complex _ _ T i c0 E0) as (c & Ec & _). destruct (derives_dec st i) as [[j Dj]|Nj].
        - destruct (expand_want st l st2 R A N K E i j c Ec W Dj) as (es & ats & J & X). eexists. split; [exact X|]. apply lift_full. exact J.
        - apply full_stays. exists c. split; [exact Ec|]. destruct (inherits_lift i _ _ (inh_root st i c Ec Nj)) as (es & ats & Q). exists es, ats. exact Q.
      Qed.
      Lemma track_expand : follows fa st st2 -> tracks (fun i => D i \/ wanted st l i) st2.
      Proof.
        intros Fo. split; [exact (follows_trans _ _ _ _ (tr_follows _ _ T) Fo)| | |].
        - intros i s0 E0. destruct (tr_simple _ _ T i s0 E0) as (s & Es & Q). exists s. split; [|exact Q]. apply (expand_s st l st2 R A N K E). exact Es.
        - intros i c0 E0. destruct (tr_complex _ _ T i c0 E0) as (c & Ec & N1 & N2 & N3 & Kb & O). destruct (expand_each st l st2 R A N K E i _ Ec) as [X|(c' & j & es & ats & [= <-] & _ & W & J & X)]; (eexists; split; [exact X|]); cbn [with_fields ct_name ct_doc ct_mixed ct_base]; do 3 (split; [assumption|]); (split; [exact Kb|]); tauto.
        - intros i c0 E0 [Di|W]; [exact (full_stays i (tr_full _ _ T i c0 E0 Di))|exact (wanted_full i c0 E0 W)].
      Qed.
    End Expand.
  End One.
End Track.

(* ---------- one declaration ---------- *)
Section Shape.
  Variable public : xname -> string.
  Variable fa : option (attribute -> bool).
  Variable fe : option (element -> bool).
  Variable helpers : list Z.
  Hypothesis Hh : forall b, non_trivial b = true -> memb b helpers = true.
  Hypothesis Hfa : forall a t, filtered fa (retype_at a t) = filtered fa a.
  Hypothesis Hfe : forall e t, filtered fe (retype_el e t) = filtered fe e.
  Variable st0 : store.
  Hypothesis C0 : complete st0.
  Hypothesis Fm : firm fa st0.
  Variables (D : nat -> Prop) (st : store).
  Hypothesis T : tracks fa st0 D st.
  Lemma expr_go u g : expr_of public st u = Ret g -> known st0 u -> go_type public st0 u g.
  Proof.
    intros E K. destruct u as [|b|n|j]; cbn [known] in K; try contradiction; cbn [expr_of go_type] in *.
    - destruct (builtin_expr b) as [|[x|]]; try discriminate. injection E as <-. exists x. auto.
    - rewrite (fo_name _ _ _ (tr_follows _ _ _ _ T) (TPtr j)) in E. destruct (type_name st0 (TPtr j)) as [n|]; [|discriminate]. injection E as <-. exists n. auto.
  Qed.
  Lemma kept_known u u' : known st0 u -> kept fa st0 u u' -> known st0 u'.
  Proof. intros K Q. exact (ancestor_known st0 u u' C0 K (kept_ancestor _ _ _ _ Q)). Qed.
  Lemma elem_shape e e' f : re fa st0 e e' -> sf_tag f = (if el_wild e' then quoted ",any" else element_tag e') /\ element_expr public st e' (sf_expr f) -> elem_field public fa st0 e f.
  Proof.
    intros (K & Q & E) [Ht (y & Ey & Hx)]. exists (el_type e'), y. split; [exact Q|]. split; [exact (expr_go _ _ Ey (kept_known _ _ K Q))|].
    assert (W : el_wild e' = el_wild e /\ el_plural e' = el_plural e /\ element_tag e' = element_tag e) by (rewrite E; auto). destruct W as (W1 & W2 & W3). rewrite W1, W3 in Ht. split; [exact Ht|]. rewrite W1, W2 in Hx. cbv zeta in Hx.
    destruct (el_wild e); cbn [andb] in Hx; [|eexists; split; [right; split; [intros [Z _]; discriminate|reflexivity]|exact Hx]]. destruct (el_type e') as [|b|n|j] eqn:Et; try (eexists; split; [right; split; [intros [_ Z]; discriminate|reflexivity]|exact Hx]).
    destruct (Z.eqb_spec b 0) as [->|Nb]; (eexists; split; [|exact Hx]); [left; auto|right]. split; [intros [_ [= Z]]; contradiction|reflexivity].
  Qed.
  Lemma attr_shape a a' f : ra fa st0 a a' -> sf_tag f = attribute_tag a' /\ expr_of public st (at_type a') = Ret (sf_expr f) -> attr_field public fa st0 a f.
  Proof.
    intros (K & Q & E) [Ht Ey]. exists (at_type a'). split; [exact Q|]. split; [exact (expr_go _ _ Ey (kept_known _ _ K Q))|]. rewrite Ht, E. reflexivity.
  Qed.
  Lemma track_complex t : is_complex st t = is_complex st0 t.
  Proof. exact (fo_complex _ _ _ (tr_follows _ _ _ _ T) t). Qed.
  Lemma drill_end fuel t u : is_complex st t = false -> t <> TNil -> drill fuel st t = Ret u -> u = t.
  Proof.
    intros Ct Nt H. destruct t as [|b|n|j]; [congruence| | |].
    - destruct fuel; cbn [drill base_of] in H; congruence.
    - destruct fuel; cbn [drill base_of] in H; congruence.
    - cbn [is_complex] in Ct. assert (S : is_simple st (TPtr j) = true \/ base_of st (TPtr j) = TNil). { cbn [is_simple base_of]. destruct (nth_error st j) as [[c|s]|]; auto; discriminate. }
      destruct fuel; cbn [drill] in H; (destruct S as [S|S]; [rewrite S in H; destruct (base_of st (TPtr j)); congruence|rewrite S in H; congruence]).
  Qed.
  Lemma text_first i v : text_of st0 i v -> forall w, ancestor st0 (TPtr i) w -> is_complex st0 w = false -> ancestor st0 v w.
  Proof.
    induction 1 as [i c0 E0 Cb|i j v Dj H IH]; intros w A Cw.
    - inversion A as [|t u Hn Ha Et Eu]; subst; [cbn [is_complex] in Cw; rewrite E0 in Cw; discriminate|]. cbn [base_of] in Ha. rewrite E0 in Ha. exact Ha.
    - destruct Dj as (c0 & E0 & Eb & _). inversion A as [|t u Hn Ha Et Eu]; subst; [cbn [is_complex] in Cw; rewrite E0 in Cw; discriminate|]. cbn [base_of] in Ha. rewrite E0 in Ha. cbn [def_base] in Ha. rewrite Eb in Ha. exact (IH w Ha Cw).
  Qed.
  Lemma text_known i v : text_of st0 i v -> known st0 v.
  Proof. induction 1 as [k ck Ek _|k m v Dm H IH]; [exact (proj2 (C0 k _ Ek) _ (or_introl eq_refl))|exact IH]. Qed.
  Lemma text_shape i v : text_of st0 i v -> forall fuel c u, nth_error st i = Some (DC c) -> drill fuel st (ct_base c) = Ret u -> known st0 v /\ ancestor st0 v u /\ is_complex st0 u = false /\ (settled_bases fa st0 i -> kept fa st0 v u).
  Proof.
    induction 1 as [i c0 E0 Cb|i j v Dj H IH]; intros fuel c u Ec Dr.
    - destruct (tr_complex _ _ _ _ T i c0 E0) as (c' & E' & _ & _ & _ & Kb & _). assert (c' = c) as -> by congruence. assert (K : known st0 (ct_base c0)) by exact (proj2 (C0 i _ E0) _ (or_introl eq_refl)). split; [exact K|].
      assert (Cc : is_complex st0 (ct_base c) = false) by (destruct Kb as [->|(_ & Q & _)]; auto).
      assert (u = ct_base c) as ->; [|split; [exact (kept_ancestor _ _ _ _ Kb)|auto]]. apply (drill_end fuel); [rewrite track_complex; exact Cc| |exact Dr]. pose proof (kept_known _ _ K Kb) as K'. intros Z. rewrite Z in K'. exact K'.
    - split; [exact (text_known _ _ H)|]. pose proof Dj as Dj0. destruct (derives_forth fa st0 C0 Fm D st T i j c Dj Ec) as [Ds|(_ & Ns & Kb & Cb)].
      + destruct Ds as (c' & E' & Eb & (b & Ej)). assert (c' = c) as -> by congruence. rewrite Eb in Dr.
        assert (Bw : base_of st (TPtr j) = ct_base b) by (cbn [base_of]; rewrite Ej; reflexivity).
        assert (S : is_simple st (TPtr j) = false) by (cbn [is_simple]; rewrite Ej; reflexivity).
        assert (Nb : ct_base b <> TNil). { destruct (track_back_c fa st0 D st T j b Ej) as (b0 & Ej0). destruct (tr_complex _ _ _ _ T j b0 Ej0) as (b' & E2 & _ & _ & _ & Kb & _). assert (b' = b) as -> by congruence. pose proof (kept_known _ _ (proj2 (C0 j _ Ej0) _ (or_introl eq_refl)) Kb) as Q. intros Z. rewrite Z in Q. exact Q. }
        assert (Dr' : exists f, drill f st (ct_base b) = Ret u). { destruct fuel as [|f]; cbn [drill] in Dr; rewrite Bw in Dr; [destruct (ct_base b); try congruence; rewrite S in Dr; discriminate|]. exists f. destruct (ct_base b); try congruence; rewrite S in Dr; exact Dr. }
        destruct Dr' as [f Dr']. destruct (IH f b u Ej Dr') as (_ & Q1 & Q2 & Q3). split; [exact Q1|]. split; [exact Q2|]. intros Sb. apply Q3. intros k m Hk Hm. apply (Sb k m); [|exact Hm]. exact (li_step _ _ _ _ Dj0 Hk).
      + assert (Kj : known st0 (TPtr j)) by (destruct Dj0 as (_ & _ & _ & (b0 & Ej0)); exact (nth_lt _ _ _ Ej0)). pose proof (kept_known _ _ Kj Kb) as K'.
        assert (u = ct_base c) as -> by (apply (drill_end fuel); [rewrite track_complex; exact Cb|intros Z; rewrite Z in K'; exact K'|exact Dr]).
        split; [exact (text_first j v H _ (kept_ancestor _ _ _ _ Kb) Cb)|]. split; [exact Cb|]. intros Sb. exfalso. apply Ns. apply (Sb i j); [|exact Dj0]. constructor. destruct Dj0 as (c0 & E0 & _). exists c0. exact E0.
  Qed.
  Lemma text_exists i c0 : nth_error st0 i = Some (DC c0) -> exists v, text_of st0 i v.
  Proof.
    intros E0. destruct (proj1 (C0 i _ E0)) as [b A]. remember (TPtr i) as t eqn:Et. remember (TB b) as w eqn:Ew. revert i c0 E0 Et Ew. induction A as [t|t u Hn Ha IH]; intros i c0 E0 Et Ew; [congruence|]. subst t u.
    cbn [base_of] in Ha, IH. rewrite E0 in Ha, IH. cbn [def_base] in Ha, IH. destruct (is_complex st0 (ct_base c0)) eqn:Cb; [|exists (ct_base c0); constructor; auto].
    destruct (ct_base c0) as [|z|n|j] eqn:Eb; try discriminate. cbn [is_complex] in Cb. destruct (nth_error st0 j) as [[cj|sj]|] eqn:Ej; try discriminate. destruct (IH j cj Ej eq_refl eq_refl) as (v & Hv). exists v. apply (tx_up st0 i j); [|exact Hv].
    exists c0. split; [exact E0|]. split; [exact Eb|exists cj; exact Ej].
  Qed.
  Lemma chardata_shape i c0 c g : nth_error st0 i = Some (DC c0) -> nth_error st i = Some (DC c) -> ct_mixed c = ct_mixed c0 -> chardata public helpers st c = Ret g -> text_field public fa st0 i c0 (g_fields g).
  Proof.
    intros E0 Ec Em H. unfold text_field. unfold chardata in H. rewrite Em in H. destruct (ct_mixed c0); [|injection H as <-; reflexivity].
    destruct (drill (Datatypes.S (List.length st)) st (ct_base c)) as [u| | |] eqn:Dr; cbn [andthen] in H; try discriminate. destruct (expr_of public st u) as [x| | |] eqn:Ex; cbn [andthen] in H; try discriminate.
    destruct (text_exists i c0 E0) as (v & Hv). destruct (text_shape i v Hv _ c u Ec Dr) as (Kv & Ka & Kc & Kp). pose proof (expr_go u x Ex (ancestor_known st0 v u C0 Kv Ka)) as Gx. exists v, u. split; [exact Hv|]. split; [exact Ka|]. split; [exact Kc|]. split; [exact Kp|].
    destruct u as [|b|n|j].
    - destruct (is_simple st TNil); [|discriminate]. right. split; [discriminate|]. injection H as <-. eexists. split; [reflexivity|]. auto.
    - destruct (Z.eqb_spec b 0) as [->|Nb]; [left; split; [reflexivity|]; injection H as <-; reflexivity|right]. split; [congruence|].
      destruct (if non_trivial b then _ else _) as [oh| | |]; cbn [andthen] in H; try discriminate. destruct (unique [] "Value") as [taken name]. injection H as <-. eexists. split; [reflexivity|]. auto.
    - destruct (is_simple st (TLink n)); [|discriminate]. right. split; [discriminate|]. injection H as <-. eexists. split; [reflexivity|]. auto.
    - destruct (is_simple st (TPtr j)); [|discriminate]. right. split; [discriminate|]. injection H as <-. eexists. split; [reflexivity|]. auto.
  Qed.
  Lemma complex_shape i c0 c st' sps : nth_error st0 i = Some (DC c0) -> nth_error st i = Some (DC c) -> full fa st0 i c -> inherit st c = c -> gen_complex public fa fe helpers st i c = Ret (st', sps) ->
    forall sp, In sp sps -> shape public fa fe st0 i sp.
  Proof.
    intros E0 Ec (es & ats & J & Fe & Fa') In H sp Hsp. destruct (tr_complex _ _ _ _ T i c0 E0) as (c' & E' & N1 & N2 & N3 & _). assert (c' = c) as -> by congruence. clear E'.
    unfold gen_complex in H. destruct (chardata public helpers st c) as [g0| | |] eqn:Ch; cbn [andthen] in H; try discriminate. cbv zeta in H. rewrite In, (put_same st i c Ec) in H.
    unfold filter_fields in H. rewrite !fold_filter in H. cbn [app] in H.
    destruct (foldr (element_field public helpers st) g0 _) as [g1| | |] eqn:E1; cbn [andthen] in H; try discriminate. destruct (foldr (attribute_field public helpers st) g1 _) as [g2| | |] eqn:E2; cbn [andthen] in H; try discriminate. injection H as <- <-.
    destruct Hsp as [<-|[]]. apply element_fields in E1 as (efs & Q1 & F1). apply attribute_fields in E2 as (afs & Q2 & F2). split; [reflexivity|]. rewrite E0. cbn [sp_name sp_doc sp_expr sp_struct]. rewrite N1, N2. do 3 (split; [reflexivity|]).
    exists (g_fields g2). split; [reflexivity|]. exists es, ats, (g_fields g0), efs, afs. split; [exact J|]. split; [rewrite Q2, Q1, app_assoc; reflexivity|]. split; [exact (chardata_shape i c0 c g0 E0 Ec N3 Ch)|]. split.
    - refine (forall2_comp _ _ _ _ _ _ elem_shape _ F1). apply forall2_filter; [|exact Fe]. intros x y (_ & _ & ->). rewrite Hfe. reflexivity.
    - refine (forall2_comp _ _ _ _ _ _ attr_shape _ F2). apply forall2_filter; [|exact Fa']. intros x y (_ & _ & ->). rewrite Hfa. reflexivity.
  Qed.
  Lemma simple_shape i s0 s b sps : nth_error st0 i = Some (DS s0) -> nth_error st i = Some (DS s) -> sd_base s = TB b -> (exists x, builtin_expr b = Returns (Some x)) -> (if sd_list s then gen_simple_list public st i s else gen_simple public helpers st i s) = Ret sps ->
    forall sp, In sp sps -> shape public fa fe st0 i sp.
  Proof.
    intros E0 Es Eb [x Ex] H sp Hsp. destruct (tr_simple _ _ _ _ T i s0 E0) as (s' & E' & N1 & N2 & N3). assert (s' = s) as -> by congruence. clear E'.
    assert (Ab : ancestor st0 (TPtr i) (TB b)). { apply (fo_anc _ _ _ (tr_follows _ _ _ _ T)); [exact (nth_lt _ _ _ E0)|]. apply an_base; cbn [base_of]; rewrite Es; cbn [def_base]; rewrite Eb; [discriminate|constructor]. }
    assert (Mk : forall doc g hs, (sd_list s = true /\ g = EArr (of_gotype x) \/ sd_list s = false /\ sd_union s <> [] /\ g = EId "string" \/ sd_list s = false /\ sd_union s = [] /\ g = of_gotype x) ->
      shape public fa fe st0 i (mkSpec (public (sd_name s)) doc None (Some g) [] (TPtr i) hs)).
    { intros doc g hs Hg. split; [reflexivity|]. rewrite E0. cbn [sp_name sp_struct sp_expr]. rewrite N1. do 2 (split; [reflexivity|]). exists g. split; [reflexivity|]. exists b, x. rewrite <- N2, <- N3. auto. }
    destruct (sd_list s) eqn:El.
    - unfold gen_simple_list in H. rewrite Eb in H. cbn [expr_of] in H. rewrite Ex in H. cbn [andthen root_base base_of] in H. destruct (list_codec b) as [co|]; [|discriminate]. destruct (body_parses co); [|discriminate]. injection H as <-. destruct Hsp as [<-|[]]. apply Mk. auto.
    - unfold gen_simple in H. destruct (sd_union s) as [|u us] eqn:Eu.
      + rewrite Eb in H. cbn [expr_of] in H. rewrite Ex in H. cbn [andthen] in H. destruct (non_trivial b); [destruct (memb b helpers); [|discriminate]|]; injection H as <-; (destruct Hsp as [<-|[]]); apply Mk; auto.
      + injection H as <-. destruct Hsp as [<-|[]]. apply Mk. right. left. split; [reflexivity|]. split; [discriminate|reflexivity].
  Qed.
End Shape.

Lemma gen_one public fa fe helpers st i c st' sps : gen_complex public fa fe helpers st i c = Ret (st', sps) -> exists s, sps = [s].
Proof.
  unfold gen_complex. destruct (chardata public helpers st c) as [g0| | |]; cbn [andthen]; try discriminate. cbv zeta. destruct (filter_fields fa fe (inherit st c)) as [ats els].
  destruct (foldr _ g0 els) as [g1| | |]; cbn [andthen]; try discriminate. destruct (foldr _ g1 ats) as [g2| | |]; cbn [andthen]; try discriminate. intros [= _ <-]. eexists. reflexivity.
Qed.
(* ---------- the schemas ---------- *)
Section All.
  Variable public : xname -> string.
  Variable fa : option (attribute -> bool).
  Variable fe : option (element -> bool).
  Variable ft : option (xname -> bool).
  Variable allow : option (list xname).
  Variable helpers : list Z.
  Hypothesis Hh : forall b, non_trivial b = true -> memb b helpers = true.
  Variable h : nat -> nat.
  Hypothesis Hfa : forall a t, filtered fa (retype_at a t) = filtered fa a.
  Hypothesis Hfe : forall e t, filtered fe (retype_el e t) = filtered fe e.
  Hypothesis Hb : forall i, h i <= N.to_nat 1000.
  Variable st0 : store.
  Hypothesis C0 : complete st0.
  Hypothesis Fm : firm fa st0.
  (* where a struct comes from: genComplexType at some time, when the type had all that it inherits *)
  Definition made (s : spec) : Prop := sp_struct s <> None -> exists D st i c0 c, tracks fa st0 D st /\ nth_error st0 i = Some (DC c0) /\ nth_error st i = Some (DC c) /\ full fa st0 i c /\ inherit st c = c /\
    gen_complex public fa fe helpers st i c = Ret (st, [s]).
  Lemma schemas_shape : forall schemas D st acc, generable h st -> wild_named st -> tracks fa st0 D st -> (forall types t, In types schemas -> In t types -> known st t) ->
    exists st' sps, foldr (gen_schema public fa fe ft allow helpers) (st, [], acc) schemas = Ret (st', [], (acc ++ sps)%list) /\ forall s, In s sps -> ((exists i, shape public fa fe st0 i s) /\ made s) /\ forall b, In b (sp_helpers s) -> non_trivial b = true.
  Proof.
    induction schemas as [|types m IH]; intros D st acc G W T K; [exists st, []; rewrite app_nil_r; cbn [foldr]; split; [reflexivity|intros s []]|].
    pose proof (fun t => K types t (or_introl eq_refl)) as K0.
    destruct (flatten_all fa ft allow st types Hfa (gn_complete _ _ G) K0) as [st1 [l [E1 [F1 [L1 [R1 [C1 [K1 [P1 N1]]]]]]]]].
    destruct (flatten_closed fa ft allow h st types Hfa (gn_complete _ _ G) (gn_ranked _ _ G) Hb K0) as [st1' [l' [E1' Rd]]]. assert (st1' = st1) as -> by congruence. assert (l' = l) as -> by congruence. clear E1'.
    pose proof (flat_moved fa st st1 (gn_complete _ _ G) L1 F1 R1) as M1. pose proof (moved_generable st st1 (gn_complete _ _ G) M1 h G) as G1. pose proof (names_nodup st1 l N1) as Nd. pose proof (complete_rooted _ C1) as Rt.
    destruct (expand_main st1 l Rt (gn_apart _ _ G1) Nd K1) as [st2 [E2 _]]. pose proof (expand_grown st1 l st2 Rt (gn_apart _ _ G1) Nd K1 E2) as Gr.
    pose proof (moved_generable st1 st2 C1 (grown_moved _ _ Gr) h G1) as G2. pose proof (grown_shut _ _ _ Gr (ready_shut st1 l K1 Rd)) as S2.
    assert (T1 : tracks fa st0 D st1) by exact (track_flat fa Hfa st0 C0 D st T st1 L1 F1 (moved_follows _ _ _ (gn_complete _ _ G) M1 (flat_lasting fa st st1 Hfa F1))).
    assert (T2 : tracks fa st0 (fun i => D i \/ wanted st1 l i) st2) by exact (track_expand fa st0 C0 Fm D st1 T1 l st2 Rt (gn_apart _ _ G1) Nd K1 E2 (moved_follows _ _ _ C1 (grown_moved _ _ Gr) (expand_lasting fa st1 l st2 Rt (gn_apart _ _ G1) Nd K1 E2))).
    pose proof (flat_wild fa st st1 L1 F1 W) as W1. pose proof (expand_wild st1 l st2 Rt (gn_apart _ _ G1) Nd K1 E2 W1) as W2. pose proof (expand_inert st1 l st2 Rt (gn_apart _ _ G1) Nd K1 E2 W1) as In2.
    destruct (steps_inert public fa fe helpers Hh h st2 l G2 S2 l acc (incl_refl l) In2) as [E3 Sp].
    assert (Kn : forall t, known st2 t <-> known st t) by (intros t; destruct t; cbn [known]; try tauto; rewrite (gr_len _ _ Gr), L1; tauto).
    destruct (IH _ st2 (acc ++ flat_map (specs_of public fa fe helpers st2) l)%list G2 W2 T2) as (st4 & sps4 & E4 & F4). { intros ty t H1 H2. apply Kn. exact (K ty t (or_intror H1) H2). }
    exists st4, (flat_map (specs_of public fa fe helpers st2) l ++ sps4)%list. cbn [foldr]. unfold gen_schema at 1. rewrite E1. cbn [andthen fst snd]. rewrite E2. cbn [andthen]. rewrite E3. cbn [andthen]. rewrite E4, app_assoc. split; [reflexivity|].
    intros s Hs. apply in_app_or in Hs as [Hs|Hs]; [|exact (F4 s Hs)]. apply in_flat_map in Hs as (t & Ht & Hs). destruct (type_inert public fa fe helpers Hh h st2 l t G2 S2 Ht (In2 t Ht)) as [Eg Sg]. split; [|destruct (forall2_back _ _ _ _ Sg Hs) as (t' & _ & O); exact (so_help _ _ _ _ _ O)]. clear Sg. unfold specs_of in Hs. rewrite Eg in Hs. set (sps := specs_of public fa fe helpers st2 t) in *.
    pose proof (sh_known _ _ S2 t Ht) as Kt. destruct t as [|b|n|i]; cbn [known] in Kt; try contradiction; cbn [gen_type] in Eg.
    destruct (nth_error st2 i) as [[c|sd]|] eqn:Ei; [| |discriminate].
    - destruct (track_back_c fa st0 _ st2 T2 i c Ei) as (c0 & E0). assert (Fu : fullat fa st0 st2 i). { apply (tr_full _ _ _ _ T2 i c0 E0). right. exists (TPtr i). split; [exact Ht|constructor]. }
      destruct Fu as (c' & E' & Fu). assert (c' = c) as -> by congruence. pose proof (In2 _ Ht i c eq_refl Ei) as Ii. split; [exists i; exact (complex_shape public fa fe helpers Hfa Hfe st0 C0 Fm _ st2 T2 i c0 c st2 sps E0 Ei Fu Ii Eg s Hs)|]. intros _.
      exists (fun i => D i \/ wanted st1 l i), st2, i, c0, c. do 5 (split; [assumption|]). rewrite Eg. destruct (gen_one public fa fe helpers st2 i c st2 sps Eg) as [s1 E1s]. rewrite E1s in Hs |- *. destruct Hs as [->|[]]. reflexivity.
    - destruct (track_back_s fa st0 _ st2 T2 i sd Ei) as (s0 & E0). destruct (sh_simple _ _ S2 _ i sd Ht (an_self _ _) Ei) as [b Eb].
      assert (Tb : translated b) by (apply (gn_translated _ _ G2 i (DS sd) (TB b) b Ei); [left; exact Eb|constructor]). destruct (translated_expr b Tb) as (x & Ex & _).
      destruct (if sd_list sd then _ else _) as [q| | |] eqn:Eq; cbn [andthen] in Eg; try discriminate. injection Eg as Eg. rewrite <- Eg in Hs.
      pose proof (simple_shape public fa fe helpers st0 _ st2 T2 i s0 sd b q E0 Ei Eb (ex_intro _ x Ex) Eq s Hs) as Sh. split; [exists i; exact Sh|]. intros Z. exfalso. destruct Sh as [_ Sh]. rewrite E0 in Sh. apply Z. apply Sh.
  Qed.
End All.
Theorem gen_shaped public fa fe ft allow helpers h st schemas : (forall b, non_trivial b = true -> memb b helpers = true) ->
  (forall a t, filtered fa (retype_at a t) = filtered fa a) -> (forall e t, filtered fe (retype_el e t) = filtered fe e) -> generable h st -> wild_named st -> firm fa st -> (forall i, h i <= N.to_nat 1000) -> (forall types t, In types schemas -> In t types -> known st t) ->
  exists c, gen public fa fe ft allow helpers false st schemas = Ret (inr c) /\
    forall x sp, In (x, sp) (co_decls c) -> ((exists i, shape public fa fe st i sp) /\ made public fa fe helpers st sp /\ x = sp_name sp) \/ exists b, non_trivial b = true /\ x = helper_name b /\ sp = helper_spec b.
Proof.
  intros Hh Hfa Hfe G W Fm Hb K.
  destruct (schemas_shape public fa fe ft allow helpers Hh h Hfa Hfe Hb st (gn_complete _ _ G) Fm schemas _ st [] G W (tracks_start fa st (gn_complete _ _ G)) K) as (st' & sps & E & F).
  destruct (gen_closed public fa fe ft allow helpers h false st schemas Hh Hfa G Hb K) as (c & Ec & _). exists c. split; [exact Ec|]. intros x sp Hx.
  unfold gen in Ec. cbn [app] in E. rewrite E in Ec. cbn [andthen] in Ec. destruct (foldr _ [] sps) as [nms| | |]; cbn [andthen] in Ec; try discriminate.
  set (ds := declare [] (map (fun s => (sp_name s, s)) sps)) in Ec. destruct (foldr _ [] ds) as [out| | |] eqn:Eo; cbn [andthen] in Ec; try discriminate. injection Ec as <-. cbn [co_decls] in *.
  destruct (posts_get false st' ds out Eo) as [M1 Q1]. assert (Nd : NoDup (map fst ds)) by (apply declare_nodup; constructor). assert (No : NoDup (map fst out)) by (rewrite M1; exact Nd).
  assert (X : forall k s, In (k, s) out -> In s sps /\ k = sp_name s).
  { intros k s Hk. apply sget_nodup_in in Hk; [|exact No]. specialize (Q1 k). destruct (sget k ds) as [s0|] eqn:Es; [|congruence]. destruct Q1 as (s' & A1 & A2). cbn [SgGen.post] in A1. assert (s0 = s) as -> by congruence.
    apply sget_in in Es. unfold ds in Es. apply declare_in in Es as [[]|Es]. apply in_map_iff in Es as (s1 & [= <- ->] & Hs1). auto. }
  apply (proj2 (helpers_ok helpers out)) in Hx as [Hx|(b & [k s] & P1 & P2 & [= -> ->])].
  - left. destruct (X x sp Hx) as [Hs ->]. destruct (F sp Hs) as [[F1 F2] _]. auto.
  - right. exists b. destruct (X k s P1) as [Hs _]. split; [exact (proj2 (F s Hs) b P2)|auto].
Qed.
Theorem gen_shape public fa fe ft allow helpers h st schemas : (forall b, non_trivial b = true -> memb b helpers = true) ->
  (forall a t, filtered fa (retype_at a t) = filtered fa a) -> (forall e t, filtered fe (retype_el e t) = filtered fe e) -> generable h st -> wild_named st -> firm fa st -> (forall i, h i <= N.to_nat 1000) -> (forall types t, In types schemas -> In t types -> known st t) ->
  exists c, gen public fa fe ft allow helpers false st schemas = Ret (inr c) /\
    forall x sp, In (x, sp) (co_decls c) -> (exists i, shape public fa fe st i sp /\ x = sp_name sp) \/ exists b, non_trivial b = true /\ x = helper_name b /\ sp = helper_spec b.
Proof.
  intros Hh Hfa Hfe G W Fm Hb K. destruct (gen_shaped public fa fe ft allow helpers h st schemas Hh Hfa Hfe G W Fm Hb K) as (c & Ec & F). exists c. split; [exact Ec|]. intros x sp Hx. destruct (F x sp Hx) as [((i & Hi) & _ & E)|Q]; [left; exists i; auto|right; exact Q].
Qed.
