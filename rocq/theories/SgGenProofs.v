(* Generating code from types: the steps keep what the next ones need. *)
From Verif Require Import Base SortLib ScopeModel TreeModel EqualModel Utf8 Decimal BuiltinModel CodecModel XsdModel XsdProofs TypesModel TypesSpec TypesProofs GraphModel GenModel SgModel SgStruct SgProofs SgNames SgExamples SgFlat SgClosed SgFlatSpec SgFlatten SgExpandSpec SgExpand SgExpandFields SliceModel SgGen SgGenSpec.
Local Open Scope string_scope.

Lemma ancestor_trans st t u v : ancestor st t u -> ancestor st u v -> ancestor st t v.
Proof. induction 1 as [t|t u Hn Ha IH]; auto. intros H. apply an_base; auto. Qed.
Lemma ancestor_known st t u : complete st -> known st t -> ancestor st t u -> known st u.
Proof.
  intros C K A. induction A as [t|t u Hn Ha IH]; auto. apply IH. destruct t as [|b|n|i]; cbn [base_of] in *; try congruence. destruct (nth_error st i) as [d|] eqn:E; [|congruence].
  apply (proj2 (C i d E)). destruct d; left; reflexivity.
Qed.

(* a store that came from st by replacing types by ancestors and adding inherited fields *)
Definition moved_def (st : store) (i : nat) (d d' : def) : Prop :=
  match d, d' with
  | DC c, DC c' => ct_name c' = ct_name c /\ ct_mixed c' = ct_mixed c /\ ancestor st (ct_base c) (ct_base c') /\ (ct_base c' = ct_base c \/ is_complex st (ct_base c') = false) /\
      forall u', In u' (field_types c') -> exists j cj u, ancestor st (TPtr i) (TPtr j) /\ nth_error st j = Some (DC cj) /\ In u (field_types cj) /\ ancestor st u u'
  | DS s, DS s' => sd_name s' = sd_name s /\ sd_list s' = sd_list s /\ ancestor st (sd_base s) (sd_base s')
  | _, _ => False
  end.
Record moved (st st' : store) : Prop := mkMoved {
  mv_len : List.length st' = List.length st;
  mv_def : forall i d, nth_error st i = Some d -> exists d', nth_error st' i = Some d' /\ moved_def st i d d';
  mv_root : forall i b, ancestor st (TPtr i) (TB b) -> ancestor st' (TPtr i) (TB b) }.
Section Moved.
  Variables st st' : store.
  Hypothesis C : complete st.
  Hypothesis M : moved st st'.
  Lemma moved_back i d' : nth_error st' i = Some d' -> exists d, nth_error st i = Some d /\ moved_def st i d d'.
  Proof.
    intros H. destruct (nth_error st i) as [d|] eqn:E; [|apply nth_error_None in E; rewrite <- (mv_len _ _ M) in E; apply nth_error_None in E; congruence].
    destruct (mv_def _ _ M i d E) as [d1 [E1 D1]]. assert (d1 = d') as -> by congruence. eauto.
  Qed.
  Lemma moved_name i d d' : moved_def st i d d' -> def_name d' = def_name d.
  Proof. destruct d, d'; cbn [moved_def def_name]; tauto. Qed.
  Lemma moved_type_name t : type_name st' t = type_name st t.
  Proof.
    destruct t as [| | |i]; try reflexivity. cbn [type_name]. destruct (nth_error st i) as [d|] eqn:E.
    - destruct (mv_def _ _ M i d E) as [d' [-> D]]. cbn [option_map]. rewrite (moved_name _ _ _ D). reflexivity.
    - apply nth_error_None in E. rewrite <- (mv_len _ _ M) in E. apply nth_error_None in E. rewrite E. reflexivity.
  Qed.
  Lemma moved_known t : known st' t <-> known st t.
  Proof. destruct t; cbn [known]; try tauto. rewrite (mv_len _ _ M). tauto. Qed.
  Lemma moved_base i d d' : moved_def st i d d' -> ancestor st (def_base d) (def_base d').
  Proof. destruct d, d'; cbn [moved_def def_base]; tauto. Qed.
  Lemma moved_ancestor t u : known st t -> ancestor st' t u -> ancestor st t u.
  Proof.
    intros K A. induction A as [t|t u Hn Ha IH]; [constructor|]. destruct t as [|b|n|i]; cbn [base_of] in *; try congruence. destruct (nth_error st' i) as [d'|] eqn:E; [|congruence].
    destruct (moved_back i d' E) as [d [E1 D]]. assert (Kb : known st (def_base d)) by (apply (proj2 (C i d E1)); destruct d; left; reflexivity).
    pose proof (moved_base _ _ _ D) as B. apply ancestor_trans with (def_base d).
    - apply an_base; cbn [base_of]; rewrite E1; [|constructor]. intros Z. rewrite Z in Kb. exact Kb.
    - apply ancestor_trans with (def_base d'); [exact B|]. apply IH. exact (ancestor_known _ _ _ C Kb B).
  Qed.
  Lemma moved_generable h : generable h st -> generable h st'.
  Proof.
    intros G. destruct G as [_ A R X T L].
    assert (U : forall i d' u', nth_error st' i = Some d' -> In u' (uses d') -> exists j dj u, ancestor st (TPtr i) (TPtr j) /\ nth_error st j = Some dj /\ In u (uses dj) /\ ancestor st u u').
    { intros i d' u' E Hu. destruct (moved_back i d' E) as [d [E1 D]]. destruct d as [c|s], d' as [c'|s']; cbn [moved_def] in D; try contradiction; cbn [uses] in Hu.
      - destruct D as (_ & _ & B & _ & F). destruct Hu as [<-|Hu].
        + exists i, (DC c), (ct_base c). split; [constructor|]. split; [exact E1|]. split; [left; reflexivity|exact B].
        + destruct (F u' Hu) as (j & cj & u & H1 & H2 & H3 & H4). exists j, (DC cj), u. split; [exact H1|]. split; [exact H2|]. split; [right; exact H3|exact H4].
      - destruct D as (_ & _ & B). destruct Hu as [<-|[]]. exists i, (DS s), (sd_base s). split; [constructor|]. split; [exact E1|]. split; [left; reflexivity|exact B]. }
    assert (Ku : forall j dj u u', nth_error st j = Some dj -> In u (uses dj) -> ancestor st u u' -> known st u').
    { intros j dj u u' Hj Hu Ha. apply (ancestor_known st u u' C); auto. exact (proj2 (C j dj Hj) u Hu). }
    assert (Hh : forall t i j, t = TPtr i -> ancestor st t (TPtr j) -> h j <= h i).
    { intros t i j -> Ha. remember (TPtr i) as t eqn:Et. remember (TPtr j) as w eqn:Ew. revert i Et. induction Ha as [t|t u Hn Ha IH]; intros i Et; subst; [injection Et as ->; lia|].
      cbn [base_of] in *. destruct (nth_error st i) as [d|] eqn:E; [|congruence]. destruct (def_base d) as [|b|n|k] eqn:Eb; try (inversion Ha; subst; cbn [base_of] in *; congruence).
      specialize (IH eq_refl k eq_refl). assert (h k < h i); [|lia]. apply (R i d k E). destruct d; cbn [def_base] in Eb; left; rewrite Eb; reflexivity. }
    split.
    - intros i d' E. destruct (moved_back i d' E) as [d [E1 D]]. destruct (proj1 (C i d E1)) as [b Hb]. split; [exists b; exact (mv_root _ _ M i b Hb)|].
      intros u' Hu. apply moved_known. destruct (U i d' u' E Hu) as (j & dj & u & H1 & H2 & H3 & H4). exact (Ku j dj u u' H2 H3 H4).
    - intros i d' t E Ht. destruct (moved_back i d' E) as [d [E1 D]]. apply (A i d t E1). rewrite <- (moved_name _ _ _ D), <- Ht. symmetry. apply moved_type_name.
    - intros i d' j E Hj. destruct (U i d' (TPtr j) E Hj) as (k & dk & u & H1 & H2 & H3 & H4). pose proof (Hh _ i k eq_refl H1) as Q1. destruct u as [|b|n|m]; try (inversion H4; subst; cbn [base_of] in *; congruence).
      pose proof (R k dk m H2 H3). pose proof (Hh _ m j eq_refl H4). lia.
    - intros i c' j b' E Hm Hb Ej. destruct (moved_back i _ E) as [[c|s] [E1 D]]; cbn [moved_def] in D; [|contradiction]. destruct D as (_ & Dm & _ & B' & _). rewrite Dm in Hm.
      destruct (moved_back j _ Ej) as [[b|s] [Ej1 Dj]]; cbn [moved_def] in Dj; [|contradiction]. destruct Dj as (_ & Djm & _). rewrite Djm.
      assert (Up : (forall k s, nth_error st k = Some (DS s) -> ~ ancestor st (TPtr j) (TPtr k)) -> forall k s, nth_error st' k = Some (DS s) -> ~ ancestor st' (TPtr j) (TPtr k)).
      { intros Q k s Hk Ha. destruct (moved_back k _ Hk) as [[?|s0] [Hk1 Dk]]; cbn [moved_def] in Dk; [contradiction|]. apply (Q k s0 Hk1). apply moved_ancestor; auto. cbn [known]. exact (nth_lt _ _ _ Ej1). }
      destruct B' as [B'|B']; [|exfalso; unfold is_complex in B'; rewrite Hb, Ej1 in B'; discriminate].
      destruct (X i c j b E1 Hm (eq_trans (eq_sym B') Hb) Ej1) as [Q|Q]; [left; exact Q|right; exact (Up Q)].
    - intros i d' u' b E Hu Hb. destruct (U i d' u' E Hu) as (j & dj & u & H1 & H2 & H3 & H4). apply (T j dj u b H2 H3). apply ancestor_trans with u'; auto. apply moved_ancestor; auto. exact (Ku j dj u u' H2 H3 H4).
    - intros i s' b E Hl Hb. destruct (moved_back i _ E) as [[?|s] [E1 D]]; cbn [moved_def] in D; [contradiction|]. destruct D as (_ & Dl & _). apply (L i s b E1); [congruence|]. apply moved_ancestor; auto. cbn [known]. exact (nth_lt _ _ _ E1).
  Qed.
End Moved.

(* ---------- flattening moves ---------- *)
Lemma root_unique st t b c : ancestor st t (TB b) -> ancestor st t (TB c) -> b = c.
Proof. intros H1 H2. destruct (path_of _ _ _ H1) as [l P]. destruct (path_of _ _ _ H2) as [l' P']. symmetry. exact (proj2 (path_det _ _ _ _ P _ _ P')). Qed.
Lemma kept_ancestor fa st u u' : kept fa st u u' -> ancestor st u u'.
Proof. intros [->|H]; [constructor|exact (proj1 H)]. Qed.
Lemma flat_moved fa st st' : complete st -> List.length st' = List.length st -> (forall i d, nth_error st i = Some d -> exists d', nth_error st' i = Some d' /\ flattened fa st d d') ->
  (forall i b, ancestor st (TPtr i) (TB b) -> ancestor st' (TPtr i) (TB b)) -> moved st st'.
Proof.
  intros C L F R. split; auto. intros i d E. destruct (F i d E) as [d' [E' D]]. exists d'. split; auto. destruct d as [c|s], d' as [c'|s']; cbn [flattened] in D; try contradiction; cbn [moved_def].
  - destruct D as (B & Fe & Fa & Nm & _ & _ & Mx & _ & _). split; [exact Nm|]. split; [exact Mx|]. split; [exact (kept_ancestor _ _ _ _ B)|]. split; [destruct B as [B|(_ & B & _)]; auto|].
    intros u' Hu. apply in_app_or in Hu as [Hu|Hu]; apply in_map_iff in Hu as (x' & <- & Hx).
    + assert (G : exists x, In x (ct_elems c) /\ kept fa st (el_type x) (el_type x')). { clear - Fe Hx. induction Fe as [|x y l l' [K _] Fe IH]; [destruct Hx|]. destruct Hx as [<-|Hx]; [exists x; split; [left; reflexivity|exact K]|]. destruct (IH Hx) as (z & Z1 & Z2). exists z. split; [right; exact Z1|exact Z2]. }
      destruct G as (x & Hx1 & K). exists i, c, (el_type x). split; [constructor|]. split; [exact E|]. split; [apply in_or_app; left; apply in_map; exact Hx1|exact (kept_ancestor _ _ _ _ K)].
    + assert (G : exists x, In x (ct_attrs c) /\ kept fa st (at_type x) (at_type x')). { clear - Fa Hx. induction Fa as [|x y l l' [K _] Fe IH]; [destruct Hx|]. destruct Hx as [<-|Hx]; [exists x; split; [left; reflexivity|exact K]|]. destruct (IH Hx) as (z & Z1 & Z2). exists z. split; [right; exact Z1|exact Z2]. }
      destruct G as (x & Hx1 & K). exists i, c, (at_type x). split; [constructor|]. split; [exact E|]. split; [apply in_or_app; right; apply in_map; exact Hx1|exact (kept_ancestor _ _ _ _ K)].
  - destruct D as (B & Es). split; [rewrite Es; reflexivity|]. split; [rewrite Es; reflexivity|]. destruct B as [->|[b Hb]]; [constructor|].
    destruct (proj1 (C i _ E)) as [b0 Hb0]. pose proof (R i b0 Hb0) as H1. assert (H2 : ancestor st' (TPtr i) (TB b)). { apply an_base; cbn [base_of]; rewrite E'; cbn [def_base]; rewrite Hb; [discriminate|constructor]. }
    assert (b = b0) as -> by exact (root_unique _ _ _ _ H2 H1). rewrite Hb. inversion Hb0 as [|t w Hn Ha Et Ew]. cbn [base_of] in Ha. rewrite E in Ha. exact Ha.
Qed.

(* ---------- adding inherited fields ---------- *)
Definition grown_def (st : store) (i : nat) (d d' : def) : Prop :=
  match d, d' with
  | DC c, DC c' => ct_name c' = ct_name c /\ ct_mixed c' = ct_mixed c /\ ct_base c' = ct_base c /\
      forall u, In u (field_types c') -> exists j cj, ancestor st (TPtr i) (TPtr j) /\ nth_error st j = Some (DC cj) /\ In u (field_types cj)
  | DS s, DS s' => s' = s
  | _, _ => False
  end.
Record grown (st st' : store) : Prop := mkGrown {
  gr_len : List.length st' = List.length st;
  gr_def : forall i d, nth_error st i = Some d -> exists d', nth_error st' i = Some d' /\ grown_def st i d d' }.
Lemma grown_refl_def st i d : nth_error st i = Some d -> grown_def st i d d.
Proof. intros E. destruct d as [c|s]; cbn [grown_def]; auto. do 3 (split; [reflexivity|]). intros u Hu. exists i, c. split; [constructor|]. auto. Qed.
Lemma grown_refl st : grown st st.
Proof. split; auto. intros i d E. exists d. split; [exact E|exact (grown_refl_def st i d E)]. Qed.
Lemma grown_base st st' t : grown st st' -> base_of st' t = base_of st t.
Proof.
  intros G. destruct t as [| | |i]; try reflexivity. cbn [base_of]. destruct (nth_error st i) as [d|] eqn:E.
  - destruct (gr_def _ _ G i d E) as (d' & -> & D). destruct d as [c|s], d' as [c'|s']; cbn [grown_def] in D; try contradiction; cbn [def_base]; [tauto|congruence].
  - apply nth_error_None in E. rewrite <- (gr_len _ _ G) in E. apply nth_error_None in E. rewrite E. reflexivity.
Qed.
Lemma grown_ancestor st st' t u : grown st st' -> (ancestor st' t u <-> ancestor st t u).
Proof.
  intros G. split; intros A.
  - induction A as [t|t u Hn Ha IH]; [constructor|]. rewrite (grown_base _ _ _ G) in *. apply an_base; auto.
  - induction A as [t|t u Hn Ha IH]; [constructor|]. apply an_base; rewrite (grown_base _ _ _ G); auto.
Qed.
Lemma grown_moved st st' : grown st st' -> moved st st'.
Proof.
  intros G. split; [exact (gr_len _ _ G)| |intros i b H; apply (grown_ancestor _ _ _ _ G); exact H]. intros i d E. destruct (gr_def _ _ G i d E) as (d' & E' & D). exists d'. split; auto.
  destruct d as [c|s], d' as [c'|s']; cbn [grown_def moved_def] in *; try contradiction.
  - destruct D as (N & M & B & F). split; [exact N|]. split; [exact M|]. rewrite B. split; [constructor|]. split; [left; reflexivity|]. intros u Hu. destruct (F u Hu) as (j & cj & H1 & H2 & H3). exists j, cj, u. auto using an_self.
  - subst. split; [reflexivity|]. split; [reflexivity|constructor].
Qed.
(* the types of l need no others *)
Record shut (st : store) (l : list ty) : Prop := mkShut {
  sh_known : forall t, In t l -> known st t;
  sh_fields : forall t j c u, In t l -> ancestor st t (TPtr j) -> nth_error st j = Some (DC c) -> In u (field_types c) -> listed st l u;
  sh_text : forall t j c, In t l -> ancestor st t (TPtr j) -> nth_error st j = Some (DC c) -> ct_mixed c = true -> listed st l (ct_base c);
  sh_simple : forall t j s, In t l -> ancestor st t (TPtr j) -> nth_error st j = Some (DS s) -> exists b, sd_base s = TB b }.
Lemma ready_shut st l : (forall t, In t l -> known st t) -> (forall t, In t l -> ready st l t) -> shut st l.
Proof.
  intros K R. split; auto; intros t j; [intros c u Ht Ha Hj Hu|intros c Ht Ha Hj Hm|intros s Ht Ha Hj]; pose proof (R t Ht j Ha) as Q; rewrite Hj in Q.
  - exact (proj1 (proj1 Q u Hu)).
  - exact (proj2 Q Hm).
  - exact Q.
Qed.
Lemma grown_back st st' i d' : grown st st' -> nth_error st' i = Some d' -> exists d, nth_error st i = Some d /\ grown_def st i d d'.
Proof.
  intros G H. destruct (nth_error st i) as [d|] eqn:E; [|apply nth_error_None in E; rewrite <- (gr_len _ _ G) in E; apply nth_error_None in E; congruence].
  destruct (gr_def _ _ G i d E) as (d1 & E1 & D1). assert (d1 = d') as -> by congruence. eauto.
Qed.
Lemma grown_name st st' t : grown st st' -> type_name st' t = type_name st t.
Proof. intros G. exact (moved_type_name st st' (grown_moved _ _ G) t). Qed.
Lemma grown_listed st st' l u : grown st st' -> listed st l u -> listed st' l u.
Proof. intros G (w & W1 & W2). exists w. split; [exact W1|]. rewrite !(grown_name _ _ _ G). exact W2. Qed.
Lemma grown_shut st st' l : grown st st' -> shut st l -> shut st' l.
Proof.
  intros G S. split.
  - intros t Ht. apply (moved_known st st' (grown_moved _ _ G)). exact (sh_known _ _ S t Ht).
  - intros t j c' u Ht Ha Hj Hu. apply (grown_ancestor _ _ _ _ G) in Ha. destruct (grown_back _ _ _ _ G Hj) as ([c|s] & E & D); cbn [grown_def] in D; [|contradiction].
    destruct D as (_ & _ & _ & F). destruct (F u Hu) as (k & ck & H1 & H2 & H3). apply (grown_listed _ _ _ _ G). apply (sh_fields _ _ S t k ck u Ht); auto. exact (ancestor_trans _ _ _ _ Ha H1).
  - intros t j c' Ht Ha Hj Hm. apply (grown_ancestor _ _ _ _ G) in Ha. destruct (grown_back _ _ _ _ G Hj) as ([c|s] & E & D); cbn [grown_def] in D; [|contradiction].
    destruct D as (_ & M & B & _). rewrite B. apply (grown_listed _ _ _ _ G). apply (sh_text _ _ S t j c Ht Ha E). congruence.
  - intros t j s' Ht Ha Hj. apply (grown_ancestor _ _ _ _ G) in Ha. destruct (grown_back _ _ _ _ G Hj) as ([c|s] & E & D); cbn [grown_def] in D; [contradiction|]. subst. exact (sh_simple _ _ S t j s Ht Ha E).
Qed.
Lemma expand_grown st l st' : rooted st -> apart st -> NoDup l -> (forall t, In t l -> known st t) -> expand_types st l = Ret st' -> grown st st'.
Proof.
  intros R A N K E. split; [exact (expand_len st l st' R A N K E)|]. intros i d Hd. destruct (expand_each st l st' R A N K E i d Hd) as [X|(c & j & es & ats & -> & D & _ & I & X)].
  - exists d. split; [exact X|exact (grown_refl_def st i d Hd)].
  - eexists. split; [exact X|]. cbn [grown_def with_fields ct_name ct_mixed ct_base]. do 3 (split; [reflexivity|]). intros u Hu. destruct (inherits_nearest st i es ats R I) as [I1 I2].
    apply in_app_or in Hu as [Hu|Hu]; apply in_map_iff in Hu as (x & <- & Hx); cbn [ct_elems ct_attrs with_fields] in Hx.
    + apply I1 in Hx as (k & Lk & (ck & Hk & Ho) & _). exists k, ck. split; [exact (lineage_ancestor _ _ _ Lk)|]. split; [exact Hk|]. apply in_or_app. left. apply in_map. exact Ho.
    + apply I2 in Hx as (k & Lk & (ck & Hk & Ho) & _). exists k, ck. split; [exact (lineage_ancestor _ _ _ Lk)|]. split; [exact Hk|]. apply in_or_app. right. apply in_map. exact Ho.
Qed.
Lemma subseq_in {A} (l m : list A) x : subseq l m -> In x l -> In x m.
Proof. induction 1; cbn [In]; [auto| |]; tauto. Qed.
Lemma inherit_grown st i c : nth_error st i = Some (DC c) -> grown st (put_c st i (inherit st c)).
Proof.
  intros E. assert (Hi : i < List.length st) by exact (nth_lt _ _ _ E). split; [apply set_nth_length|]. intros k d Hd. unfold put_c. rewrite nth_error_set_nth by exact Hi. destruct (Nat.eqb k i) eqn:Q; [|exists d; split; [exact Hd|exact (grown_refl_def st k d Hd)]].
  apply Nat.eqb_eq in Q as ->. assert (d = DC c) as -> by congruence. eexists. split; [reflexivity|]. unfold inherit. destruct (ct_base c) as [|z|n|j] eqn:Eb; try (exact (grown_refl_def st i _ E)).
  destruct (get_c st j) as [b|] eqn:Ej; [|exact (grown_refl_def st i _ E)]. unfold get_c in Ej. destruct (nth_error st j) as [[b0|]|] eqn:Ej0; try discriminate. injection Ej as ->.
  cbn [grown_def]. do 2 (split; [reflexivity|]). split; [exact (eq_sym Eb) || reflexivity|].
  assert (Aj : ancestor st (TPtr i) (TPtr j)). { apply an_base; cbn [base_of]; rewrite E; cbn [def_base]; rewrite Eb; [discriminate|constructor]. }
  intros u Hu. apply in_app_or in Hu as [Hu|Hu]; apply in_map_iff in Hu as (x & <- & Hx); cbn [ct_elems ct_attrs set_fields] in Hx.
  - assert (G : In x (ct_elems c) \/ In x (ct_elems b)). { destruct (existsb el_wild (ct_elems c)); auto. destruct (find el_wild (ct_elems b)) as [e|] eqn:Ef; auto. apply in_app_or in Hx as [Hx|[<-|[]]]; auto. right. exact (proj1 (find_some _ _ Ef)). }
    destruct G as [G|G]; [exists i, c|exists j, b]; (split; [exact Aj || apply an_self|]); (split; [assumption|]); apply in_or_app; left; apply in_map; exact G.
  - destruct (merge_spec (ct_attrs b) (ct_attrs c)) as (ext & Em & Sb & _). rewrite Em in Hx. apply in_app_or in Hx as [G|G]; [exists i, c|exists j, b]; (split; [exact Aj || apply an_self|]); (split; [assumption|]); apply in_or_app; right; apply in_map; [exact G|].
    exact (subseq_in _ _ _ Sb G).
Qed.
