(* Generating code from types: success, and the identifiers in the code. *)
From Verif Require Import Base SortLib ScopeModel TreeModel EqualModel Utf8 Decimal BuiltinModel CodecModel XsdModel XsdProofs TypesModel TypesSpec TypesProofs GraphModel GenModel SgModel SgStruct SgProofs SgNames SgTags SgExamples SgFlat SgClosed SgFlatSpec SgFlatten SgExpandSpec SgExpand SgExpandFields SliceModel SliceExamples SgGen SgGenSpec SgGenProofs.
Local Open Scope string_scope.

Definition go_expr (b : Z) : bool := match builtin_expr b with Returns (Some g) => mem_str (expr_id (of_gotype g)) go_types | _ => false end.
Lemma translated_expr b : translated b -> exists g, builtin_expr b = Returns (Some g) /\ In (expr_id (of_gotype g)) go_types.
Proof.
  intros [H1 H2]. assert (X : forallb (fun i => (Nat.leb 45 i && Nat.leb i 48) || go_expr (Z.of_nat i))%bool (seq 0 50) = true) by (vm_compute; reflexivity).
  rewrite forallb_forall in X. specialize (X (Z.to_nat b)). rewrite Z2Nat.id in X by lia. assert (In (Z.to_nat b) (seq 0 50)) by (apply in_seq; lia). specialize (X H). apply Bool.orb_prop in X as [X|X].
  - apply andb_prop in X as [X1 X2]. apply Nat.leb_le in X1, X2. exfalso. apply H2. lia.
  - unfold go_expr in X. destruct (builtin_expr b) as [|[g|]]; try discriminate. exists g. split; auto. apply mem_str_in in X. exact X.
Qed.
Lemma non_trivial_translated b : non_trivial b = true -> translated b.
Proof. unfold non_trivial, memb. intros H. apply existsb_exists in H as (z & Hz & E). apply Z.eqb_eq in E as ->. cbn in Hz. unfold translated. repeat (destruct Hz as [<-|Hz]; [lia|]). destruct Hz. Qed.
Lemma filtered_fields_in fa fe c : (forall a, In a (fst (filter_fields fa fe c)) -> In a (ct_attrs c)) /\ forall e, In e (snd (filter_fields fa fe c)) -> In e (ct_elems c).
Proof.
  assert (X : forall A (p : A -> bool) (l acc : list A) x, In x (fold_left (fun l a => if p a then l else (l ++ [a])%list) l acc) -> In x acc \/ In x l).
  { intros A p l. induction l as [|a l IH]; intros acc x H; cbn [fold_left] in H; auto. apply IH in H as [H|H]; [|right; right; exact H]. destruct (p a); auto. apply in_app_or in H as [H|[<-|[]]]; cbn [In]; auto. }
  split; intros x H; cbn [fst snd filter_fields] in H; apply X in H as [[]|H]; exact H.
Qed.

Lemma path_ancestor st t p b : path st t p b -> ancestor st t (TB b).
Proof. induction 1 as [b|i d l b Hd Hp IH]; [constructor|]. apply an_base; cbn [base_of]; rewrite Hd; [|exact IH]. intros Z. rewrite Z in Hp. inversion Hp. Qed.

(* the types are still the same ones *)
Section Follows.
  Variable fa : option (attribute -> bool).
  Record follows (st st' : store) : Prop := mkFollows {
    fo_len : List.length st' = List.length st;
    fo_name : forall t, type_name st' t = type_name st t;
    fo_anc : forall t u, known st t -> ancestor st' t u -> ancestor st t u;
    fo_complex : forall t, is_complex st' t = is_complex st t;
    fo_stays : forall t, stays fa st t -> stays fa st' t;
    fo_plain : forall i s, nth_error st i = Some (DS s) -> exists s', nth_error st' i = Some (DS s') /\ forall b, plain s' b <-> plain s b }.
  Lemma follows_refl st : follows st st.
  Proof. split; auto. intros i s E. exists s. split; [exact E|tauto]. Qed.
  Lemma follows_known st st' t : follows st st' -> (known st' t <-> known st t).
  Proof. intros F. destruct t; cbn [known]; try tauto. rewrite (fo_len _ _ F). tauto. Qed.
  Lemma follows_trans st st1 st2 : follows st st1 -> follows st1 st2 -> follows st st2.
  Proof.
    intros F G. split; [rewrite (fo_len _ _ G); exact (fo_len _ _ F)|intros t; rewrite (fo_name _ _ G); exact (fo_name _ _ F t)| |intros t; rewrite (fo_complex _ _ G); exact (fo_complex _ _ F t)| |].
    - intros t u K A. apply (fo_anc _ _ F); auto. apply (fo_anc _ _ G); auto. apply (follows_known _ _ _ F). exact K.
    - intros t S. apply (fo_stays _ _ G), (fo_stays _ _ F). exact S.
    - intros i s E. destruct (fo_plain _ _ F i s E) as (s1 & E1 & P1). destruct (fo_plain _ _ G i s1 E1) as (s2 & E2 & P2). exists s2. split; [exact E2|]. intros b. rewrite P2. apply P1.
  Qed.
  (* facets stay, and attributes that are not ignored *)
  Definition lasting (st st' : store) : Prop := forall i, match nth_error st i, nth_error st' i with
    | Some (DS s), Some (DS s') => forall b, plain s' b <-> plain s b
    | Some (DC c), Some (DC c') => (exists a, In a (ct_attrs c) /\ filtered fa a = false) -> exists a, In a (ct_attrs c') /\ filtered fa a = false
    | _, _ => True
    end.
  Lemma moved_follows st st' : complete st -> moved st st' -> lasting st st' -> follows st st'.
  Proof.
    intros C M L. split; [exact (mv_len _ _ M)|exact (moved_type_name st st' M)|intros t u; exact (moved_ancestor st st' C M t u)| | |].
    - intros t. destruct t as [| | |i]; try reflexivity. cbn [is_complex]. destruct (nth_error st i) as [d|] eqn:E.
      + destruct (mv_def _ _ M i d E) as (d' & -> & D). destruct d, d'; cbn [moved_def] in D; try contradiction; reflexivity.
      + apply nth_error_None in E. rewrite <- (mv_len _ _ M) in E. apply nth_error_None in E. rewrite E. reflexivity.
    - intros t. destruct t as [| | |i]; cbn [stays]; auto. destruct (nth_error st i) as [d|] eqn:E; [|contradiction]. destruct (mv_def _ _ M i d E) as (d' & E' & D). specialize (L i). rewrite E, E' in L. rewrite E'.
      assert (K : known st (TPtr i)) by exact (nth_lt _ _ _ E).
      destruct d as [c|s], d' as [c'|s']; cbn [moved_def] in D; try contradiction.
      + intros [H|[H1 H2]]; [left; exact (L H)|right]. split; [exact (mv_root _ _ M i 0%Z H1)|]. intros k s' Hk Ha. apply (moved_ancestor st st' C M) in Ha; [|exact K].
        destruct (moved_back st st' M k _ Hk) as ([x|s] & Ek & Dk); cbn [moved_def] in Dk; [contradiction|]. exact (H2 k s Ek Ha).
      + intros H b Hb Pb. apply (moved_ancestor st st' C M) in Hb; [|exact K]. exact (H b Hb (proj1 (L b) Pb)).
    - intros i s E. destruct (mv_def _ _ M i _ E) as (d' & E' & D). destruct d' as [c'|s']; cbn [moved_def] in D; [contradiction|]. exists s'. split; [exact E'|]. specialize (L i). rewrite E, E' in L. exact L.
  Qed.
  Lemma flat_lasting st st' : (forall a t, filtered fa (retype_at a t) = filtered fa a) -> (forall i d, nth_error st i = Some d -> exists d', nth_error st' i = Some d' /\ flattened fa st d d') -> lasting st st'.
  Proof.
    intros Hfa F i. destruct (nth_error st i) as [d|] eqn:E; [|exact I]. destruct (F i d E) as (d' & -> & D). destruct d as [c|s], d' as [c'|s']; cbn [flattened] in D; try contradiction.
    - destruct D as (_ & _ & Fa & _). intros (a & Ha & Na). clear - Hfa Fa Ha Na. induction Fa as [|x y l m [_ E] Fa IH]; [destruct Ha|]. destruct Ha as [->|Ha]; [exists y; split; [left; reflexivity|rewrite E, Hfa; exact Na]|].
      destruct (IH Ha) as (z & Z1 & Z2). exists z. split; [right; exact Z1|exact Z2].
    - destruct D as (_ & Es). intros b. rewrite Es. unfold plain. cbn [sd_list sd_union sd_enum sd_pattern sd_maxlen sd_minlen]. tauto.
  Qed.
  Lemma expand_lasting st l st' : rooted st -> apart st -> NoDup l -> (forall t, In t l -> known st t) -> expand_types st l = Ret st' -> lasting st st'.
  Proof.
    intros R A N K E i. destruct (nth_error st i) as [d|] eqn:Ed; [|exact I]. destruct (expand_each st l st' R A N K E i d Ed) as [X|(c & j & es & ats & -> & D & _ & J & X)]; rewrite X; [destruct d; [auto|tauto]|].
    intros (a & Ha & Na). exists a. split; [|exact Na]. cbn [ct_attrs with_fields]. inversion J as [i0 c0 H1 H2|i0 j0 c0 es0 ats0 H1 H2 H3]; subst; [exfalso; exact (H2 j D)|]. assert (c0 = c) as -> by congruence. apply in_or_app. left. exact Ha.
  Qed.
  Lemma inherit_lasting st i c : nth_error st i = Some (DC c) -> lasting st (put_c st i (inherit st c)).
  Proof.
    intros E k. unfold put_c. rewrite nth_error_set_nth by exact (nth_lt _ _ _ E). destruct (Nat.eqb k i) eqn:Q; [|destruct (nth_error st k) as [[?|?]|]; [auto|tauto|auto]]. apply Nat.eqb_eq in Q as ->. rewrite E.
    intros (a & Ha & Na). exists a. split; [|exact Na]. unfold inherit. destruct (ct_base c) as [| | |j]; auto. destruct (get_c st j) as [b|]; auto. cbn [ct_attrs set_fields].
    destruct (merge_spec (ct_attrs b) (ct_attrs c)) as (ext & Em & _). rewrite Em. apply in_or_app. left. exact Ha.
  Qed.
  Lemma lasting_refl st : lasting st st.
  Proof. intros i. destruct (nth_error st i) as [[?|?]|]; [auto|tauto|auto]. Qed.
  Lemma kept_stays st t v : kept fa st t v -> known st t -> complete st -> stays fa st t -> v = t.
  Proof.
    intros [->|(A & _ & S & X)] K C H; [reflexivity|]. exfalso. destruct t as [| | |i]; cbn [stays] in H; try contradiction. destruct (nth_error st i) as [[c|s]|] eqn:E; [| |contradiction].
    - destruct (X i c eq_refl E) as [X1 X2]. destruct H as [(a & Ha & Na)|[H1 H2]]; [rewrite (X1 a Ha) in Na; discriminate|]. destruct X2 as [(b & B1 & B2)|(k & s & B1 & B2)]; [exact (B2 (root_unique _ _ _ _ B1 H1))|exact (H2 k s B1 B2)].
    - destruct (S i s eq_refl E) as (b & -> & Pb). exact (H b A Pb).
  Qed.
End Follows.

Section Code.
  Variable public : xname -> string.
  Variable fa : option (attribute -> bool).
  Variable fe : option (element -> bool).
  Variable ft : option (xname -> bool).
  Variable allow : option (list xname).
  Variable helpers : list Z.
  Hypothesis Hh : forall b, non_trivial b = true -> memb b helpers = true.
  Variable h : nat -> nat.

  (* an identifier of Go, or the name of a type of l *)
  Definition own (st : store) (l : list ty) (x : string) : Prop := exists j n, In (TPtr j) l /\ type_name st (TPtr j) = Some n /\ x = public n.
  Definition id_ok (st : store) (l : list ty) (x : string) : Prop := In x go_types \/ own st l x.
  Lemma listed_in st l j : apart st -> (forall t, In t l -> known st t) -> j < List.length st -> listed st l (TPtr j) -> In (TPtr j) l.
  Proof.
    intros A K Hj (w & W1 & W2). destruct (nth_error st j) as [d|] eqn:E; [|apply nth_error_None in E; lia]. cbn [type_name] in W2. rewrite E in W2. cbn [option_map] in W2.
    pose proof (A j d w E W2) as Q. specialize (K w W1). destruct w as [| | |k]; cbn [known] in K; try contradiction. subst k. exact W1.
  Qed.
  Lemma expr_ok st l u : apart st -> (forall t, In t l -> known st t) -> known st u -> (forall j, u = TPtr j -> listed st l u) -> (forall b, u = TB b -> translated b) ->
    exists e, expr_of public st u = Ret e /\ id_ok st l (expr_id e).
  Proof.
    intros A K Ku L T. destruct u as [|b|n|j]; cbn [known] in Ku; try contradiction.
    - destruct (translated_expr b (T b eq_refl)) as (g & E & Hg). exists (of_gotype g). cbn [expr_of]. rewrite E. split; [reflexivity|left; exact Hg].
    - destruct (nth_error st j) as [d|] eqn:E; [|apply nth_error_None in E; lia]. exists (EId (public (def_name d))). cbn [expr_of type_name]. rewrite E. split; [reflexivity|]. right. exists j, (def_name d).
      split; [apply (listed_in st); auto; apply (L j eq_refl)|]. cbn [type_name]. rewrite E. auto.
  Qed.
  Definition ov_ok (hs : list Z) (o : override) : Prop := ov_to o = ov_from o \/ exists b, In b hs /\ ov_to o = helper_name b.
  Definition helped (hs : list Z) : Prop := forall b, In b hs -> non_trivial b = true.
  Lemma override_ok st u e d nm tg : expr_of public st u = Ret e -> exists os hs, override_for public helpers st u d nm tg = Ret (os, hs) /\ (forall o, In o os -> ov_ok hs o) /\ helped hs.
  Proof.
    intros E. unfold override_for. destruct (negb (String.eqb d "") || non_trivial_ty u)%bool; [|exists [], []; split; [reflexivity|]; split; intros ? []].
    unfold expr_string. rewrite E. cbn [andthen].
    assert (Plain : exists os hs, @Ret (list override * list Z) ([mkOverride nm (expr_text e) (expr_text e) d u tg], []) = Ret (os, hs) /\ (forall o, In o os -> ov_ok hs o) /\ helped hs).
    { eexists. eexists. split; [reflexivity|]. split; [|intros ? []]. intros o [<-|[]]. left. reflexivity. }
    destruct u as [|b|n|j]; try exact Plain. destruct (non_trivial b) eqn:Nb; [|exact Plain]. rewrite (Hh b Nb). eexists. eexists. split; [reflexivity|]. split.
    - intros o [<-|[]]. right. exists b. split; [left; reflexivity|reflexivity].
    - intros z [<-|[]]. exact Nb.
  Qed.
  Record gok (st : store) (l : list ty) (g : gstate) : Prop := mkGok {
    gk_ids : forall f, In f (g_fields g) -> id_ok st l (expr_id (sf_expr f));
    gk_over : forall o, In o (g_over g) -> ov_ok (g_help g) o;
    gk_help : helped (g_help g) }.
  Lemma gok_snoc st l g f os hs taken : gok st l g -> id_ok st l (expr_id (sf_expr f)) -> (forall o, In o os -> ov_ok hs o) -> helped hs ->
    gok st l (mkG taken (g_fields g ++ [f]) (g_over g ++ os) (g_help g ++ hs)%list).
  Proof.
    intros [G1 G2 G3] F O H. split; cbn [g_fields g_over g_help].
    - intros f0 Hf. apply in_app_or in Hf as [Hf|[<-|[]]]; auto.
    - intros o Ho. apply in_app_or in Ho as [Ho|Ho]; [destruct (G2 o Ho) as [Q|(b & B1 & B2)]|destruct (O o Ho) as [Q|(b & B1 & B2)]]; try (left; exact Q); right; exists b; (split; [apply in_or_app; auto|exact B2]).
    - intros b Hb. apply in_app_or in Hb as [Hb|Hb]; auto.
  Qed.
  (* what expr_ok asks of a type *)
  Definition usable (st : store) (l : list ty) (u : ty) : Prop := known st u /\ (forall j, u = TPtr j -> listed st l u) /\ forall b, u = TB b -> translated b.
  Section Fields.
    Variables (st : store) (l : list ty).
    Hypothesis A : apart st.
    Hypothesis K : forall t, In t l -> known st t.
    Lemma element_ok g e : gok st l g -> usable st l (el_type e) -> exists g', element_field public helpers st g e = Ret g' /\ gok st l g'.
    Proof.
      intros G (U1 & U2 & U3). unfold element_field. destruct (expr_ok st l _ A K U1 U2 U3) as (x & Ex & Ix). rewrite Ex. cbn [andthen]. destruct (element_name public (g_taken g) (el_name e)) as [taken name]. cbv zeta.
      match goal with |- context [override_for public helpers st (el_type e) (el_default e) ?nm ?tg] => destruct (override_ok st _ x (el_default e) nm tg Ex) as (os & hs & -> & O & H) end.
      cbn [andthen fst snd]. eexists. split; [reflexivity|]. apply gok_snoc; auto. cbn [sf_expr].
      assert (Q : id_ok st l (expr_id (if (el_wild e && match el_type e with TB b => (b =? 0)%Z | _ => false end)%bool then EId "string" else x))). { destruct (_ && _)%bool; [left; left; reflexivity|exact Ix]. }
      destruct (el_plural e); exact Q.
    Qed.
    Lemma attribute_ok g a : gok st l g -> usable st l (at_type a) -> exists g', attribute_field public helpers st g a = Ret g' /\ gok st l g'.
    Proof.
      intros G (U1 & U2 & U3). unfold attribute_field. destruct (expr_ok st l _ A K U1 U2 U3) as (x & Ex & Ix). rewrite Ex. cbn [andthen]. destruct (attribute_name public (g_taken g) (at_name a)) as [taken name]. cbv zeta.
      destruct (override_ok st _ x (at_default a) name (attribute_tag a) Ex) as (os & hs & -> & O & H). cbn [andthen fst snd]. eexists. split; [reflexivity|]. apply gok_snoc; auto.
    Qed.
    Lemma foldr_ok {B} (f : gstate -> B -> run gstate) (P : B -> Prop) : (forall g b, gok st l g -> P b -> exists g', f g b = Ret g' /\ gok st l g') ->
      forall bs g, gok st l g -> (forall b, In b bs -> P b) -> exists g', foldr f g bs = Ret g' /\ gok st l g'.
    Proof.
      intros Hf bs. induction bs as [|b bs IH]; intros g G H; cbn [foldr]; [eauto|]. destruct (Hf g b G (H b (or_introl eq_refl))) as (g1 & -> & G1). cbn [andthen]. apply IH; auto. intros x Hx. apply H. right. exact Hx.
    Qed.
  End Fields.
  Lemma drill_plain st t p b : path st t p b -> (forall k s, nth_error st k = Some (DS s) -> ~ ancestor st t (TPtr k)) -> forall fuel, List.length p <= fuel -> drill fuel st t = Ret (TB b).
  Proof.
    induction 1 as [b|i d p b Hd Hp IH]; intros Q fuel Hf; [destruct fuel; reflexivity|]. cbn [List.length] in Hf. destruct fuel as [|f]; [lia|].
    assert (B : def_base d <> TNil) by (intros Z; rewrite Z in Hp; inversion Hp). cbn [drill base_of is_simple]. rewrite Hd. destruct d as [c|s]; [|exfalso; apply (Q i s Hd); constructor]. cbn [def_base] in *.
    assert (R : drill f st (ct_base c) = Ret (TB b)). { apply IH; [|lia]. intros k s Hk Ha. apply (Q k s Hk). apply an_base; cbn [base_of]; rewrite Hd; cbn [def_base]; auto. }
    destruct (ct_base c); [congruence| | |]; exact R.
  Qed.
  Lemma drill_text st l : shut st l -> mixed_down st -> forall t p b, path st t p b -> forall fuel, List.length p <= fuel -> forall t0 i c, In t0 l -> ancestor st t0 (TPtr i) -> nth_error st i = Some (DC c) -> ct_mixed c = true -> ct_base c = t ->
    exists u, drill fuel st t = Ret u /\ ancestor st t u /\ ((exists z, u = TB z) \/ is_simple st u = true /\ listed st l u).
  Proof.
    intros S M t p b P. induction P as [b|j d p b Hd Hp IH]; intros fuel Hf t0 i c H0 Ha Hi Hm Hb; [exists (TB b); destruct fuel; (split; [reflexivity|]); (split; [constructor|left; eauto])|].
    cbn [List.length] in Hf. destruct fuel as [|f]; [lia|]. assert (B : def_base d <> TNil) by (intros Z; rewrite Z in Hp; inversion Hp).
    assert (Aj : ancestor st t0 (TPtr j)). { apply ancestor_trans with (TPtr i); auto. apply an_base; cbn [base_of]; rewrite Hi; cbn [def_base]; rewrite Hb; [discriminate|constructor]. }
    cbn [drill base_of is_simple]. rewrite Hd. destruct d as [b0|s]; cbn [def_base] in *.
    - assert (R : exists u, drill f st (ct_base b0) = Ret u /\ ancestor st (ct_base b0) u /\ ((exists z, u = TB z) \/ is_simple st u = true /\ listed st l u)).
      { destruct (M i c j b0 Hi Hm Hb Hd) as [Q|Q]; [apply (IH f) with (t0 := t0) (i := j) (c := b0); auto; lia|]. exists (TB b). split; [|split; [exact (path_ancestor _ _ _ _ Hp)|left; eauto]].
        apply (drill_plain st _ p b Hp); [|lia]. intros k s Hk Hka. apply (Q k s Hk). apply an_base; cbn [base_of]; rewrite Hd; cbn [def_base]; auto. }
      destruct R as (u & R1 & R2 & R3). exists u. split; [|split; [apply an_base; cbn [base_of]; rewrite Hd; cbn [def_base]; auto|exact R3]]. destruct (ct_base b0); [congruence| | |]; exact R1.
    - exists (TPtr j). split; [destruct (sd_base s); [congruence| | |]; reflexivity|]. split; [constructor|]. right. split; [cbn [is_simple]; rewrite Hd; reflexivity|]. rewrite <- Hb. exact (sh_text _ _ S t0 i c H0 Ha Hi Hm).
  Qed.
  Section Chardata.
    Variables (st : store) (l : list ty).
    Hypothesis G : generable h st.
    Hypothesis S : shut st l.
    Lemma translated_use i d u b : nth_error st i = Some d -> In u (uses d) -> ancestor st u (TB b) -> translated b.
    Proof. apply (gn_translated _ _ G). Qed.
    Lemma usable_use i d u v : nth_error st i = Some d -> In u (uses d) -> ancestor st u v -> (forall j, v = TPtr j -> listed st l v) -> usable st l v.
    Proof.
      intros E Hu Ha Hl. split; [|split; [exact Hl|]].
      - apply (ancestor_known st u); auto; [exact (gn_complete _ _ G)|]. exact (proj2 (gn_complete _ _ G i d E) u Hu).
      - intros b ->. exact (translated_use i d u b E Hu Ha).
    Qed.
    Lemma gok_nil : gok st l (mkG [] [] [] []).
    Proof. split; [intros ? []|intros ? []|intros ? []]. Qed.
    Lemma chardata_ok i c : In (TPtr i) l -> nth_error st i = Some (DC c) -> exists g, chardata public helpers st c = Ret g /\ gok st l g.
    Proof.
      intros Hi E. unfold chardata. destruct (ct_mixed c) eqn:Em; [|eexists; split; [reflexivity|exact gok_nil]].
      destruct (proj1 (gn_complete _ _ G i _ E)) as [b Ab]. inversion Ab as [|t w Hn Ha Et Ew]. subst t w. cbn [base_of] in Ha. rewrite E in Ha. cbn [def_base] in Ha. clear Hn Ab. destruct (path_of _ _ _ Ha) as [p Hp].
      assert (Lp : List.length p <= Datatypes.S (List.length st)) by (pose proof (path_short _ _ _ _ Hp); lia).
      destruct (drill_text st l S (gn_mixed _ _ G) _ p b Hp _ Lp (TPtr i) i c Hi (an_self _ _) E Em eq_refl) as (u & Eu & Au & Hu). rewrite Eu. cbn [andthen].
      assert (Uu : usable st l u). { apply (usable_use i (DC c) (ct_base c)); auto; [left; reflexivity|]. intros j ->. destruct Hu as [[z Hz]|[_ Hu]]; [discriminate|exact Hu]. }
      destruct Uu as (U1 & U2 & U3). destruct (expr_ok st l u (gn_apart _ _ G) (sh_known _ _ S) U1 U2 U3) as (e & Ee & Ie). rewrite Ee. cbn [andthen].
      destruct Hu as [[z ->]|[Hs _]].
      - destruct (z =? 0)%Z; [eexists; split; [reflexivity|exact gok_nil]|].
        assert (O : exists os hs, (if non_trivial z then override_for public helpers st (TB z) "" "Value" (quoted ",chardata") else Ret ([], [])) = Ret (os, hs) /\ (forall o, In o os -> ov_ok hs o) /\ helped hs).
        { destruct (non_trivial z); [exact (override_ok st (TB z) e "" "Value" _ Ee)|]. exists [], []. split; [reflexivity|]. split; intros ? []. }
        destruct O as (os & hs & -> & O1 & O2). cbn [andthen fst snd]. destruct (unique [] "Value") as [taken name]. eexists. split; [reflexivity|]. split; cbn [g_fields g_over g_help]; auto. intros f [<-|[]]. exact Ie.
      - destruct u as [|z|n|k]; try discriminate. rewrite Hs. eexists. split; [reflexivity|]. split; cbn [g_fields g_over g_help]; [|intros ? []|intros ? []]. intros f [<-|[]]. exact Ie.
    Qed.
  End Chardata.

  (* what is known of a declaration *)
  Record spec_ok (st : store) (l : list ty) (t : ty) (s : spec) : Prop := mkSpecOk {
    so_type : sp_type s = t;
    so_name : forall n, type_name st t = Some n -> sp_name s = public n;
    so_ids : forall x, In x (spec_ids s) -> id_ok st l x;
    so_over : forall o, In o (sp_overrides s) -> ov_ok (sp_helpers s) o;
    so_help : helped (sp_helpers s) }.
  Lemma own_same st st' l x : (forall t, type_name st' t = type_name st t) -> own st' l x -> own st l x.
  Proof. intros N (j & n & H1 & H2 & H3). exists j, n. rewrite N in H2. auto. Qed.
  Lemma id_same st st' l x : (forall t, type_name st' t = type_name st t) -> id_ok st' l x -> id_ok st l x.
  Proof. intros N [H|H]; [left; exact H|right; exact (own_same st st' l x N H)]. Qed.
  Lemma spec_same st st' l t s : (forall t, type_name st' t = type_name st t) -> spec_ok st' l t s -> spec_ok st l t s.
  Proof. intros N [H1 H2 H3 H4 H5]. split; auto; [intros n Hn; apply H2; rewrite N; exact Hn|]. intros x Hx. exact (id_same st st' l x N (H3 x Hx)). Qed.

  Lemma root_base_ok st t p b : path st t p b -> forall fuel, List.length p <= fuel -> root_base fuel st t = Ret (TB b).
  Proof.
    induction 1 as [b|i d p b Hd Hp IH]; intros fuel Hf; [destruct fuel; reflexivity|]. cbn [List.length] in Hf. destruct fuel as [|f]; [lia|].
    assert (B : def_base d <> TNil) by (intros Z; rewrite Z in Hp; inversion Hp). cbn [root_base base_of]. rewrite Hd. assert (R : root_base f st (def_base d) = Ret (TB b)) by (apply IH; lia).
    destruct (def_base d); [congruence| | |]; exact R.
  Qed.
  Lemma simple_ok st l i s : generable h st -> shut st l -> In (TPtr i) l -> nth_error st i = Some (DS s) ->
    exists sp, (if sd_list s then gen_simple_list public st i s else gen_simple public helpers st i s) = Ret [sp] /\ spec_ok st l (TPtr i) sp.
  Proof.
    intros G S Hi E. destruct (sh_simple _ _ S _ i s Hi (an_self _ _) E) as [b Eb].
    assert (Ab : ancestor st (TPtr i) (TB b)). { apply an_base; cbn [base_of]; rewrite E; cbn [def_base]; rewrite Eb; [discriminate|constructor]. }
    assert (T : translated b). { apply (gn_translated _ _ G i (DS s) (TB b) b E); [left; exact Eb|constructor]. }
    destruct (translated_expr b T) as (g & Eg & Ig).
    assert (Nm : forall n, type_name st (TPtr i) = Some n -> public (sd_name s) = public n). { intros n Hn. cbn [type_name] in Hn. rewrite E in Hn. cbn [option_map def_name] in Hn. congruence. }
    assert (Mk : forall doc e hs, In (expr_id e) go_types -> helped hs -> spec_ok st l (TPtr i) (mkSpec (public (sd_name s)) doc None (Some e) [] (TPtr i) hs)).
    { intros doc e hs He Hhs. split; cbn [sp_type sp_name sp_overrides sp_helpers]; auto; [|intros ? []]. unfold spec_ids. cbn [sp_struct sp_expr app]. intros x [<-|[]]. left. exact He. }
    destruct (sd_list s) eqn:El.
    - destruct (gn_lists _ _ G i s b E El Ab) as (c & Ec & Bc). unfold gen_simple_list. rewrite Eb. cbn [expr_of]. rewrite Eg. cbn [andthen root_base base_of]. rewrite Ec, Bc. eexists. split; [reflexivity|]. apply Mk; [exact Ig|intros ? []].
    - unfold gen_simple. destruct (sd_union s) as [|? ?]; [|eexists; split; [reflexivity|]; apply Mk; [left; reflexivity|intros ? []]]. rewrite Eb. cbn [expr_of]. rewrite Eg. cbn [andthen].
      destruct (non_trivial b) eqn:Nb; [rewrite (Hh b Nb)|]; (eexists; split; [reflexivity|]; apply Mk; [exact Ig|]); [intros z [<-|[]]; exact Nb|intros ? []].
  Qed.
  Lemma complex_ok st l i c : generable h st -> shut st l -> In (TPtr i) l -> nth_error st i = Some (DC c) ->
    exists st' sp, gen_complex public fa fe helpers st i c = Ret (st', [sp]) /\ grown st st' /\ lasting fa st st' /\ spec_ok st l (TPtr i) sp.
  Proof.
    intros G S Hi E. unfold gen_complex. destruct (chardata_ok st l G S i c Hi E) as (g0 & -> & K0). cbn [andthen]. pose proof (inherit_grown st i c E) as Gr. set (st1 := put_c st i (inherit st c)) in *.
    assert (G1 : generable h st1) by exact (moved_generable st st1 (gn_complete _ _ G) (grown_moved _ _ Gr) h G). assert (S1 : shut st1 l) by exact (grown_shut _ _ _ Gr S).
    assert (N1 : forall t, type_name st1 t = type_name st t) by (intros t; exact (grown_name _ _ t Gr)).
    assert (E1 : nth_error st1 i = Some (DC (inherit st c))). { unfold st1, put_c. rewrite nth_error_set_nth by exact (nth_lt _ _ _ E). rewrite Nat.eqb_refl. reflexivity. }
    assert (K1 : gok st1 l g0). { destruct K0 as [A1 A2 A3]. split; auto. intros f Hf. apply (id_same st1 st l); [intros t; symmetry; apply N1|auto]. }
    destruct (filtered_fields_in fa fe (inherit st c)) as [Fa Fe]. destruct (filter_fields fa fe (inherit st c)) as [ats els]. cbn [fst snd] in Fa, Fe.
    assert (Us : forall u, In u (field_types (inherit st c)) -> usable st1 l u).
    { intros u Hu. apply (usable_use st1 l G1 i (DC (inherit st c)) u u E1); [right; exact Hu|constructor|]. intros j _. exact (sh_fields _ _ S1 _ i _ u Hi (an_self _ _) E1 Hu). }
    destruct (foldr_ok st1 l (element_field public helpers st1) (fun e => usable st1 l (el_type e)) (element_ok st1 l (gn_apart _ _ G1) (sh_known _ _ S1)) els g0 K1) as (g1 & -> & K2).
    { intros e He. apply Us. apply in_or_app. left. apply in_map. auto. }
    cbn [andthen]. destruct (foldr_ok st1 l (attribute_field public helpers st1) (fun a => usable st1 l (at_type a)) (attribute_ok st1 l (gn_apart _ _ G1) (sh_known _ _ S1)) ats g1 K2) as (g2 & -> & K3).
    { intros a Ha. apply Us. apply in_or_app. right. apply in_map. auto. }
    cbn [andthen]. eexists. eexists. split; [reflexivity|]. split; [exact Gr|]. split; [exact (inherit_lasting fa st i c E)|]. apply (spec_same st st1 l _ _ N1). destruct K3 as [A1 A2 A3]. split; cbn [sp_type sp_name sp_overrides sp_helpers]; auto.
    - intros n Hn. cbn [type_name] in Hn. rewrite E1 in Hn. cbn [option_map def_name] in Hn. congruence.
    - unfold spec_ids. cbn [sp_struct sp_expr]. rewrite app_nil_r. intros x Hx. apply in_map_iff in Hx as (f & <- & Hf). auto.
  Qed.
  Definition is_ptr (t : ty) : bool := match t with TPtr _ => true | _ => false end.
  Lemma type_ok st l t : generable h st -> shut st l -> In t l ->
    exists st' sps, gen_type public fa fe helpers st t = Ret (st', sps) /\ grown st st' /\ lasting fa st st' /\ Forall2 (spec_ok st l) (filter is_ptr [t]) sps.
  Proof.
    intros G S Ht. pose proof (sh_known _ _ S t Ht) as K. destruct t as [|b|n|i]; cbn [known] in K; try contradiction.
    - exists st, []. split; [reflexivity|]. split; [apply grown_refl|]. split; [apply lasting_refl|constructor].
    - destruct (nth_error st i) as [[c|s]|] eqn:E; [| |apply nth_error_None in E; lia].
      + destruct (complex_ok st l i c G S Ht E) as (st' & sp & H1 & H2 & H3 & H4). exists st', [sp]. cbn [gen_type]. rewrite E. split; [exact H1|]. split; [exact H2|]. split; [exact H3|]. constructor; [exact H4|constructor].
      + destruct (simple_ok st l i s G S Ht E) as (sp & H1 & H2). exists st, [sp]. cbn [gen_type]. rewrite E, H1. split; [reflexivity|]. split; [apply grown_refl|]. split; [apply lasting_refl|]. constructor; [exact H2|constructor].
  Qed.
  Lemma steps_ok l : forall m st acc, incl m l -> generable h st -> shut st l ->
    exists st' sps, foldr (gen_step public fa fe helpers) (st, [], acc) m = Ret (st', [], (acc ++ sps)%list) /\ generable h st' /\ shut st' l /\ follows fa st st' /\ Forall2 (spec_ok st l) (filter is_ptr m) sps.
  Proof.
    induction m as [|t m IH]; intros st acc Hm G S.
    - exists st, []. rewrite app_nil_r. cbn [foldr filter]. split; [reflexivity|]. split; [exact G|]. split; [exact S|]. split; [apply follows_refl|constructor].
    - destruct (type_ok st l t G S (Hm t (or_introl eq_refl))) as (st1 & s1 & E1 & Gr & La & F1). cbn [foldr gen_step]. rewrite E1. cbn [andthen].
      assert (G1 : generable h st1) by exact (moved_generable st st1 (gn_complete _ _ G) (grown_moved _ _ Gr) h G).
      destruct (IH st1 (acc ++ s1)%list (fun x Hx => Hm x (or_intror Hx)) G1 (grown_shut _ _ _ Gr S)) as (st2 & s2 & E2 & G2 & S2 & M2 & F2). exists st2, (s1 ++ s2)%list. rewrite app_assoc. split; [exact E2|].
      split; [exact G2|]. split; [exact S2|]. split; [exact (follows_trans fa st st1 st2 (moved_follows fa _ _ (gn_complete _ _ G) (grown_moved _ _ Gr) La) M2)|].
      change (t :: m) with ([t] ++ m)%list. rewrite filter_app. apply Forall2_app; [exact F1|]. clear - F2 Gr. induction F2 as [|a b l1 l2 H F2 IH]; constructor; [|exact IH]. apply (spec_same st st1); [|exact H]. intros u. exact (grown_name _ _ u Gr).
  Qed.

  (* ---------- schemas ---------- *)
  Hypothesis Hfa : forall a t, filtered fa (retype_at a t) = filtered fa a.
  Hypothesis Hb : forall i, h i <= N.to_nat 1000.
  (* declared, with the types it needs *)
  Definition settled (st : store) (names : list string) (s : spec) : Prop :=
    (exists j n, sp_type s = TPtr j /\ type_name st (TPtr j) = Some n /\ sp_name s = public n) /\
    (forall x, In x (spec_ids s) -> In x go_types \/ In x names) /\ (forall o, In o (sp_overrides s) -> ov_ok (sp_helpers s) o) /\ helped (sp_helpers s).
  Lemma settled_more st st' ns ns' s : (forall t, type_name st' t = type_name st t) -> incl ns ns' -> settled st' ns s -> settled st ns' s.
  Proof.
    intros N I ((j & n & H1 & H2 & H3) & H4 & H5 & H6). split; [exists j, n; rewrite N in H2; auto|]. split; [|auto]. intros x Hx. destruct (H4 x Hx); auto.
  Qed.
  Definition declared (sps : list spec) (j : nat) : Prop := exists s, In s sps /\ sp_type s = TPtr j.
  Lemma present_more st st' (D D' : nat -> Prop) t : follows fa st st' -> known st t -> (forall j, D j -> D' j) -> present fa st' D t -> present fa st D' t.
  Proof.
    intros F K I (v & Hv & Hs & H). exists v. split; [|split; [|auto]].
    - destruct Hv as [->|[A B]]; [left; reflexivity|right]. split; [exact (fo_anc _ _ _ F _ _ K A)|]. rewrite <- (fo_complex _ _ _ F). exact B.
    - intros S. apply Hs, (fo_stays _ _ _ F), S.
  Qed.
  Lemma schema_ok st acc types : generable h st -> (forall t, In t types -> known st t) ->
    exists st' sps, gen_schema public fa fe ft allow helpers (st, [], acc) types = Ret (st', [], (acc ++ sps)%list) /\ generable h st' /\ follows fa st st' /\
      (forall s, In s sps -> settled st (map sp_name sps) s) /\
      (forall t n, In t types -> type_name st t = Some n -> selected ft allow n = true -> present fa st (declared sps) t).
  Proof.
    intros G K. unfold gen_schema.
    destruct (flatten_all fa ft allow st types Hfa (gn_complete _ _ G) K) as [st1 [l [E1 [F1 [L1 [R1 [C1 [K1 [P1 N1]]]]]]]]].
    destruct (flatten_closed fa ft allow h st types Hfa (gn_complete _ _ G) (gn_ranked _ _ G) Hb K) as [st1' [l' [E1' Rd]]]. assert (st1' = st1) as -> by congruence. assert (l' = l) as -> by congruence. clear E1'.
    pose proof (flat_moved fa st st1 (gn_complete _ _ G) L1 F1 R1) as M1. pose proof (moved_generable st st1 (gn_complete _ _ G) M1 h G) as G1. pose proof (names_nodup st1 l N1) as Nd. pose proof (complete_rooted _ C1) as Rt.
    destruct (expand_main st1 l Rt (gn_apart _ _ G1) Nd K1) as [st2 [E2 _]]. pose proof (expand_grown st1 l st2 Rt (gn_apart _ _ G1) Nd K1 E2) as Gr.
    pose proof (moved_generable st1 st2 C1 (grown_moved _ _ Gr) h G1) as G2. pose proof (grown_shut _ _ _ Gr (ready_shut st1 l K1 Rd)) as S2.
    destruct (steps_ok l l st2 acc (incl_refl l) G2 S2) as (st3 & sps & E3 & G3 & S3 & Fo & Sp).
    rewrite E1. cbn [andthen fst snd]. rewrite E2. cbn [andthen]. exists st3, sps. split; [exact E3|]. split; [exact G3|].
    assert (Fo2 : follows fa st st2). { apply follows_trans with st1; [exact (moved_follows _ _ _ (gn_complete _ _ G) M1 (flat_lasting fa st st1 Hfa F1))|exact (moved_follows _ _ _ C1 (grown_moved _ _ Gr) (expand_lasting fa st1 l st2 Rt (gn_apart _ _ G1) Nd K1 E2))]. }
    split; [exact (follows_trans _ _ _ _ Fo2 Fo)|].
    assert (Dec : forall j, In (TPtr j) l -> declared sps j).
    { intros j Hj. assert (Hf : In (TPtr j) (filter is_ptr l)) by (apply filter_In; auto). clear - Sp Hf.
      induction Sp as [|a b l1 l2 H Sp IH]; [destruct Hf|]. destruct Hf as [->|Hf]; [exists b; split; [left; reflexivity|exact (so_type _ _ _ _ H)]|]. destruct (IH Hf) as (s & S1 & S2). exists s. split; [right; exact S1|exact S2]. }
    assert (Nam : forall j n, In (TPtr j) l -> type_name st (TPtr j) = Some n -> In (public n) (map sp_name sps)).
    { intros j n Hj Hn. rewrite <- (fo_name _ _ _ Fo2) in Hn. assert (Hf : In (TPtr j) (filter is_ptr l)) by (apply filter_In; auto). clear - Sp Hf Hn.
      induction Sp as [|a b l1 l2 H Sp IH]; [destruct Hf|]. cbn [map In]. destruct Hf as [->|Hf]; [left; exact (so_name _ _ _ _ H n Hn)|right; auto]. }
    split.
    - intros s Hs. assert (X : exists t, In t l /\ is_ptr t = true /\ spec_ok st2 l t s). { clear - Sp Hs. assert (Y : exists t, In t (filter is_ptr l) /\ spec_ok st2 l t s).
        { induction Sp as [|a b l1 l2 H Sp IH]; [destruct Hs|]. destruct Hs as [->|Hs]; [exists a; split; [left; reflexivity|exact H]|]. destruct (IH Hs) as (t & T1 & T2). exists t. split; [right; exact T1|exact T2]. }
        destruct Y as (t & T1 & T2). apply filter_In in T1 as [T0 T1]. eauto. }
      destruct X as (t & Ht & Hp & [O1 O2 O3 O4 O5]). destruct t as [| | |j]; try discriminate. split.
      + pose proof (sh_known _ _ S2 _ Ht) as Kj. cbn [known] in Kj. destruct (nth_error st2 j) as [d|] eqn:Ed; [|apply nth_error_None in Ed; lia].
        exists j, (def_name d). split; [exact O1|]. rewrite <- (fo_name _ _ _ Fo2). assert (Q : type_name st2 (TPtr j) = Some (def_name d)) by (cbn [type_name]; rewrite Ed; reflexivity). split; [exact Q|exact (O2 _ Q)].
      + split; [|auto]. intros x Hx. destruct (O3 x Hx) as [Q|(k & n & Q1 & Q2 & ->)]; [left; exact Q|right]. rewrite (fo_name _ _ _ Fo2) in Q2. exact (Nam k n Q1 Q2).
    - intros t n Ht Hn Hs. destruct (P1 t n Ht Hn Hs) as (v & Kv & Lv). exists v. split; [destruct Kv as [->|(A & B & _)]; auto|]. split; [exact (kept_stays fa st t v Kv (K t Ht) (gn_complete _ _ G))|].
      intros j ->. apply Dec. apply (listed_in st1); [exact (gn_apart _ _ G1)|exact K1| |exact Lv]. rewrite L1. exact (ancestor_known st t (TPtr j) (gn_complete _ _ G) (K t Ht) (kept_ancestor _ _ _ _ Kv)).
  Qed.
  Lemma schemas_ok : forall schemas st acc, generable h st -> (forall types t, In types schemas -> In t types -> known st t) ->
    exists st' sps, foldr (gen_schema public fa fe ft allow helpers) (st, [], acc) schemas = Ret (st', [], (acc ++ sps)%list) /\ generable h st' /\ follows fa st st' /\
      (forall s, In s sps -> settled st (map sp_name sps) s) /\
      (forall types t n, In types schemas -> In t types -> type_name st t = Some n -> selected ft allow n = true -> present fa st (declared sps) t).
  Proof.
    induction schemas as [|types m IH]; intros st acc G K.
    - exists st, []. rewrite app_nil_r. cbn [foldr]. split; [reflexivity|]. split; [exact G|]. split; [apply follows_refl|]. split; [intros ? []|intros ? ? ? []].
    - destruct (schema_ok st acc types G (fun t => K types t (or_introl eq_refl))) as (st1 & s1 & E1 & G1 & F1 & S1 & P1). cbn [foldr]. rewrite E1. cbn [andthen].
      destruct (IH st1 (acc ++ s1)%list G1) as (st2 & s2 & E2 & G2 & F2 & S2 & P2). { intros ts t H1 H2. apply (follows_known _ _ _ _ F1). exact (K ts t (or_intror H1) H2). }
      assert (I1 : incl (map sp_name s1) (map sp_name (s1 ++ s2)%list)) by (rewrite map_app; apply incl_appl, incl_refl). assert (I2 : incl (map sp_name s2) (map sp_name (s1 ++ s2)%list)) by (rewrite map_app; apply incl_appr, incl_refl).
      assert (J1 : forall j, declared s1 j -> declared (s1 ++ s2) j) by (intros j (x & X1 & X2); exists x; split; [apply in_or_app; left; exact X1|exact X2]).
      assert (J2 : forall j, declared s2 j -> declared (s1 ++ s2) j) by (intros j (x & X1 & X2); exists x; split; [apply in_or_app; right; exact X1|exact X2]).
      exists st2, (s1 ++ s2)%list. rewrite app_assoc. split; [exact E2|]. split; [exact G2|]. split; [exact (follows_trans _ _ _ _ F1 F2)|]. split.
      + intros s Hs. apply in_app_or in Hs as [Hs|Hs]; [exact (settled_more st st _ _ s (fun _ => eq_refl) I1 (S1 s Hs))|exact (settled_more st st1 _ _ s (fo_name _ _ _ F1) I2 (S2 s Hs))].
      + intros ts t n [<-|H1] H2 H3 H4; [exact (present_more st st _ _ t (follows_refl fa st) (K types t (or_introl eq_refl) H2) J1 (P1 t n H2 H3 H4))|].
        apply (present_more st st1 (declared s2) _ t F1 (K ts t (or_intror H1) H2) J2). apply (P2 ts t n H1 H2); [rewrite (fo_name _ _ _ F1); exact H3|exact H4].
  Qed.
End Code.
