(* The structs that genComplexType makes are such that their fields can be told apart, if the names in
   the schema can. *)
From Verif Require Import Base ScopeModel TreeModel EqualModel EqualProofs BuiltinModel XsdModel XsdProofs TypesModel GenModel SgModel SgStruct SgProofs SgNames SgTags BindModel BindSpec BindProofs.
Local Open Scope string_scope.

(* ---------- tags ---------- *)
Lemma content_quoted s : unquotable s = false -> content_of (quoted s) = Some s.
Proof.
  intros H. unfold content_of, quoted. replace (String.prefix "xml:""" ("xml:""" ++ s ++ """")) with true by (cbn [append String.prefix]; destruct (s ++ """"); reflexivity).
  replace (s_drop 5 ("xml:""" ++ s ++ """")) with (s ++ """") by reflexivity. rewrite s_rev_app.
  match goal with |- context [s_rev """"] => change (s_rev """") with """" end. cbn [append]. rewrite s_rev_rev, H. reflexivity.
Qed.
Lemma info_at i d name tag e p : info_of i d name tag e p =
  option_map (fun x => mkInfo i d (fi_mode x) (fi_ns x) (fi_name x) (fi_omit x) e p) (info_of 0 0 name tag (EId "") false).
Proof.
  unfold info_of. destruct (String.eqb name "XMLName"); [reflexivity|]. destruct (content_of tag) as [c|]; [|reflexivity]. destruct (tag_of c) as [ns [|l fl]]; [reflexivity|]. destruct (s_in ">" l); [reflexivity|]. cbv zeta.
  destruct (filter _ fl) as [|a [|b r]]; [destruct (_ && _)%bool; reflexivity| |].
  - repeat match goal with |- context [match ?a with _ => _ end] => match type of a with ascii => destruct a as [[] [] [] [] [] [] [] []] | string => destruct a end; try reflexivity end; destruct (_ && _)%bool || destruct (_ || _)%bool; reflexivity.
  - repeat match goal with |- context [match ?a with _ => _ end] => match type of a with ascii => destruct a as [[] [] [] [] [] [] [] []] | string => destruct a end; try reflexivity end.
Qed.
(* what the tag of a field says *)
Definition says (f : sfield) (x : finfo) : Prop := info_of 0 0 (sf_name f) (sf_tag f) (EId "") false = Some x.
Lemma says_at f x i d e p : says f x -> info_of i d (sf_name f) (sf_tag f) e p = Some (mkInfo i d (fi_mode x) (fi_ns x) (fi_name x) (fi_omit x) e p).
Proof. intros H. rewrite info_at. unfold says in H. rewrite H. reflexivity. Qed.

(* ---------- the fields of a struct with its overlay ---------- *)
Lemma find_field_spec name : forall l k j f, NoDup (map sf_name l) -> nth_error l j = Some f -> sf_name f = name -> find_field name k l = Some (k + j).
Proof.
  induction l as [|g l IH]; intros k [|j] f N H E; try discriminate; cbn [find_field nth_error map] in *.
  - injection H as ->. rewrite E, String.eqb_refl. f_equal. lia.
  - inversion N as [|? ? N1 N2]; subst. assert (sf_name g <> sf_name f) as D. { intros D. apply N1. rewrite D. apply in_map. exact (nth_error_In _ _ H). }
    apply String.eqb_neq in D. rewrite D, (IH (S k) j f N2 H eq_refl). f_equal. lia.
Qed.
Section Infos.
  Variable exported : string -> bool.
  Variable fs : list sfield.
  Hypothesis Hexp : forall f, In f fs -> exported (sf_name f) = true.
  Hypothesis Hsay : forall f, In f fs -> exists x, says f x.
  Hypothesis Hname : NoDup (map sf_name fs).
  Definition same_key (x y : finfo) : Prop := fi_mode x = fi_mode y /\ fi_ns x = fi_ns y /\ fi_name x = fi_name y.
  Hypothesis Hkey : forall i j f g x y, nth_error fs i = Some f -> nth_error fs j = Some g -> says f x -> says g y -> same_key x y -> i = j.

  Lemma mode_eqb_iff a b : mode_eqb a b = true <-> a = b.
  Proof. destruct a, b; cbn; split; congruence. Qed.
  Lemma clash_iff a b : clash a b = true <-> same_key a b.
  Proof.
    unfold clash, same_key. rewrite !andb_true_iff, mode_eqb_iff, !String.eqb_eq. tauto.
  Qed.
  (* what an entry says of its field *)
  Definition entry (d : nat) (os : list override) (i : finfo) : Prop :=
    exists f x, nth_error fs (fi_idx i) = Some f /\ says f x /\ same_key i x /\ fi_omit i = fi_omit x /\
      ((fi_ptr i = false /\ fi_depth i = d /\ fi_type i = sf_expr f /\ forall o, In o os -> ov_field o <> sf_name f) \/
       (fi_ptr i = true /\ fi_depth i = 1 /\ exists o, In o os /\ ov_field o = sf_name f /\ fi_type i = text_expr (ov_to o))).
  (* fields with an overlay come after the others *)
  Definition overlaid (os : list override) (j : nat) : bool := match nth_error fs j with Some f => mem_str (sf_name f) (map ov_field os) | None => false end.
  Definition position (o : override) : list nat := match find_field (ov_field o) 0 fs with Some j => [j] | None => [] end.
  Definition order (os : list override) : list nat := (filter (fun j => negb (overlaid os j)) (seq 0 (List.length fs)) ++ flat_map position os)%list.
  Definition entries (d : nat) (os : list override) (l : list finfo) : Prop :=
    NoDup (map fi_idx l) /\ (forall j f, nth_error fs j = Some f -> exists i, In i l /\ fi_idx i = j) /\ Forall (entry d os) l /\ map fi_idx l = order os.
  Lemma order_nil : order [] = seq 0 (List.length fs).
  Proof.
    unfold order. cbn [flat_map]. rewrite app_nil_r. generalize (seq 0 (List.length fs)). intros l. induction l as [|j l IH]; [reflexivity|]. cbn [filter].
    assert (E : overlaid [] j = false) by (unfold overlaid; destruct (nth_error fs j); reflexivity). rewrite E. cbn [negb]. f_equal. exact IH.
  Qed.
  Lemma filter_none {A} (p : A -> bool) l : (forall a, In a l -> p a = false) -> filter p l = [].
  Proof. induction l as [|a l IH]; intros H; [reflexivity|]. cbn [filter]. rewrite (H a (or_introl eq_refl)). apply IH. intros; apply H; right; assumption. Qed.
  Lemma add_fresh l x : (forall y, In y l -> ~ same_key x y) -> add_info l x = Some (l ++ [x])%list.
  Proof.
    intros H. assert (C : forall y, In y l -> clash x y = false). { intros y Y. apply Bool.not_true_iff_false. rewrite clash_iff. exact (H y Y). }
    unfold add_info. rewrite (filter_none _ _ C). cbn [existsb]. do 2 f_equal. clear H. induction l as [|a l IH]; [reflexivity|]. cbn [filter]. rewrite (C a (or_introl eq_refl)). cbn [negb]. f_equal. apply IH. intros; apply C; right; assumption.
  Qed.
  Lemma field_infos_ok d : forall fs2 fs1 l, fs = (fs1 ++ fs2)%list -> map fi_idx l = seq 0 (List.length fs1) -> NoDup (map fi_idx l) -> (forall j f, nth_error fs1 j = Some f -> exists i, In i l /\ fi_idx i = j) ->
    Forall (fun i => entry d [] i /\ fi_idx i < List.length fs1 /\ fi_depth i = d) l -> exists l', field_infos exported d (List.length fs1) fs2 l = Some l' /\ entries d [] l'.
  Proof.
    induction fs2 as [|f fs2 IH]; intros fs1 l E Sq N A F; cbn [field_infos].
    - exists l. split; [reflexivity|]. rewrite app_nil_r in E. split; [exact N|]. split; [rewrite E; exact A|]. split; [eapply Forall_impl; [|exact F]; cbn beta; tauto|]. rewrite order_nil, E. exact Sq.
    - assert (I : In f fs) by (rewrite E; apply in_or_app; right; left; reflexivity). rewrite (Hexp f I). destruct (Hsay f I) as [x X]. rewrite (says_at f x _ d _ _ X).
      assert (Nf : nth_error fs (List.length fs1) = Some f) by (rewrite E, nth_error_app2, Nat.sub_diag by lia; reflexivity).
      assert (Ef : entry d [] (mkInfo (List.length fs1) d (fi_mode x) (fi_ns x) (fi_name x) (fi_omit x) (sf_expr f) false)).
      { exists f, x. split; [exact Nf|]. split; [exact X|]. split; [repeat split|]. split; [reflexivity|]. left. repeat split; auto. }
      rewrite add_fresh.
      + replace (S (List.length fs1)) with (List.length (fs1 ++ [f])) by (rewrite app_length; cbn; lia). apply IH.
        * rewrite <- app_assoc. exact E.
        * rewrite map_app, app_length, seq_app, Sq. reflexivity.
        * rewrite map_app. cbn [map fi_idx]. apply nodup_snoc; [exact N|]. intros H. apply in_map_iff in H as (i & H1 & H2). rewrite Forall_forall in F. destruct (F i H2) as (_ & L & _). lia.
        * intros j g Hg. destruct (Nat.lt_ge_cases j (List.length fs1)) as [L|L].
          -- rewrite nth_error_app1 in Hg by exact L. destruct (A j g Hg) as (i & H1 & H2). exists i. split; [apply in_or_app; left|]; assumption.
          -- assert (j = List.length fs1) as -> by (assert (j < List.length (fs1 ++ [f])) by (apply nth_error_Some; congruence); rewrite app_length in *; cbn [List.length] in *; lia).
             eexists. split; [apply in_or_app; right; left; reflexivity|]. reflexivity.
        * apply Forall_app. rewrite app_length. cbn [List.length]. split; [eapply Forall_impl; [|exact F]; cbn beta; intros i (H1 & H2 & H3); repeat split; auto; lia|].
          constructor; [|constructor]. cbn [fi_idx fi_depth]. repeat split; auto. lia.
      + intros y Hy K. rewrite Forall_forall in F. destruct (F y Hy) as ((g & z & G1 & G2 & G3 & _) & L & _).
        assert (fi_idx y = List.length fs1); [|lia]. refine (Hkey _ _ g f z x G1 Nf G2 X _). unfold same_key in *. cbn [fi_mode fi_ns fi_name] in K. intuition congruence.
  Qed.
  Lemma nodup_filter_map {A B} (g : A -> B) p l : NoDup (map g l) -> NoDup (map g (filter p l)).
  Proof.
    induction l as [|a l IH]; [auto|]. cbn [map filter]. intros N. inversion N as [|? ? N1 N2]; subst. destruct (p a); [|auto]. cbn [map]. constructor; [|auto].
    intros H. apply N1. apply in_map_iff in H as (b & <- & H). apply in_map. apply filter_In in H. apply H.
  Qed.
  Lemma override_ok os l o : entries 2 os l -> overlays fs o -> ~ In (ov_field o) (map ov_field os) -> exists l', override_info exported fs l o = Some l' /\ entries 2 (os ++ [o]) l'.
  Proof.
    intros (N & A & F & Or) (f & I & Fn & Ft) New. destruct (In_nth_error _ _ I) as [j J]. unfold override_info. rewrite <- Fn, (Hexp f I). rewrite (find_field_spec (sf_name f) fs 0 j f Hname J eq_refl). cbn [Nat.add].
    destruct (Hsay f I) as [x X]. rewrite <- Ft, (says_at f x _ 1 _ _ X). set (z := mkInfo j 1 (fi_mode x) (fi_ns x) (fi_name x) (fi_omit x) (text_expr (ov_to o)) true).
    assert (C : forall i, In i l -> clash z i = true -> fi_idx i = j /\ fi_depth i = 2).
    { intros i Hi Ci. apply clash_iff in Ci. rewrite Forall_forall in F. destruct (F i Hi) as (g & y & G1 & G2 & G3 & G4 & G5).
      assert (Ej : fi_idx i = j). { refine (Hkey _ _ g f y x G1 J G2 X _). unfold same_key, z in *. cbn [fi_mode fi_ns fi_name] in Ci. intuition congruence. }
      split; [exact Ej|]. destruct G5 as [(_ & G5 & _)|(_ & _ & o' & O1 & O2 & _)]; [exact G5|]. exfalso. apply New. rewrite Ej in G1. assert (g = f) as -> by congruence. rewrite <- Fn, <- O2. apply in_map. exact O1. }
    assert (C' : forall i, In i l -> fi_idx i = j -> clash z i = true).
    { intros i Hi Ei. apply clash_iff. rewrite Forall_forall in F. destruct (F i Hi) as (g & y & G1 & G2 & G3 & _). rewrite Ei in G1. assert (g = f) as -> by congruence. unfold says in *.
      assert (y = x) as -> by congruence. unfold same_key, z in *. cbn [fi_mode fi_ns fi_name]. intuition congruence. }
    unfold add_info. change (fi_depth z) with 1.
    assert (X1 : existsb (fun o => Nat.ltb (fi_depth o) 1) (filter (clash z) l) = false).
    { apply Bool.not_true_iff_false. intros Y. apply existsb_exists in Y as (i & Y & D). apply filter_In in Y as [Y1 Y2]. destruct (C i Y1 Y2) as [_ D2]. rewrite D2 in D. discriminate. }
    assert (X2 : existsb (fun o => Nat.eqb (fi_depth o) 1) (filter (clash z) l) = false).
    { apply Bool.not_true_iff_false. intros Y. apply existsb_exists in Y as (i & Y & D). apply filter_In in Y as [Y1 Y2]. destruct (C i Y1 Y2) as [_ D2]. rewrite D2 in D. discriminate. }
    rewrite X1, X2. eexists. split; [reflexivity|]. split; [|split; [|split]].
    - rewrite map_app. cbn [map]. apply nodup_snoc; [apply nodup_filter_map; exact N|]. intros H. apply in_map_iff in H as (i & H1 & H2). apply filter_In in H2 as [H2 H3]. change (fi_idx z) with j in H1. rewrite (C' i H2 H1) in H3. discriminate.
    - intros k g Hg. destruct (Nat.eq_dec k j) as [->|D]; [exists z; split; [apply in_or_app; right; left; reflexivity|reflexivity]|]. destruct (A k g Hg) as (i & H1 & H2). exists i. split; [|exact H2]. apply in_or_app. left.
      apply filter_In. split; [exact H1|]. apply Bool.negb_true_iff, Bool.not_true_iff_false. intros Y. destruct (C i H1 Y) as [Y1 _]. congruence.
    - apply Forall_app. split.
      + apply Forall_forall. intros i Hi. apply filter_In in Hi as [Hi Ci]. rewrite Forall_forall in F. destruct (F i Hi) as (g & y & G1 & G2 & G3 & G4 & G5). exists g, y. repeat (split; [assumption|]).
        destruct G5 as [(P1 & P2 & P3 & P4)|(P1 & P2 & o' & O1 & O2)]; [left|right].
        * repeat (split; [assumption|]). intros o' Ho. apply in_app_or in Ho as [Ho|[<-|[]]]; [exact (P4 o' Ho)|]. rewrite <- Fn. intros Y. apply Bool.negb_true_iff in Ci. rewrite C' in Ci; [discriminate|exact Hi|].
          pose proof (find_field_spec (sf_name f) fs 0 _ g Hname G1 (eq_sym Y)) as Q1. pose proof (find_field_spec (sf_name f) fs 0 j f Hname J eq_refl) as Q2. cbn [Nat.add] in Q1, Q2. congruence.
        * repeat (split; [assumption|]). exists o'. split; [apply in_or_app; left; exact O1|exact O2].
      + constructor; [|constructor]. exists f, x. split; [exact J|]. split; [exact X|]. split; [repeat split|]. split; [reflexivity|]. right. split; [reflexivity|]. split; [reflexivity|]. exists o. split; [apply in_or_app; right; left; reflexivity|]. auto.
    - assert (Pj : position o = [j]) by (unfold position; rewrite <- Fn, (find_field_spec (sf_name f) fs 0 j f Hname J eq_refl); reflexivity).
      assert (Fm : map fi_idx (filter (fun o0 => negb (clash z o0)) l) = filter (fun k => negb (Nat.eqb k j)) (map fi_idx l)).
      { clear - C C'. induction l as [|i l IH]; [reflexivity|]. cbn [filter map]. assert (E : clash z i = Nat.eqb (fi_idx i) j).
        { destruct (clash z i) eqn:Ci; destruct (Nat.eqb_spec (fi_idx i) j) as [Ei|Ei]; auto; [destruct (C i (or_introl eq_refl) Ci); congruence|rewrite (C' i (or_introl eq_refl) Ei) in Ci; discriminate]. }
        rewrite E. rewrite <- IH; [|intros i0 H0; apply C; right; exact H0|intros i0 H0; apply C'; right; exact H0]. destruct (Nat.eqb (fi_idx i) j); reflexivity. }
      rewrite map_app. cbn [map]. change (fi_idx z) with j. rewrite Fm, Or. unfold order. rewrite filter_app, flat_map_app. cbn [flat_map]. rewrite Pj, <- app_assoc. cbn [app]. f_equal; [|f_equal].
      + assert (Ov : forall k, overlaid (os ++ [o]) k = (overlaid os k || Nat.eqb k j)%bool).
        { intros k. unfold overlaid. destruct (nth_error fs k) as [g|] eqn:Gk; [|destruct (Nat.eqb_spec k j) as [->|]; [congruence|reflexivity]]. rewrite map_app. cbn [map]. unfold mem_str. rewrite existsb_app. cbn [existsb]. f_equal. rewrite Bool.orb_false_r.
          destruct (Nat.eqb_spec k j) as [->|D]; [assert (g = f) as -> by congruence; rewrite Fn; apply String.eqb_refl|]. apply String.eqb_neq. intros Y. apply D.
          pose proof (find_field_spec (sf_name f) fs 0 k g Hname Gk (eq_trans Y (eq_sym Fn))) as Q1. pose proof (find_field_spec (sf_name f) fs 0 j f Hname J eq_refl) as Q2. cbn [Nat.add] in Q1, Q2. congruence. }
        generalize (seq 0 (List.length fs)). intros q. induction q as [|k q IH]; [reflexivity|]. cbn [filter]. rewrite (Ov k). destruct (overlaid os k); cbn [negb orb filter]; [exact IH|]. destruct (Nat.eqb k j); cbn [negb]; [exact IH|f_equal; exact IH].
      + assert (No : forall o', In o' os -> ~ In j (position o')).
        { intros o' Ho' Y. unfold position in Y. destruct (find_field (ov_field o') 0 fs) as [k|] eqn:Fk; [|destruct Y]. destruct Y as [->|[]]. apply New.
          assert (Fs : forall l k m, find_field (ov_field o') k l = Some m -> exists g, nth_error l (m - k) = Some g /\ sf_name g = ov_field o' /\ k <= m).
          { clear. induction l as [|g l IH]; intros k m H; [discriminate|]. cbn [find_field] in H. destruct (String.eqb_spec (sf_name g) (ov_field o')) as [E|E].
            - injection H as <-. exists g. rewrite Nat.sub_diag. auto.
            - destruct (IH _ _ H) as (h & H1 & H2 & H3). exists h. replace (m - k) with (S (m - S k)) by lia. split; [exact H1|]. split; [exact H2|lia]. }
          destruct (Fs fs 0 j Fk) as (g & G1 & G2 & _). rewrite Nat.sub_0_r in G1. assert (g = f) as -> by congruence. rewrite <- Fn, G2. apply in_map. exact Ho'. }
        clear - No. induction os as [|o' os IH]; [reflexivity|]. cbn [flat_map]. rewrite filter_app, IH by (intros; apply No; right; assumption). f_equal.
        assert (X := No o' (or_introl eq_refl)). clear - X. induction (position o') as [|k p IH]; [reflexivity|]. cbn [filter]. destruct (Nat.eqb_spec k j) as [->|D]; [destruct X; left; reflexivity|]. cbn [negb]. f_equal. apply IH. intros Y. apply X. right. exact Y.
  Qed.
  Lemma overrides_ok : forall os2 os1 l, entries 2 os1 l -> (forall o, In o os2 -> overlays fs o) -> NoDup (map ov_field (os1 ++ os2)) -> exists l', foldo (override_info exported fs) l os2 = Some l' /\ entries 2 (os1 ++ os2) l'.
  Proof.
    induction os2 as [|o os2 IH]; intros os1 l E H N; [exists l; rewrite app_nil_r; auto|]. cbn [foldo].
    destruct (override_ok os1 l o E (H o (or_introl eq_refl))) as (l1 & L1 & E1).
    { rewrite map_app in N. cbn [map] in N. apply NoDup_remove_2 in N. intros I. apply N. apply in_or_app. left. exact I. }
    rewrite L1. replace (os1 ++ o :: os2)%list with ((os1 ++ [o]) ++ os2)%list in * by (rewrite <- app_assoc; reflexivity). apply IH; auto. intros; apply H; right; assumption.
  Qed.
  Theorem infos_ok os : (forall o, In o os -> overlays fs o) -> NoDup (map ov_field os) -> exists l d, infos exported fs os = Some l /\ entries d os l.
  Proof.
    intros H N. unfold infos. destruct os as [|o os].
    - destruct (field_infos_ok 1 fs [] []) as (l & L & E); [reflexivity|reflexivity|constructor|intros [|j] f; discriminate|constructor|]. exists l, 1. auto.
    - destruct (field_infos_ok 2 fs [] []) as (l & L & E); [reflexivity|reflexivity|constructor|intros [|j] f; discriminate|constructor|]. change (List.length (@nil sfield)) with 0 in L. rewrite L.
      destruct (overrides_ok (o :: os) [] l E H N) as (l' & L' & E'). exists l', 2. auto.
  Qed.
End Infos.

(* ---------- a struct is bindable if its fields are told apart by their tags ---------- *)
Section Bindable.
  Variable exported : string -> bool.
  Variable structs : string -> option spec.
  Variable declares : xattr -> bool.
  Variable conv : string -> string -> Prop.
  Variable s : spec.
  Variable fs : list sfield.
  Hypothesis Hs : sp_struct s = Some fs.
  Hypothesis Hexp : forall f, In f fs -> exported (sf_name f) = true.
  Hypothesis Hsay : forall f, In f fs -> exists x, says f x.
  Hypothesis Hname : NoDup (map sf_name fs).
  Hypothesis Hpair : forall i j f g x y, nth_error fs i = Some f -> nth_error fs j = Some g -> says f x -> says g y -> i <> j ->
    (is_elem x = true -> is_elem y = true -> apart_names x y) /\ (is_attr x = true -> is_attr y = true -> apart_names x y) /\ ~ (is_text x = true /\ is_text y = true).
  Hypothesis Hover : forall o, In o (sp_overrides s) -> exists f, In f fs /\ sf_name f = ov_field o /\ sf_tag f = ov_tag o /\
    fits structs conv (sf_expr f) (text_expr (ov_to o)) /\ (non_trivial_ty (ov_type o) = false -> text_expr (ov_to o) = sf_expr f).
  Hypothesis Honce : NoDup (map ov_field (sp_overrides s)).
  Hypothesis Hrefl : forall t, conv t t.
  Hypothesis Hshape : forall f x, In f fs -> says f x -> shallow structs (sf_expr f) /\ (is_attr x = true -> plain_attr structs (sf_expr f)) /\ (is_text x = true -> leaf structs (sf_expr f) = true).
  Hypothesis Hdecl : forall f x a, In f fs -> says f x -> is_attr x = true -> declares a = true -> matches (aname a) x = false.

  Lemma keys_differ i j f g x y : nth_error fs i = Some f -> nth_error fs j = Some g -> says f x -> says g y -> same_key x y -> i = j.
  Proof.
    intros F G X Y (K1 & K2 & K3). destruct (Nat.eq_dec i j) as [E|N]; [exact E|]. exfalso. destruct (Hpair i j f g x y F G X Y N) as (P1 & P2 & P3).
    assert (A : ~ apart_names x y) by (intros [A|(_ & _ & A)]; congruence). unfold is_elem, is_attr, is_text in *. rewrite K1 in *. destruct (fi_mode y); cbn [mode_eqb orb] in *; auto.
  Qed.
  Lemma over_same o o' : In o (sp_overrides s) -> In o' (sp_overrides s) -> ov_field o = ov_field o' -> o = o'.
  Proof. intros. apply (map_nodup_inj ov_field (sp_overrides s)); auto. Qed.
  Lemma name_same f g : In f fs -> In g fs -> sf_name f = sf_name g -> f = g.
  Proof. intros. apply (map_nodup_inj sf_name fs); auto. Qed.
  Lemma matches_key n i x : same_key i x -> matches n i = matches n x.
  Proof. intros (_ & H2 & H3). unfold matches. rewrite H2, H3. reflexivity. Qed.
  Theorem fields_bindable : bindable exported structs declares conv s.
  Proof.
    set (nt := filter (fun o => non_trivial_ty (ov_type o)) (sp_overrides s)).
    assert (Ov : forall o, In o (sp_overrides s) -> overlays fs o). { intros o Ho. destruct (Hover o Ho) as (f & F1 & F2 & F3 & _). exists f. auto. }
    destruct (infos_ok exported fs Hexp Hsay Hname keys_differ nt) as (is & d1 & E1 & N1 & A1 & F1 & _).
    { intros o Ho. apply filter_In in Ho as [Ho _]. exact (Ov o Ho). } { apply nodup_filter_map. exact Honce. }
    destruct (infos_ok exported fs Hexp Hsay Hname keys_differ (sp_overrides s) Ov Honce) as (us & d2 & E2 & N2 & A2 & F2 & _).
    rewrite Forall_forall in F1, F2. exists fs, is, us. split; [exact Hs|]. unfold marshal_info, unmarshal_info. rewrite Hs. split; [exact E1|]. split; [exact E2|].
    assert (U : forall u w, In u us -> In w us -> fi_idx u <> fi_idx w -> exists x y, same_key u x /\ same_key w y /\
      (is_elem x = true -> is_elem y = true -> apart_names x y) /\ (is_attr x = true -> is_attr y = true -> apart_names x y) /\ ~ (is_text x = true /\ is_text y = true)).
    { intros u w Hu Hw D. destruct (F2 u Hu) as (f & x & P1 & P2 & P3 & _), (F2 w Hw) as (g & y & Q1 & Q2 & Q3 & _). exists x, y. split; [exact P3|]. split; [exact Q3|]. exact (Hpair _ _ f g x y P1 Q1 P2 Q2 D). }
    assert (Ap : forall u w x y, same_key u x -> same_key w y -> apart_names x y -> apart_names u w).
    { intros u w x y (_ & X2 & X3) (_ & Y2 & Y3) H. unfold apart_names. rewrite X2, X3, Y2, Y3. exact H. }
    split.
    - exact A1.
    - exact N1.
    - intros i Hi. destruct (F1 i Hi) as (f & x & P1 & P2 & P3 & P4 & P5). destruct (A2 _ _ P1) as (u & Hu & Eu). exists u. split; [exact Hu|]. split; [exact Eu|].
      destruct (F2 u Hu) as (g & y & Q1 & Q2 & Q3 & Q4 & Q5). rewrite Eu in Q1. assert (g = f) as -> by congruence. unfold says in P2, Q2. assert (y = x) as -> by congruence.
      destruct P3 as (P31 & P32 & P33), Q3 as (Q31 & Q32 & Q33). repeat (split; [congruence|]).
      destruct P5 as [(_ & _ & P5 & P6)|(_ & _ & o & O1 & O2 & O3)], Q5 as [(_ & _ & Q5 & Q6)|(_ & _ & o' & O1' & O2' & O3')].
      + congruence.
      + rewrite P5, O3'. destruct (Hover o' O1') as (h & H1 & H2 & H3 & H4 & H5). assert (h = f) as -> by (apply name_same; [exact H1|exact (nth_error_In _ _ P1)|congruence]). apply H5.
        destruct (non_trivial_ty (ov_type o')) eqn:Y; [|reflexivity]. exfalso. apply (P6 o'); [|exact O2']. apply filter_In. auto.
      + apply filter_In in O1 as [O1 _]. destruct (Q6 o O1 O2).
      + apply filter_In in O1 as [O1 _]. assert (o' = o) as -> by (apply over_same; congruence). congruence.
    - exact N2.
    - intros u Hu. destruct (F2 u Hu) as (f & x & P1 & P2 & P3 & P4 & P5). exists f. split; [exact P1|]. assert (I := nth_error_In _ _ P1). destruct (Hshape f x I P2) as (S1 & S2 & S3).
      destruct P3 as (P31 & P32 & P33).
      assert (TT : fi_type u = as_type s f /\ fits structs conv (sf_expr f) (fi_type u)).
      { destruct P5 as [(_ & _ & P5 & P6)|(_ & _ & o & O1 & O2 & O3)].
        - rewrite P5. split; [|apply fits_refl; exact Hrefl]. unfold as_type. destruct (find _ (sp_overrides s)) as [o|] eqn:Fo; [|reflexivity]. apply find_some in Fo as [O1 O2]. apply String.eqb_eq in O2. destruct (P6 o O1 O2).
        - rewrite O3. destruct (Hover o O1) as (h & H1 & H2 & H3 & H4 & H5). assert (h = f) as -> by (apply name_same; congruence). split; [|exact H4]. unfold as_type.
          rewrite (find_unique (fun o => String.eqb (ov_field o) (sf_name f)) (sp_overrides s) o O1); [reflexivity|apply String.eqb_eq; exact O2|]. intros w Hw Ew. apply String.eqb_eq in Ew. apply over_same; congruence. }
      destruct TT as [T1 T2]. split; [exact T1|]. split; [exact T2|]. split; [exact S1|]. unfold is_attr, is_text in *. rewrite P31. split; assumption.
    - intros i f Hi P Hf. destruct (F1 i Hi) as (g & x & P1 & _ & _ & _ & P5). assert (g = f) as -> by congruence. destruct P5 as [(_ & _ & P5 & _)|(P5 & _)]; congruence.
    - intros u w Hu Hw D Eu Ew. destruct (U u w Hu Hw D) as (x & y & Kx & Ky & P1 & _). apply (Ap u w x y Kx Ky). unfold is_elem in *. destruct Kx as (Kx & _), Ky as (Ky & _). rewrite <- Kx, <- Ky in P1. auto.
    - intros u w Hu Hw D Eu Ew. destruct (U u w Hu Hw D) as (x & y & Kx & Ky & _ & P1 & _). apply (Ap u w x y Kx Ky). unfold is_attr in *. destruct Kx as (Kx & _), Ky as (Ky & _). rewrite <- Kx, <- Ky in P1. auto.
    - intros u w Hu Hw Eu Ew. destruct (Nat.eq_dec (fi_idx u) (fi_idx w)) as [E|D]; [exact (map_nodup_inj fi_idx us u w N2 Hu Hw E)|]. exfalso.
      destruct (U u w Hu Hw D) as (x & y & Kx & Ky & _ & _ & P1). apply P1. unfold is_text in *. destruct Kx as (Kx & _), Ky as (Ky & _). rewrite <- Kx, <- Ky. auto.
    - intros u a Hu Au Da. destruct (F2 u Hu) as (f & x & P1 & P2 & P3 & _). rewrite (matches_key _ u x P3). apply (Hdecl f x a (nth_error_In _ _ P1) P2); [|exact Da]. unfold is_attr in *. destruct P3 as (P3 & _). rewrite <- P3. exact Au.
  Qed.
End Bindable.
