(* From the texts of plain schemas to what is declared for them. *)
From Coq Require Import Permutation.
From Verif Require Import Base SortLib ScopeModel ScopeSpec ScopeProofs TreeModel TreeSpec TreeProofs EqualModel ParseModel GraphModel BuiltinModel CodecModel XsdModel XsdSpec XsdProofs XsdSimple NormModel NormMem NormOps NormPath NormSpec NormExpand NormDefaults NormFixed NormAgain NormStart NormDocs NormPlainDocs XsdparseModel XsdparseSpec XsdparseProofs.
From Verif Require Import TypesModel TypesSpec TypesProofs TypesOrder TypesRead GenModel SgModel SgStruct SgFlatSpec SgExpandSpec SliceModel SgGen SgGenSpec FilesModel PipeModel PipeSpec PipeParse TextModel TextSpec.
Local Open Scope string_scope.

(* ---------- the tree that is read off ---------- *)
Definition keeps (d d' : elem) : Prop := e_name d' = e_name d /\ e_scope d' = e_scope d /\ forall l, l <> "type" -> l <> "minOccurs" -> attr d' "" l = attr d "" l.
Definition kept_all (e e' : elem) : Prop := forall q, match sub e q, sub e' q with Some d, Some d' => keeps d d' | None, None => True | _, _ => False end.
Lemma prepared_keeps e e2 : prepared e e2 -> kept_all e e2.
Proof.
  intros (e1 & A & B) q. pose proof (defaulted_changed e e1 A q) as C1. pose proof (optional_changed e1 e2 B q) as C2.
  destruct (sub e q) as [d|], (sub e1 q) as [d1|], (sub e2 q) as [d2|]; try contradiction; auto. destruct C1 as (N1 & S1 & A1), C2 as (N2 & S2 & A2).
  split; [congruence|]. split; [congruence|]. intros l L1 L2. rewrite A2, A1; auto.
Qed.
Lemma kept_kid e e' d d' q k : kept_all e e' -> sub e q = Some d -> sub e' q = Some d' -> In k (e_children d) -> exists i k', In k' (e_children d') /\ sub e (q ++ [i])%list = Some k /\ sub e' (q ++ [i])%list = Some k' /\ keeps k k'.
Proof.
  intros K E E' Hk. apply In_nth_error in Hk as (i & Ei). rewrite <- (sub_kid e q d i E) in Ei. pose proof (K (q ++ [i])%list) as Kq. rewrite Ei in Kq. destruct (sub e' (q ++ [i])%list) as [k'|] eqn:E2; [|contradiction].
  exists i, k'. split; [rewrite (sub_kid e' q d' i E') in E2; eapply nth_error_In; eauto|]. auto.
Qed.
Lemma kept_back e e' d d' q k' : kept_all e e' -> sub e q = Some d -> sub e' q = Some d' -> In k' (e_children d') -> exists k, In k (e_children d) /\ keeps k k'.
Proof.
  intros K E E' Hk. apply In_nth_error in Hk as (i & Ei). rewrite <- (sub_kid e' q d' i E') in Ei. pose proof (K (q ++ [i])%list) as Kq. rewrite Ei in Kq. destruct (sub e (q ++ [i])%list) as [k|] eqn:E2; [|contradiction].
  exists k. split; [rewrite (sub_kid e q d i E) in E2; eapply nth_error_In; eauto|]. exact Kq.
Qed.
Lemma expand_keeps e : e_name (expand_el e) = e_name e /\ e_scope (expand_el e) = e_scope e /\ e_attrs (expand_el e) = e_attrs e.
Proof. rewrite expand_el_eq. destruct (shorthand e); destruct e; repeat split; reflexivity. Qed.
Lemma below_keeps f e : e_name (below f e) = e_name e /\ e_scope (below f e) = e_scope e /\ e_attrs (below f e) = e_attrs e /\ e_children (below f e) = map f (e_children e).
Proof. destruct e. repeat split; reflexivity. Qed.
Lemma keeps_expand d d' : keeps d d' -> keeps d (expand_el d').
Proof. intros (A & B & C). destruct (expand_keeps d') as (X & Y & Z). split; [congruence|]. split; [congruence|]. intros l L1 L2. unfold attr in *. rewrite Z. auto. Qed.
Lemma keeps_below d d' : keeps d d' -> keeps d (below expand_el d').
Proof. intros (A & B & C). destruct (below_keeps expand_el d') as (X & Y & Z & _). split; [congruence|]. split; [congruence|]. intros l L1 L2. unfold attr in *. rewrite Z. auto. Qed.
Lemma in_found t local k : In k (e_children t) -> e_name k = xs local -> In k (find_all local t).
Proof.
  intros Hk Nm. destruct (find_all_lists local t) as (ps & _ & B & C). apply In_nth_error in Hk as (i & Hi).
  assert (Hp : In [i] ps) by (apply B; exists k; split; [split; [discriminate|cbn [sub]; rewrite Hi; reflexivity]|exact Nm]).
  assert (Sp : sub t [i] = Some k) by (cbn [sub]; rewrite Hi; reflexivity). clear - C Hp Sp. induction C as [|p e l m H C IH]; [destruct Hp|]. destruct Hp as [->|Hp]; [left; congruence|right; auto].
Qed.
Lemma listed d local es g el : lists d local es -> In g (e_children d) -> In el (e_children g) -> e_name el = xs local -> In el es.
Proof.
  intros (ps & _ & B & C) Hg Hel Nm. apply In_nth_error in Hg as (i & Hi). apply In_nth_error in Hel as (j & Hj).
  assert (Sp : sub d [i; j] = Some el) by (cbn [sub]; rewrite Hi; cbn [sub]; rewrite Hj; reflexivity).
  assert (Hp : In [i; j] ps) by (apply B; exists el; split; [split; [discriminate|exact Sp]|exact Nm]). clear - C Hp Sp. induction C as [|p e l m H C IH]; [destruct Hp|]. destruct Hp as [->|Hp]; [left; congruence|right; auto].
Qed.
Lemma mapo_out {A B} (f : A -> option B) l m a : mapo f l = Some m -> In a l -> exists b, f a = Some b /\ In b m.
Proof.
  revert m. induction l as [|x l IH]; intros m H Ha; [destruct Ha|]. cbn [mapo] in H. destruct (f x) as [b|] eqn:E; [|discriminate]. destruct (mapo f l) as [m'|]; [|discriminate]. injection H as <-.
  destruct Ha as [<-|Ha]; [exists b; split; [exact E|left; reflexivity]|]. destruct (IH m' eq_refl Ha) as (b' & X & Y). exists b'. split; [exact X|right; exact Y].
Qed.
Lemma resolve_own s n d : d <> "" -> s_in colon n = false -> resolve_default s n d = mkName d n.
Proof. intros Hd H. unfold resolve_default. apply String.eqb_neq in Hd. rewrite Hd, H. reflexivity. Qed.
Lemma any_type s : clean_scope s -> (exists p, In (mkName schemaNS p) s) -> parse_type (resolve s (prefix s (xs "anyType"))) = TB 0.
Proof.
  intros (A & B) C. unfold resolve. rewrite resolve_prefix; auto; try discriminate.
Qed.
Lemma kid_scoped e q k : scoped_below e -> In k (e_children e) -> e_name k = q -> exists p, In (mkName schemaNS p) (e_scope k).
Proof. intros H Hk _. apply In_nth_error in Hk as (i & Hi). apply (H [i] k). split; [discriminate|cbn [sub]; rewrite Hi; reflexivity]. Qed.

(* ---------- one type ---------- *)
Lemma expand_kids q : e_name q <> xs "complexType" -> e_children (expand_el q) = map expand_el (e_children q).
Proof. intros H. rewrite expand_el_eq. unfold shorthand. destruct (xname_eqb (e_name q) (xs "complexType")) eqn:E; [apply xname_eqb_eq in E; contradiction|]. cbn [andb]. apply below_keeps. Qed.
(* the short form is a restriction of anyType *)
Lemma short_derives k k2 e e2 i : kept_all e e2 -> sub e [i] = Some k -> sub e2 [i] = Some k2 -> short k ->
  exists d, XsdSpec.derives (expand_el k2) d /\ e_scope d = e_scope k /\ attr d "" "base" = prefix (e_scope k) (xs "anyType") /\ nlocal (e_name d) = "restriction" /\
    (forall el, member k el -> exists g el', In g (e_children d) /\ In el' (e_children g) /\ keeps el el') /\
    forall a, attribute_of k a -> exists a', In a' (e_children d) /\ keeps a a'.
Proof.
  intros K E E2 (Nm & Sh). pose proof (K [i]) as Ki. rewrite E, E2 in Ki. destruct Ki as (N2 & S2 & _).
  assert (X : shorthand k2 = true).
  { unfold shorthand. rewrite N2, Nm, xname_eqb_refl. cbn [andb]. apply negb_true_iff. destruct (existsb content_el (e_children k2)) eqn:Ex; [|reflexivity]. apply existsb_exists in Ex as (c2 & Hc & Ec).
    destruct (kept_back e e2 k k2 [i] c2 K E E2 Hc) as (c & Hc' & (Nc & _)). destruct (Sh c Hc') as [Y Z]. unfold content_el in Ec. apply orb_prop in Ec as [Ec|Ec]; apply xname_eqb_eq in Ec; congruence. }
  set (ks := map (below expand_el) (e_children k2)).
  set (d := Elem (xs "restriction") [mkAttr (mkName "" "base") (prefix (e_scope k2) (xs "anyType"))] (e_scope k2) "" (filter (fun c => negb (NormSpec.stays c)) ks)).
  exists d. split; [|split; [exact S2|split; [cbn; rewrite S2; reflexivity|split; [reflexivity|split]]]].
  - rewrite expand_el_eq, X. unfold long_form. fold ks. fold d. exists (Elem (xs "complexContent") [] (e_scope k2) "" [d]). split; [|split; [reflexivity|split; [|right; reflexivity]]].
    + exists (filter (fun c => String.eqb (nspace (e_name c)) schemaNS) (filter NormSpec.stays ks)), []. split; [|split; [intros c []|]].
      * intros c Hc. apply filter_In in Hc as [Hc Hs]. apply filter_In in Hc as [_ Hc]. unfold NormSpec.stays in Hc. rewrite Hs in Hc. cbn [negb orb] in Hc. apply String.eqb_eq. exact Hc.
      * unfold schema_children. cbn [e_children]. rewrite filter_app. reflexivity.
    + exists [], []. split; [intros c []|]. split; [intros c []|]. unfold schema_children. reflexivity.
  - intros el (g & Hg & Ng & Hel & Nel). destruct (kept_kid e e2 k k2 [i] g K E E2 Hg) as (j & g2 & Hg2 & Eg & Eg2 & Kg).
    destruct (kept_kid e e2 g g2 _ el K Eg Eg2 Hel) as (m & el2 & Hel2 & _ & _ & Kel). exists (below expand_el g2), (expand_el el2). split; [|split; [|apply keeps_expand; exact Kel]].
    + cbn [d e_children]. apply filter_In. split; [apply in_map; exact Hg2|]. destruct (keeps_below g g2 Kg) as (Nb & _). unfold NormSpec.stays. rewrite Nb. destruct Ng as [->|[->| ->]]; reflexivity.
    + destruct (below_keeps expand_el g2) as (_ & _ & _ & ->). apply in_map. exact Hel2.
  - intros a (Ha & Na). destruct (kept_kid e e2 k k2 [i] a K E E2 Ha) as (j & a2 & Ha2 & _ & _ & Ka). exists (below expand_el a2). pose proof (keeps_below a a2 Ka) as Kb. split; [|exact Kb].
    cbn [d e_children]. apply filter_In. split; [apply in_map; exact Ha2|]. destruct Kb as (Nb & _). unfold NormSpec.stays. rewrite Nb, Na. reflexivity.
Qed.
Lemma listed_kid d local es el : lists d local es -> In el (e_children d) -> e_name el = xs local -> In el es.
Proof.
  intros (ps & _ & B & C) Hel Nm. apply In_nth_error in Hel as (i & Hi). assert (Sp : sub d [i] = Some el) by (cbn [sub]; rewrite Hi; reflexivity).
  assert (Hp : In [i] ps) by (apply B; exists el; split; [split; [discriminate|exact Sp]|exact Nm]). clear - C Hp Sp. induction C as [|p e l m H C IH]; [destruct Hp|]. destruct Hp as [->|Hp]; [left; congruence|right; auto].
Qed.
Lemma firsts_here {A} (l r : list A) a : firsts l r -> In a l -> In a r.
Proof. intros H Ha. apply (firsts_in l r H). exact Ha. Qed.

Lemma filter_none {A} (p : A -> bool) l : (forall a, In a l -> p a = false) -> filter p l = [].
Proof. induction l as [|a l IH]; intros H; [reflexivity|]. cbn [filter]. rewrite (H a (or_introl eq_refl)). apply IH. intros b Hb. apply H. right. exact Hb. Qed.
Lemma kids_split e e2 k k2 p l1 q l2 : kept_all e e2 -> sub e p = Some k -> sub e2 p = Some k2 -> e_children k = (l1 ++ q :: l2)%list ->
  exists m1 q2 m2, e_children k2 = (m1 ++ q2 :: m2)%list /\ sub e (p ++ [List.length l1])%list = Some q /\ sub e2 (p ++ [List.length l1])%list = Some q2 /\ keeps q q2 /\
    forall x2, In x2 m2 -> exists x, In x l2 /\ e_name x2 = e_name x.
Proof.
  intros K E E2 Ec. assert (Nq : sub e (p ++ [List.length l1])%list = Some q) by (rewrite (sub_kid e p k _ E), Ec, nth_error_app2, Nat.sub_diag by lia; reflexivity).
  pose proof (K (p ++ [List.length l1])%list) as Kq. rewrite Nq in Kq. destruct (sub e2 (p ++ [List.length l1])%list) as [q2|] eqn:Nq2; [|contradiction]. pose proof Nq2 as N3. rewrite (sub_kid e2 p k2 _ E2) in N3. apply nth_error_split in N3 as (m1 & m2 & Em & Lm).
  exists m1, q2, m2. split; [exact Em|]. split; [exact Nq|]. split; [reflexivity|]. split; [exact Kq|]. intros x2 Hx. apply In_nth_error in Hx as (j & Hj). pose proof (K (p ++ [List.length l1 + S j])%list) as Kx.
  rewrite (sub_kid e2 p k2 _ E2), Em, nth_error_app2 in Kx by lia. replace (List.length l1 + S j - List.length m1) with (S j) in Kx by lia. cbn [nth_error] in Kx. rewrite Hj in Kx.
  rewrite (sub_kid e p k _ E), Ec, nth_error_app2 in Kx by lia. replace (List.length l1 + S j - List.length l1) with (S j) in Kx by lia. cbn [nth_error] in Kx. destruct (nth_error l2 j) as [x|] eqn:Ex; [|contradiction]. exists x. split; [eapply nth_error_In; eauto|apply Kx].
Qed.

Section OneType.
  Variable annot : elem -> option string.
  Variables (F T : Type) (f0 : F) (t0 : T).
  Variables (pf : string -> option F) (pd pr : string -> option T) (comp : string -> bool) (msg : string -> string).
  Notation rd_of := (read annot F T f0 t0 pf pd pr comp msg).
  Variables (e t : elem) (r : rd).
  Hypothesis P : NormAgain.plain e.
  Hypothesis Nf : normal_form e t.
  Hypothesis Al : alike e t.
  Hypothesis R : rd_of t = Some r.
  Hypothesis Sp : namespace_of e <> "".
  Lemma tns_is : rd_tns r = namespace_of e.
  Proof. destruct (read_spec annot F T f0 t0 pf pd pr comp msg t r R) as (E & _). rewrite E. destruct Al as (_ & A & _). unfold namespace_of, attr. rewrite A. reflexivity. Qed.
  Lemma kid_of k : In k (e_children e) -> exists e2 i k2, kept_all e e2 /\ sub e [i] = Some k /\ sub e2 [i] = Some k2 /\ keeps k k2 /\ In (expand_el k2) (e_children t).
  Proof.
    intros Hk. destruct Nf as (e2 & Pr & -> & _). pose proof (prepared_keeps e e2 Pr) as K. destruct (kept_kid e e2 e e2 [] k K eq_refl eq_refl Hk) as (i & k2 & H2 & E & E2 & Kk).
    exists e2, i, k2. repeat (split; [assumption|]). destruct (below_keeps expand_el e2) as (_ & _ & _ & ->). apply in_map. exact H2.
  Qed.
  Lemma short_read k : In k (e_children e) -> short k -> clean_scope (e_scope k) -> s_in colon (attr k "" "name") = false ->
    exists c, In (mkName (namespace_of e) (attr k "" "name"), DC c) (rd_types r) /\ ct_base c = TB 0 /\
      (forall el, member k el -> s_in colon (attr el "" "name") = false -> exists m, In m (ct_elems c) /\ nlocal (el_name m) = attr el "" "name" /\ el_wild m = false) /\
      forall a, attribute_of k a -> s_in colon (attr a "" "name") = false -> exists x, In x (ct_attrs c) /\ at_name x = mkName (namespace_of e) (attr a "" "name") /\ (at_optional x = false <-> attr a "" "use" = "required").
  Proof.
    intros Hk Sh Cs Cn. destruct (kid_of k Hk) as (e2 & i & k2 & K & E & E2 & Kk & Ht). destruct (short_derives k k2 e e2 i K E E2 Sh) as (d & D & Sd & Bd & Nd & Md & Ma).
    pose proof (keeps_expand k k2 Kk) as (Nx & Sx & Ax). destruct (read_spec annot F T f0 t0 pf pd pr comp msg t r R) as (_ & _ & _ & Rc & _).
    destruct (Rc (expand_el k2)) as (c & Hc & Pc); [apply in_found; [exact Ht|rewrite Nx; apply (proj1 Sh)]|].
    pose proof (proj1 (complex_raw annot _ _ _ Pc)) as Nc. rewrite Ax, tns_is, resolve_own in Nc by (auto; discriminate). rewrite Nc in Hc. exists c. split; [exact Hc|].
    destruct (complex_type_spec annot _ _ d c Pc D) as (decls & es & adecls & ats & wild & ms & L1 & L2 & L3 & L4 & Ee & Ea & _ & Fi & Mg & Bc & _).
    split; [rewrite Bc, Sd, Bd; apply any_type; [exact Cs|apply (kid_scoped e (e_name k)); auto using (pl_scope e P)]|].
    split.
    { intros el Mel Cel. pose proof Mel as Mel'. destruct (Md el Mel) as (g & el' & Hg & Hel & (N' & S' & A')). destruct Mel' as (_ & _ & _ & _ & Nel).
    pose proof (listed d "element" decls g el' L1 Hg Hel (eq_trans N' Nel)) as Hd. destruct (forall2_in_l _ _ _ L2 _ Hd) as (x & Hx & Px).
    assert (Nm : nlocal (el_name x) = attr el "" "name").
    { destruct (XsdProofs.element_name annot _ el' x Px) as (_ & _ & Q1 & Q2). rewrite <- (A' "name") by discriminate. rewrite <- (A' "name") in Cel by discriminate.
      destruct (String.eqb (attr el' "" "type") "") eqn:Et; [apply String.eqb_eq in Et; rewrite (Q2 (or_introl Et)), resolve_own; [reflexivity|rewrite tns_is; exact Sp|exact Cel]|]. apply String.eqb_neq in Et.
      destruct (parse_builtin (resolve (e_scope el') (attr el' "" "type"))) as [b|] eqn:Eb; [rewrite Q2 by (right; discriminate)|rewrite (proj2 (Q1 Et eq_refl)); cbn [nlocal]]; rewrite resolve_own; auto; rewrite tns_is; exact Sp. }
    pose proof (firsts_here _ _ (el_name x) Fi (in_map el_name es x Hx)) as Hm. apply in_map_iff in Hm as (m & Em & Hm). exists m. split; [rewrite Ee; apply in_or_app; right; exact Hm|]. split; [congruence|].
      destruct (mg_first _ _ (Mg m Hm)) as (e0 & g' & Eg & _ & _ & -> & _). assert (He0 : In e0 es) by (assert (X : In e0 (filter (same_name (el_name m)) es)) by (rewrite Eg; left; reflexivity); apply filter_In in X; apply X).
      destruct (forall2_in_r _ _ _ L2 _ He0) as (x0 & _ & P0). revert P0. unfold parse_element. repeat (match goal with |- match ?x with _ => _ end = _ -> _ => destruct x; try discriminate end). intros [= <-]. reflexivity. }
    intros a Ma' Ca. destruct (Ma a Ma') as (a' & Ha' & (Na' & Sa' & Aa')). pose proof (listed_kid d "attribute" adecls a' L3 Ha' (eq_trans Na' (proj2 Ma'))) as Hd. destruct (forall2_in_l _ _ _ L4 _ Hd) as (x & Hx & Px). exists x. split; [rewrite Ea; exact Hx|].
    revert Px. unfold parse_attribute. destruct (docs annot a'); [|discriminate]. intros [= <-]. cbn [at_name at_optional]. rewrite !Aa' by discriminate. rewrite Ca, tns_is. split; [reflexivity|].
    destruct (String.eqb_spec (attr a "" "use") "required"); cbn [negb]; split; congruence.
  Qed.
  Lemma simple_read k : In k (e_children e) -> e_name k = xs "simpleType" -> s_in colon (attr k "" "name") = false ->
    exists s, In (mkName (namespace_of e) (attr k "" "name"), DS s) (rd_types r) /\ (list_type k -> sd_list s = true) /\ (enumeration k -> sd_enum s <> []).
  Proof.
    intros Hk Nk Cn. destruct (kid_of k Hk) as (e2 & i & k2 & K & E & E2 & Kk & Ht). pose proof (keeps_expand k k2 Kk) as (Nx & Sx & Ax). destruct (read_spec annot F T f0 t0 pf pd pr comp msg t r R) as (_ & _ & _ & _ & Rs).
    destruct (Rs (expand_el k2)) as (s & Hs & Ps); [apply in_found; [exact Ht|congruence]|]. destruct (simple_type_spec annot F T f0 t0 pf pd pr comp msg _ _ _ Ps) as (Nm & _ & Ls & _ & _ & Re).
    rewrite Ax, tns_is, resolve_own in Nm by (auto; discriminate). rewrite Nm in Hs. exists (of_simple s). split; [exact Hs|].
    assert (Ch : e_children (expand_el k2) = map expand_el (e_children k2)) by (apply expand_kids; destruct Kk as (N2 & _); rewrite N2, Nk; discriminate).
    assert (Kids : forall c, In c (e_children k) -> exists c2, In c2 (e_children k2) /\ e_name (expand_el c2) = e_name c).
    { intros c Hc. destruct (kept_kid e e2 k k2 [i] c K E E2 Hc) as (j & c2 & Hc2 & _ & _ & Kc). exists c2. split; [exact Hc2|apply (keeps_expand c c2 Kc)]. }
    split.
    - intros (_ & c & Hc & Nc). unfold of_simple. cbn [sd_list]. apply Ls. destruct (Kids c Hc) as (c2 & H2 & N2). exists (expand_el c2). split; [|rewrite N2, Nc; reflexivity].
      unfold XsdSimple.kids. apply filter_In. split; [rewrite Ch; apply in_map; exact H2|rewrite N2, Nc; reflexivity].
    - intros (_ & l1 & q & l2 & f & Ec & Nq & Last & Hf & Nff). unfold of_simple. cbn [sd_enum]. unfold restr_of in Re. unfold XsdSimple.kids in Re. rewrite Ch in Re.
      destruct (kids_split e e2 k k2 [i] l1 q l2 K E E2 Ec) as (m1 & q2 & m2 & E2c & Eq & Eq2 & Kq & Back). rewrite E2c, map_app, filter_app in Re. cbn [map filter] in Re.
      destruct (keeps_expand q q2 Kq) as (Nq2 & _). rewrite Nq2, Nq in Re. cbn [nspace xs] in Re. rewrite String.eqb_refl in Re. unfold fac in Re. rewrite filter_app in Re. cbn [filter] in Re. unfold local_is at 2 in Re. rewrite Nq2, Nq in Re. cbn [nlocal xs] in Re. rewrite String.eqb_refl in Re.
      rewrite (filter_none _ (filter _ (map expand_el m2))) in Re.
      + rewrite rev_app_distr in Re. cbn [rev app] in Re. destruct (restriction_spec annot F T f0 t0 pf pd pr comp msg _ _ _ Re) as (En & _). rewrite En.
        destruct (kept_kid e e2 q q2 _ f K Eq Eq2 Hf) as (j & f2 & Hf2 & _ & _ & Kf). intros Z. apply map_eq_nil in Z.
        assert (Y : In (expand_el f2) (facets (expand_el q2) "enumeration")).
        { destruct (keeps_expand f f2 Kf) as (Nf2 & _). unfold facets. apply filter_In. split; [apply filter_In; split|]; [|rewrite Nf2, Nff; reflexivity|rewrite Nf2, Nff; reflexivity].
          rewrite expand_kids; [apply in_map; exact Hf2|]. destruct Kq as (N2 & _). rewrite N2, Nq. discriminate. }
        rewrite Z in Y. destruct Y.
      + intros x Hx. apply filter_In in Hx as [Hx Sx']. apply in_map_iff in Hx as (x2 & <- & Hx2). destruct (Back x2 Hx2) as (x0 & H0 & N0). destruct (expand_keeps x2) as (Nx2 & _). unfold local_is. rewrite Nx2, N0. rewrite Nx2, N0 in Sx'. apply String.eqb_eq in Sx'.
        apply String.eqb_neq. intros Z. apply (Last x0 H0). destruct (e_name x0) as [a b]. cbn in *. subst. reflexivity.
  Qed.
End OneType.

(* ---------- all of it ---------- *)
Section Texts.
  Variable sortns : list xname -> list xname.
  Variable dec : string -> stream.
  Variables grow agrow : nat -> nat -> nat.
  Variables cap_of acap_of : nat -> nat.
  Variable standard : list string.
  Variable fuel : nat.
  Variable annot : elem -> option string.
  Variables (F T : Type) (f0 : F) (t0 : T).
  Variables (pf : string -> option F) (pd pr : string -> option T) (comp : string -> bool) (msg : string -> string).
  Notation parses := (fun s e => parse_text sortns dec s = Some e).
  Notation rd_of := (read annot F T f0 t0 pf pd pr comp msg).
  Notation parse_texts := (parse_texts sortns dec grow agrow cap_of acap_of standard fuel annot F T f0 t0 pf pd pr comp msg).
  Definition from (e : elem) (r : rd) : Prop := exists t, alike e t /\ normal_if_plain fuel e t /\ rd_of t = Some r.
  Lemma all_read h : forall rs es, Forall2 (root_is h) rs es -> Forall2 (stands_normal fuel h) rs es -> forall trees l, mapo (read_ptr fuel h) rs = Some trees -> mapo rd_of trees = Some l -> Forall2 from es l.
  Proof.
    induction 1 as [|r e rs es H A IH]; intros B trees l Et El; cbn [mapo] in Et; [injection Et as <-; injection El as <-; constructor|]. inversion B as [|? ? ? ? B1 B2]; subst.
    destruct (read_ptr fuel h r) as [t|] eqn:Er; [|discriminate]. destruct (mapo (read_ptr fuel h) rs) as [ts|] eqn:Ets; [|discriminate]. injection Et as <-. cbn [mapo] in El. destruct (rd_of t) as [x|] eqn:Ex; [|discriminate]. destruct (mapo rd_of ts) as [xs'|] eqn:Exs; [|discriminate]. injection El as <-.
    constructor; [|eauto]. exists t. split; [eapply root_read; eauto|]. split; [intros P Hh; eapply normal_read; eauto|exact Ex].
  Qed.
  Lemma texts_read texts docs std l : Forall2 parses texts docs -> Forall2 parses standard std -> workable fuel (docs ++ std) -> parse_texts texts = Ret (Some l) -> Forall2 from (flat_map schemas_of (docs ++ std)) l.
  Proof.
    intros Hd Hs W. unfold TextModel.parse_texts, normalize_texts. rewrite mapo_app, (mapo_forall _ _ _ Hd), (mapo_forall _ _ _ Hs). destruct (normalize_docs _ _ _ _ _ _) as [[h rs]| |] eqn:En; try discriminate.
    destruct (mapo (read_ptr fuel h) rs) as [trees|] eqn:Et; [|discriminate]. intros E. injection E as E.
    exact (all_read h rs _ (docs_kept _ _ _ _ _ _ _ _ W En) (docs_plain _ _ _ _ _ _ _ _ W En) trees l Et E).
  Qed.
  (* lookupTargetNS *)
  Lemma search_wrapped g t : search_func_elems g (Elem (mkName "" "") [] [] "" [t]) = ((if g t then [t] else []) ++ search_func_elems g t)%list.
  Proof. unfold search_func_elems at 1. cbn [e_children flat_map]. rewrite app_nil_r. destruct t as [n a s c ks]. cbn [search_elems e_children]. reflexivity. Qed.
  Lemma spaces_found texts docs : Forall2 parses texts docs -> unnested docs -> lookup_target_ns string (parse_text sortns dec) texts = spaces_of docs.
  Proof.
    intros H U. unfold lookup_target_ns, spaces_of. induction H as [|s d texts docs H A IH]; [reflexivity|]. cbn [flat_map]. rewrite map_app, filter_app. rewrite IH by (intros d' e q k Hd; apply U; right; exact Hd). f_equal. rewrite H. f_equal.
    assert (X : find_all "schema" (Elem (mkName "" "") [] [] "" [d]) = schemas_of d); [|rewrite X; reflexivity].
    unfold find_all. assert (Q : forall e, name_match schemaNS "schema" (e_name e) = is_schema e).
    { intros e. unfold is_schema. destruct (xname_eqb (e_name e) (xs "schema")) eqn:E; [apply xname_eqb_eq in E; apply name_match_schema; exact E|]. destruct (name_match schemaNS "schema" (e_name e)) eqn:E2; [|reflexivity]. apply name_match_schema in E2. rewrite E2 in E. discriminate. }
    rewrite search_wrapped, Q. pose proof (U d) as Ud. unfold schemas_of in *. destruct (is_schema d) eqn:Es.
    - assert (Z : find_all "schema" d = []); [|unfold find_all in Z; rewrite Z; reflexivity]. destruct (find_all_lists "schema" d) as (ps & _ & B & C). destruct C as [|p k l m Hk C]; [reflexivity|]. exfalso.
      destruct (proj1 (B p) (or_introl eq_refl)) as (k' & Dk & Nk). exact (Ud d p k' (or_introl eq_refl) (or_introl eq_refl) Dk Nk).
    - cbn [app]. unfold search_func_elems. apply flat_map_ext. intros k. clear - Q. induction k as [n a s c ks IH] using elem_ind'. cbn [search_elems e_children]. rewrite Q. f_equal. induction ks as [|k ks IHk]; [reflexivity|]. rewrite (IH k (or_introl eq_refl)), IHk; [reflexivity|]. intros k' Hk'. apply IH. right. exact Hk'.
  Qed.
  Variables (texts : list string) (docs std : list elem) (l : list rd).
  Hypothesis Hd : Forall2 parses texts docs.
  Hypothesis Hs : Forall2 parses standard std.
  Hypothesis W : workable fuel (docs ++ std).
  Hypothesis Pt : parse_texts texts = Ret (Some l).
  Lemma written e : In e (flat_map schemas_of docs) -> NormAgain.plain e -> 3 * height e <= fuel -> namespace_of e <> "" -> exists t r, In r l /\ normal_form e t /\ alike e t /\ rd_of t = Some r.
  Proof.
    intros He P Hh Ne. pose proof (texts_read texts docs std l Hd Hs W Pt) as R. rewrite flat_map_app in R. assert (He' : In e (flat_map schemas_of docs ++ flat_map schemas_of std)) by (apply in_or_app; left; exact He).
    destruct (forall2_in_l _ _ _ R _ He') as (r & Hr & t & A & N & Rt). exists t, r. split; [exact Hr|]. split; [exact (N P Hh)|auto].
  Qed.
  Theorem written_types e k : In e (flat_map schemas_of docs) -> NormAgain.plain e -> 3 * height e <= fuel -> namespace_of e <> "" -> In k (e_children e) -> s_in colon (attr k "" "name") = false ->
    let n := mkName (namespace_of e) (attr k "" "name") in
    (short k -> clean_scope (e_scope k) -> exists c, PipeSpec.declares l n (DC c) /\ ct_base c = TB 0 /\
       (forall el, member k el -> s_in colon (attr el "" "name") = false -> exists m, In m (ct_elems c) /\ nlocal (el_name m) = attr el "" "name" /\ el_wild m = false) /\
       forall a, attribute_of k a -> s_in colon (attr a "" "name") = false -> exists x, In x (ct_attrs c) /\ at_name x = mkName (namespace_of e) (attr a "" "name") /\ (at_optional x = false <-> attr a "" "use" = "required")) /\
    (e_name k = xs "simpleType" -> exists s, PipeSpec.declares l n (DS s) /\ (list_type k -> sd_list s = true) /\ (enumeration k -> sd_enum s <> [])).
  Proof.
    intros He P Hh Ne Hk Cn n. destruct (written e He P Hh Ne) as (t & r & Hr & N & A & R). split.
    - intros Sh Cs. destruct (short_read annot F T f0 t0 pf pd pr comp msg e t r P N A R Ne k Hk Sh Cs Cn) as (c & Hc & X). exists c. split; [exists r; auto|exact X].
    - intros Nk. destruct (simple_read annot F T f0 t0 pf pd pr comp msg e t r N A R Ne k Hk Nk Cn) as (s & Hc & X). exists s. split; [exists r; auto|exact X].
  Qed.
  Variables (public : xname -> string) (fa : option (attribute -> bool)) (fe : option (element -> bool)) (ft : option (xname -> bool)) (allow : option (list xname)) (helpers : list Z) (slices : bool).
  Variables (h : xname -> nat) (namespaces ns : list string).
  Theorem code_of_texts : (forall b, non_trivial b = true -> memb b helpers = true) -> (forall a t, filtered fa (retype_at a t) = filtered fa a) ->
    unnested docs -> documents h l -> (forall n, h n <= N.to_nat 1000) -> PipeSpec.imports_first l ->
    (namespaces = [] /\ ns = spaces_of docs \/ namespaces <> [] /\ ns = namespaces /\ forall s, In s ns -> In s (map namespace_of (flat_map schemas_of (docs ++ std)))) -> NoDup ns ->
    forall (ord : nat -> list (xname * ty) -> list (xname * ty)) (ord' : string -> list (xname * ty) -> list (xname * ty)), any_order ord -> (forall s m, Permutation m (ord' s m)) ->
    exists c, gen_texts sortns dec grow agrow cap_of acap_of standard fuel annot F T f0 t0 pf pd pr comp msg public fa fe ft allow helpers slices ord ord' namespaces texts = Ret (Coded c) /\ closed_code (co_decls c) /\
      forall e k, In e (flat_map schemas_of docs) -> NormAgain.plain e -> 3 * height e <= fuel -> namespace_of e <> "" -> In (namespace_of e) ns -> In k (e_children e) -> s_in colon (attr k "" "name") = false ->
        let n := mkName (namespace_of e) (attr k "" "name") in
        picked ft allow n -> short k /\ clean_scope (e_scope k) \/ list_type k \/ enumeration k -> In (public n) (map fst (co_decls c)).
  Proof.
    intros Hn Hfa U D Hh Im Ens Nn ord ord' O O'. pose proof (texts_read texts docs std l Hd Hs W Pt) as R.
    assert (Tn : forall e r, from e r -> rd_tns r = namespace_of e) by (intros e r (t & A & _ & Rt); exact (tns_is annot F T f0 t0 pf pd pr comp msg e t r A Rt)).
    assert (Hns : forall s, In s ns -> exists r, In r l /\ rd_tns r = s).
    { intros s Hs'. assert (X : In s (map namespace_of (flat_map schemas_of (docs ++ std)))). { destruct Ens as [[_ ->]|(_ & _ & X)]; [|exact (X s Hs')]. unfold spaces_of in Hs'. apply filter_In in Hs' as [Hs' _]. rewrite flat_map_app, map_app. apply in_or_app. left. exact Hs'. }
      apply in_map_iff in X as (e & <- & He). destruct (forall2_in_l _ _ _ R _ He) as (r & Hr & Fr). exists r. split; [exact Hr|exact (Tn e r Fr)]. }
    assert (Ens' : namespaces = [] /\ ns = spaces_of docs \/ namespaces <> [] /\ ns = namespaces) by tauto.
    destruct (code_of_documents public fa fe ft allow helpers slices h l namespaces (spaces_of docs) ns Hn Hfa D Hh Im Ens' Nn Hns ord ord' O O') as (c & G & Cl & Dc & _).
    exists c. split; [unfold gen_texts; rewrite Pt; cbn [andthen]; rewrite (spaces_found texts docs Hd U); exact G|]. split; [exact Cl|].
    intros e k He P Hhe Ne Hin Hk Cn n Pk Kind. destruct (written_types e k He P Hhe Ne Hk Cn) as (WC & WS). fold n in WC, WS.
    assert (Go : forall d, PipeSpec.declares l n d -> own_declaration fa l d -> In (public n) (map fst (co_decls c))).
    { intros d (r & Hr & Hnd) Od. apply (Dc r n d Hr); auto. destruct (dc_keyed h l D r n d Hr Hnd) as (_ & Es). rewrite <- Es. exact Hin. }
    destruct Kind as [[Sh Cs]|[Li|En]].
    - destruct (WC Sh Cs) as (ct & Dct & Bct & _). apply (Go _ Dct). right. rewrite Bct. constructor.
    - destruct (WS (proj1 Li)) as (s & Ds & A & _). apply (Go _ Ds). left. exact (A Li).
    - destruct (WS (proj1 En)) as (s & Ds & _ & A). apply (Go _ Ds). right. right. left. exact (A En).
  Qed.
End Texts.
