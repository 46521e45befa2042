From Verif Require Import Base ScopeModel TreeModel TreeProofs EqualModel Utf8 Decimal BuiltinModel CodecModel XsdModel XsdProofs TypesModel TypesSpec TypesProofs.
Local Open Scope string_scope.

(* the types read from a tree refer to other types by name *)
Definition byname (t : ty) : Prop := forall i, t <> TPtr i.
Lemma parse_type_byname n : byname (parse_type n).
Proof. intros i. unfold parse_type. destruct (parse_builtin n); discriminate. Qed.
Lemma builtin_byname b : byname (TB b).
Proof. intros i. discriminate. Qed.
Lemma mapo_all {A B} (f : A -> option B) (P : B -> Prop) : (forall a b, f a = Some b -> P b) -> forall l m, mapo f l = Some m -> forall b, In b m -> P b.
Proof.
  intros H. induction l as [|a l IH]; intros m E b Hb; cbn [mapo] in E; [injection E as <-; destruct Hb|].
  destruct (f a) as [x|] eqn:Ex; [|discriminate]. destruct (mapo f l) as [m'|]; [|discriminate]. injection E as <-. destruct Hb as [<-|Hb]; eauto.
Qed.
Definition rawc (n : xname) (t : complexT) : Prop :=
  ct_name t = n /\ byname (ct_base t) /\ (forall e, In e (ct_elems t) -> byname (el_type e)) /\ forall a, In a (ct_attrs t) -> byname (at_type a).
Lemma rawc_raw n t : rawc n t -> raw (DC t).
Proof.
  intros (_ & B & E & A) i [Hi|Hi]; [apply (B i); auto|]. apply in_app_iff in Hi as [Hi|Hi]; apply in_map_iff in Hi as (x & Hx & Hi); [apply (E x Hi i)|apply (A x Hi i)]; auto.
Qed.
Lemma merge_byname els new : (forall e, In e els -> byname (el_type e)) -> (forall e, In e new -> byname (el_type e)) ->
  forall e, In e (merge_elems els new) -> byname (el_type e).
Proof.
  unfold merge_elems. generalize (@nil (xname * nat)) as used. revert els. induction new as [|x new IH]; intros els used H1 H2; auto.
  cbn [fold_left]. destruct (merge_step (els, used) x) as [els' used'] eqn:E. apply IH; [|intros; apply H2; right; auto].
  unfold merge_step in E. destruct (lookup (el_name x) used) as [i|].
  - destruct (nth_error els i) as [a|] eqn:Ea; injection E as <- <-; auto. intros e He. apply In_nth_error in He as (j & Hj).
    rewrite nth_error_set_nth in Hj by (apply nth_error_Some; congruence). destruct (Nat.eqb j i).
    + injection Hj as <-. unfold join_elem. cbn [el_type]. apply H1. eapply nth_error_In; eauto.
    + apply H1. eapply nth_error_In; eauto.
  - injection E as <- <-. intros e He. apply in_app_iff in He as [He|[<-|[]]]; auto. apply H2. left; auto.
Qed.

Section R.
  Variable annot : elem -> option string.
  Lemma any_byname el e : parse_any el = Some e -> byname (el_type e).
  Proof. unfold parse_any. destruct (parse_plural el); [|discriminate]. intros H. injection H as <-. cbn [el_type]. destruct (String.eqb _ _); auto using builtin_byname, parse_type_byname. Qed.
  Lemma element_byname ns el e : parse_element annot ns el = Some e -> byname (el_type e).
  Proof.
    unfold parse_element. destruct (parse_bool _); [|discriminate]. destruct (parse_bool _); [|discriminate]. destruct (parse_plural el); [|discriminate].
    destruct (parse_optional el); [|discriminate]. destruct (docs annot el); [|discriminate]. intros H. injection H as <-. cbn [el_type].
    destruct (String.eqb _ _); auto using builtin_byname, parse_type_byname.
  Qed.
  Lemma attribute_byname ns el a : parse_attribute annot ns el = Some a -> byname (at_type a).
  Proof. unfold parse_attribute. destruct (docs annot el); [|discriminate]. intros H. injection H as <-. cbn [at_type]. apply parse_type_byname. Qed.

  Lemma derivation_raw ns n t el t' : rawc n t -> parse_derivation annot ns t el = Some t' -> rawc n t'.
  Proof.
    intros (N & B & E & A) H. unfold parse_derivation in H. cbv zeta in H. set (t1 := set_base t _) in H.
    assert (E1 : forall e, In e (ct_elems t1) -> byname (el_type e)) by exact E.
    destruct (match find_all "any" el with [] => Some (ct_elems t1) | v :: _ => _ end) as [es|] eqn:Ea; [|discriminate].
    destruct (mapo (parse_element annot ns) _) as [new|] eqn:Ee; [|discriminate]. destruct (mapo (parse_attribute annot ns) _) as [ats|] eqn:Et; [|discriminate].
    injection H as <-. unfold rawc, set_fields. cbn [ct_name ct_base ct_elems ct_attrs]. split; [exact N|]. split; [apply parse_type_byname|]. split.
    - apply merge_byname; [|eapply mapo_all; [|exact Ee]; intros; eapply element_byname; eauto].
      destruct (find_all "any" el) as [|v vs]; [injection Ea as <-; auto|]. destruct (parse_any v) as [w|] eqn:Ew; [|discriminate]. cbn [option_map] in Ea. injection Ea as <-.
      intros e He. apply in_app_iff in He as [He|[<-|[]]]; auto. eapply any_byname; eauto.
    - intros a Ha. apply in_app_iff in Ha as [Ha|Ha]; auto. revert a Ha. eapply mapo_all; [|exact Et]. intros; eapply attribute_byname; eauto.
  Qed.
  Lemma content_raw ns n t el t' : rawc n t -> parse_complex_content annot ns t el = Some t' -> rawc n t'.
  Proof.
    intros Ht H. unfold parse_complex_content in H. cbv zeta in H. destruct (if String.eqb _ _ then _ else _) as [mx|]; [|discriminate].
    match type of H with match walk el ?ff ?aa with _ => _ end = _ => destruct (walk el ff aa) as [[t1 doc]|] eqn:W; [|discriminate] end. injection H as <-.
    unfold walk in W. eapply (foldo_inv _ (fun s : complexT * string => rawc n (fst s))) in W; [exact W| |exact Ht].
    intros [t2 d2] b [t3 d3] _ Hi E. cbn [fst] in *. destruct (local_is b "extension").
    - destruct (parse_derivation annot ns (set_extends t2 true) b) as [t4|] eqn:E4; [|discriminate]. cbn [option_map] in E. injection E as <- <-. eapply derivation_raw; [|exact E4]. exact Hi.
    - destruct (local_is b "restriction").
      + destruct (parse_derivation annot ns t2 b) as [t4|] eqn:E4; [|discriminate]. cbn [option_map] in E. injection E as <- <-. eapply derivation_raw; [|exact E4]. exact Hi.
      + destruct (local_is b "annotation"); [|discriminate]. destruct (annot b); [|discriminate]. cbn [option_map] in E. injection E as <- <-. auto.
  Qed.
  Lemma simple_content_raw ns n t el t' : rawc n t -> parse_simple_content annot ns t el = Some t' -> rawc n t'.
  Proof.
    intros Ht H. unfold parse_simple_content in H.
    match type of H with match walk el ?ff ?aa with _ => _ end = _ => destruct (walk el ff aa) as [[t1 doc]|] eqn:W; [|discriminate] end. injection H as <-.
    unfold walk in W. eapply (foldo_inv _ (fun s : complexT * string => rawc n (fst s))) in W; [exact W| |exact Ht].
    intros [t2 d2] b [t3 d3] _ Hi E. cbn [fst] in *. destruct (local_is b "annotation").
    - destruct (annot b); [|discriminate]. cbn [option_map] in E. injection E as <- <-. auto.
    - destruct (local_is b "restriction"); [injection E as <- <-; destruct Hi as (N & B & El & A); split; auto; split; [apply parse_type_byname|auto]|].
      destruct (local_is b "extension"); [|injection E as <- <-; auto].
      destruct (mapo _ _) as [ats|] eqn:Em; [|discriminate]. cbn [option_map] in E. injection E as <- <-. destruct Hi as (N & B & El & A). split; [exact N|]. split; [apply parse_type_byname|].
      split; [exact El|]. unfold set_fields. cbn [ct_attrs]. intros a Ha. apply in_app_iff in Ha as [Ha|Ha]; auto. revert a Ha. eapply mapo_all; [|exact Em]. intros; eapply attribute_byname; eauto.
  Qed.
  Lemma complex_raw tns root t : parse_complex_type annot tns root = Some t -> rawc (resolve_default (e_scope root) (attr root "" "name") tns) t.
  Proof.
    intros H. unfold parse_complex_type in H. destruct (parse_bool _); [|discriminate]. destruct (parse_bool _); [|discriminate]. cbv zeta in H.
    match type of H with match walk root ?ff ?aa with _ => _ end = _ => destruct (walk root ff aa) as [[t1 doc]|] eqn:W; [|discriminate] end. injection H as <-.
    unfold walk in W. eapply (foldo_inv _ (fun s : complexT * string => rawc (resolve_default (e_scope root) (attr root "" "name") tns) (fst s))) in W; [exact W| |].
    - intros [t2 d2] x [t3 d3] _ Hi E. cbn [fst] in *. destruct (local_is x "annotation").
      + destruct (annot x); [|discriminate]. cbn [option_map] in E. injection E as <- <-. auto.
      + destruct (local_is x "simpleContent").
        * destruct (parse_simple_content annot tns t2 x) eqn:E4; [|discriminate]. cbn [option_map] in E. injection E as <- <-. eapply simple_content_raw; eauto.
        * destruct (local_is x "complexContent"); [|discriminate]. destruct (parse_complex_content annot tns t2 x) eqn:E4; [|discriminate].
          cbn [option_map] in E. injection E as <- <-. eapply content_raw; eauto.
    - split; [reflexivity|]. split; [intros i; discriminate|]. split; intros ? [].
  Qed.

  Variables (F T : Type) (f0 : F) (t0 : T).
  Variables (pf : string -> option F) (pd pr : string -> option T) (comp : string -> bool) (msg : string -> string).
  Lemma simple_raw tns root s : parse_simple_type annot F T f0 t0 pf pd pr comp msg tns root = Some s ->
    st_name F T s = resolve_default (e_scope root) (attr root "" "name") tns /\ raw (DS (of_simple s)).
  Proof.
    intros H. unfold parse_simple_type in H. cbv zeta in H.
    match type of H with option_map _ (walk root ?ff ?aa) = _ => destruct (walk root ff aa) as [[[[[lst un] r] b] doc]|] eqn:W; [|discriminate] end.
    cbn [option_map] in H. injection H as <-. split; [reflexivity|].
    unfold walk in W. eapply (foldo_inv _ (fun st : bool * list ty * restriction F T * ty * string => let '(_, un, _, b, _) := st in byname b /\ forall t, In t un -> byname t)) in W.
    - destruct W as [B U]. intros i [Hi|Hi]; [apply (B i); auto|apply (U _ Hi i); auto].
    - intros [[[[l1 u1] r1] b1] d1] el [[[[l2 u2] r2] b2] d2] _ [B U] E. destruct (local_is el "restriction").
      + destruct (parse_restriction _ _ _ _ _ _ _ _ _ _ _ _); [|discriminate]. cbn [option_map] in E. injection E as <- <- <- <- <-. split; auto using parse_type_byname.
      + destruct (local_is el "list"); [injection E as <- <- <- <- <-; split; auto using parse_type_byname|].
        destruct (local_is el "union").
        * assert (M : forall t, In t (map (fun n => parse_type (resolve (e_scope el) n)) (fields (attr el "" "memberTypes"))) -> byname t)
            by (intros t Ht; apply in_map_iff in Ht as (x & <- & _); apply parse_type_byname).
          destruct (map _ _) as [|m ms] eqn:Em; injection E as <- <- <- <- <-; split; auto using builtin_byname.
          intros t Ht. apply in_app_iff in Ht as [Ht|Ht]; auto.
        * destruct (local_is el "annotation"); [|injection E as <- <- <- <- <-; auto].
          destruct (annot el); [|discriminate]. cbn [option_map] in E. injection E as <- <- <- <- <-. auto.
    - split; [intros i; discriminate|intros t []].
  Qed.

  Lemma self_name root tns : resolve_default (e_scope (self_elem root)) (attr (self_elem root) "" "name") tns =
    (if String.eqb tns "" then resolve (e_scope root) "_self" else mkName tns "_self").
  Proof.
    assert (S : e_scope (self_elem root) = e_scope root) by (unfold self_elem; destruct root; reflexivity).
    assert (A : attr (self_elem root) "" "name" = "_self").
    { unfold self_elem. cbv zeta. unfold set_attr, attr, with_attrs. cbn [e_attrs].
      assert (G : forall l, attr_get (attr_set l "" "name" "_self") "" "name" = "_self").
      { induction l as [|a l IH]; [reflexivity|]. cbn [attr_set]. destruct (name_match "" "name" (aname a)) eqn:X; cbn [attr_get aname avalue]; rewrite X; auto. }
      apply G. }
    rewrite S, A. unfold resolve_default. destruct (String.eqb tns ""); reflexivity.
  Qed.

  (* what Parse reads from a tree *)
  Theorem read_spec root r : read annot F T f0 t0 pf pd pr comp msg root = Some r ->
    rd_tns r = attr root "" "targetNamespace" /\
    (forall n d, In (n, d) (rd_types r) -> raw d) /\
    (forall n d, In (n, d) (rd_types r) -> n = mkName (rd_tns r) "_self" \/
       def_name d = n /\ exists el, (In el (find_all "complexType" root) \/ In el (find_all "simpleType" root)) /\ n = resolve_default (e_scope el) (attr el "" "name") (rd_tns r)) /\
    (forall el, In el (find_all "complexType" root) -> exists c, In (ct_name c, DC c) (rd_types r) /\ parse_complex_type annot (rd_tns r) el = Some c) /\
    (forall el, In el (find_all "simpleType" root) -> exists s, In (st_name F T s, DS (of_simple s)) (rd_types r) /\
       parse_simple_type annot F T f0 t0 pf pd pr comp msg (rd_tns r) el = Some s).
  Proof.
    unfold read. destruct (read_types annot F T f0 t0 pf pd pr comp msg root) as [ts|] eqn:E; [|discriminate]. cbn [option_map]. intros H. injection H as <-. cbn [rd_tns rd_types].
    split; auto. unfold read_types in E. cbv zeta in E. set (tns := attr root "" "targetNamespace") in *.
    destruct (mapo (parse_complex_type annot tns) _) as [cs|] eqn:Ec; [|discriminate].
    destruct (mapo (parse_simple_type annot F T f0 t0 pf pd pr comp msg tns) _) as [ss|] eqn:Es; [|discriminate].
    destruct (parse_complex_type annot tns (self_elem root)) as [self|] eqn:Ef; [|discriminate]. injection E as <-.
    apply mapo_forall2 in Ec. apply mapo_forall2 in Es.
    split; [|split; [|split]].
    - intros n d Hi. apply in_app_iff in Hi as [Hi|Hi]; [|apply in_app_iff in Hi as [Hi|[Hi|[]]]].
      + apply in_map_iff in Hi as (c & Hx & Hi). injection Hx as <- <-. destruct (forall2_in_r _ _ _ Ec _ Hi) as (el & _ & Hp). eapply rawc_raw, complex_raw; eauto.
      + apply in_map_iff in Hi as (s & Hx & Hi). injection Hx as <- <-. destruct (forall2_in_r _ _ _ Es _ Hi) as (el & _ & Hp). eapply simple_raw; eauto.
      + injection Hi as <- <-. eapply rawc_raw, complex_raw; eauto.
    - intros n d Hi. apply in_app_iff in Hi as [Hi|Hi]; [|apply in_app_iff in Hi as [Hi|[Hi|[]]]].
      + apply in_map_iff in Hi as (c & Hx & Hi). injection Hx as <- <-. right. split; auto. destruct (forall2_in_r _ _ _ Ec _ Hi) as (el & He & Hp). exists el. split; auto. eapply complex_raw; eauto.
      + apply in_map_iff in Hi as (s & Hx & Hi). injection Hx as <- <-. right. split; auto. destruct (forall2_in_r _ _ _ Es _ Hi) as (el & He & Hp). exists el. split; auto. eapply simple_raw; eauto.
      + injection Hi as <- <-. auto.
    - intros el He. destruct (forall2_in_l _ _ _ Ec _ He) as (c & Hc & Hp). exists c. split; auto. apply in_app_iff. left. apply in_map_iff. exists c. auto.
    - intros el He. destruct (forall2_in_l _ _ _ Es _ He) as (s & Hs & Hp). exists s. split; auto. apply in_app_iff. right. apply in_app_iff. left. apply in_map_iff. exists s. auto.
  Qed.
  Theorem read_keyed root r : read annot F T f0 t0 pf pd pr comp msg root = Some r -> rd_tns r <> "" ->
    (forall el, In el (find_all "complexType" root) \/ In el (find_all "simpleType" root) -> s_in colon (attr el "" "name") = false) ->
    forall n d, In (n, d) (rd_types r) -> def_name d = n /\ nspace n = rd_tns r.
  Proof.
    intros H N C n d Hi. pose proof (read_spec _ _ H) as (Et & _ & K & _). destruct (K n d Hi) as [->|(Hn & el & He & ->)].
    - split; [|reflexivity]. unfold read in H. destruct (read_types annot F T f0 t0 pf pd pr comp msg root) as [ts|] eqn:E; [|discriminate]. cbn [option_map] in H.
      injection H as <-. cbn [rd_tns rd_types] in *. unfold read_types in E. cbv zeta in E. set (tns := attr root "" "targetNamespace") in *.
      destruct (mapo (parse_complex_type annot tns) _) as [cs|] eqn:Ec; [|discriminate].
      destruct (mapo (parse_simple_type annot F T f0 t0 pf pd pr comp msg tns) _) as [ss|] eqn:Es; [|discriminate].
      destruct (parse_complex_type annot tns (self_elem root)) as [self|] eqn:Ef; [|discriminate]. injection E as <-.
      apply mapo_forall2 in Ec. apply mapo_forall2 in Es.
      apply in_app_iff in Hi as [Hi|Hi]; [|apply in_app_iff in Hi as [Hi|[Hi|[]]]].
      + apply in_map_iff in Hi as (c & Hx & Hi). injection Hx as Hx <-. auto.
      + apply in_map_iff in Hi as (s & Hx & Hi). injection Hx as Hx <-. auto.
      + injection Hi as <-. cbn [def_name]. apply complex_raw in Ef as [Ef _]. rewrite Ef, self_name. destruct (String.eqb tns "") eqn:X; auto. apply String.eqb_eq in X. contradiction.
    - split; auto. unfold resolve_default. rewrite (C el He). destruct (String.eqb (rd_tns r) "") eqn:X; [apply String.eqb_eq in X; contradiction|]. reflexivity.
  Qed.
End R.
