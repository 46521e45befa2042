(* The attributes of an element that replaces a reference. *)
From Verif Require Import Base ScopeModel ScopeSpec ScopeProofs TreeModel TreeSpec TreeProofs BuiltinModel XsdModel NormModel NormSpec NormRefSpec.
Local Open Scope string_scope.

Lemma NoDup_app_snoc {A} (l : list A) a : NoDup l -> ~ In a l -> NoDup (l ++ [a]).
Proof. induction l as [|b l IH]; intros N H; cbn [app]; [constructor; auto; constructor|]. inversion N; subst. constructor; [|apply IH; auto; intros Hi; apply H; right; auto]. rewrite in_app_iff. intros [Hi|[->|[]]]; auto. apply H. left. auto. Qed.
Definition over1 (b : xattr) (a : xattr) : xattr := if xname_eqb (aname b) (aname a) then b else a.
Lemma set_clear l b : (forall a, In a l -> nlocal (aname a) = nlocal (aname b) -> nspace (aname b) = "" -> nspace (aname a) = "") -> NoDup (map aname l) ->
  attr_set l (nspace (aname b)) (nlocal (aname b)) (avalue b) = (map (over1 b) l ++ if named_in l (aname b) then [] else [b])%list.
Proof.
  induction l as [|a l IH]; intros C N; cbn [attr_set map app named_in existsb].
  - destruct b as [[s n] v]. reflexivity.
  - assert (M : name_match (nspace (aname b)) (nlocal (aname b)) (aname a) = xname_eqb (aname a) (aname b)).
    { apply eq_true_iff_eq. rewrite name_match_iff, xname_eqb_eq. split.
      - intros [E1 E2]. destruct (aname a) as [s n] eqn:Ea, (aname b) as [s' n'] eqn:Eb. cbn [nspace nlocal] in *. subst n'. f_equal. destruct E2 as [E2|E2]; auto.
        specialize (C a (or_introl eq_refl)). rewrite Ea in C. cbn [nspace nlocal] in C. subst s'. auto.
      - intros ->. split; auto. }
    rewrite M. inversion N as [|? ? N1 N2]; subst. unfold over1 at 1. destruct (xname_eqb (aname a) (aname b)) eqn:E; cbn [orb].
    + apply xname_eqb_eq in E. assert (Eb : xname_eqb (aname b) (aname a) = true) by (apply xname_eqb_eq; auto). rewrite Eb, app_nil_r.
      f_equal; [rewrite E; destruct b; reflexivity|]. clear -N1 E. symmetry. rewrite <- (map_id l) at 2. apply map_ext_in. intros c Hc. unfold over1.
      destruct (xname_eqb (aname b) (aname c)) eqn:Ec; auto. apply xname_eqb_eq in Ec. exfalso. apply N1. rewrite E, Ec. apply in_map. auto.
    + assert (Eb : xname_eqb (aname b) (aname a) = false) by (apply xname_eqb_neq; apply xname_eqb_neq in E; congruence). rewrite Eb. cbn [app]. f_equal. apply IH; auto.
      intros c Hc. apply C. right. auto.
Qed.
Lemma over1_names b l : map aname (map (over1 b) l) = map aname l.
Proof. rewrite map_map. apply map_ext. intros a. unfold over1. destruct (xname_eqb (aname b) (aname a)) eqn:E; auto. apply xname_eqb_eq in E. auto. Qed.
Lemma named_in_names l l' n : map aname l = map aname l' -> named_in l n = named_in l' n.
Proof. unfold named_in. revert l'. induction l as [|a l IH]; intros [|a' l'] H; try discriminate; auto. cbn [map existsb] in *. injection H as H1 H2. rewrite H1, (IH l'); auto. Qed.
Lemma named_in_app l l' n : named_in (l ++ l') n = named_in l n || named_in l' n.
Proof. unfold named_in. apply existsb_app. Qed.
Lemma named_in_iff l n : named_in l n = true <-> In n (map aname l).
Proof. unfold named_in. rewrite existsb_exists, in_map_iff. split; intros (a & A & B); exists a; [apply xname_eqb_eq in B|rewrite xname_eqb_eq]; auto. Qed.

Lemma override_list : forall refs defs, NoDup (map aname refs) -> NoDup (map aname defs) ->
  (forall a b, In a refs -> In b (refs ++ defs)%list -> nlocal (aname b) = nlocal (aname a) -> nspace (aname a) = "" -> nspace (aname b) = "") ->
  each (fun l a => attr_set l (nspace (aname a)) (nlocal (aname a)) (avalue a)) defs refs =
  (map (fun a => match find (fun b => xname_eqb (aname b) (aname a)) refs with Some b => b | None => a end) defs ++
   filter (fun b => negb (named_in defs (aname b))) refs)%list.
Proof.
  induction refs as [|b refs IH]; intros defs Nr Nd C; cbn [each filter find].
  - rewrite app_nil_r. symmetry. apply map_id.
  - inversion Nr as [|? ? Nb Nr']; subst.
    assert (SC : attr_set defs (nspace (aname b)) (nlocal (aname b)) (avalue b) = (map (over1 b) defs ++ if named_in defs (aname b) then [] else [b])%list).
    { apply set_clear; auto. intros a Ha H1 H2. apply (C b a); auto; [left; auto|]. right. apply in_or_app. auto. }
    rewrite SC. set (defs2 := (map (over1 b) defs ++ if named_in defs (aname b) then [] else [b])%list) in *.
    assert (N2 : map aname defs2 = (map aname defs ++ if named_in defs (aname b) then [] else [aname b])%list).
    { unfold defs2. rewrite map_app, over1_names. destruct (named_in defs (aname b)); reflexivity. }
    rewrite (IH defs2); auto.
    + unfold defs2. rewrite map_app, map_map. rewrite <- app_assoc. f_equal.
      * apply map_ext_in. intros a Ha. unfold over1. destruct (xname_eqb (aname b) (aname a)) eqn:E; auto.
        apply xname_eqb_eq in E. destruct (find _ refs) as [c|] eqn:F; auto. apply find_some in F. destruct F as [F1 F2]. apply xname_eqb_eq in F2. exfalso. apply Nb. rewrite <- F2. apply in_map. auto.
      * assert (Fil : filter (fun c => negb (named_in (map (over1 b) defs ++ (if named_in defs (aname b) then [] else [b]))%list (aname c))) refs = filter (fun c => negb (named_in defs (aname c))) refs).
        { apply filter_ext_in. intros c Hc. rewrite named_in_app, (named_in_names _ defs) by apply over1_names. destruct (named_in defs (aname b)); [cbn; rewrite orb_false_r; auto|].
          cbn [named_in existsb]. assert (E : xname_eqb (aname b) (aname c) = false); [|rewrite E; cbn [orb]; rewrite orb_false_r; auto]. apply xname_eqb_neq. intros E. apply Nb. rewrite E. apply in_map. auto. }
        rewrite Fil. destruct (named_in defs (aname b)) eqn:E; cbn [negb map app]; auto. f_equal.
        destruct (find _ refs) as [c|] eqn:F; auto. apply find_some in F. destruct F as [F1 F2]. apply xname_eqb_eq in F2. exfalso. apply Nb. rewrite <- F2. apply in_map. auto.
    + rewrite N2. destruct (named_in defs (aname b)) eqn:E; [rewrite app_nil_r; auto|]. apply NoDup_app_snoc; auto. intros Hi. apply named_in_iff in Hi. congruence.
    + intros a c Ha Hc H1 H2. assert (In (aname c) (map aname (b :: refs ++ defs))) as Hn.
      { apply in_app_or in Hc. destruct Hc as [Hc|Hc]; [right; rewrite map_app; apply in_or_app; left; apply in_map; auto|].
        apply (in_map aname) in Hc. rewrite N2 in Hc. apply in_app_or in Hc. destruct Hc as [Hc|Hc]; [right; rewrite map_app; apply in_or_app; auto|]. destruct (named_in defs (aname b)); [destruct Hc|]. destruct Hc as [<-|[]]. left. auto. }
      apply in_map_iff in Hn. destruct Hn as (c' & E & Hc'). rewrite <- E in *. apply (C a c'); auto. right. auto.
Qed.

Lemma override_refs refs : forall l, override l refs = each (fun l a => attr_set l (nspace (aname a)) (nlocal (aname a)) (avalue a)) l (filter (fun b => negb (xname_eqb (aname b) the_ref)) refs).
Proof.
  unfold override, the_ref. induction refs as [|a refs IH]; intros l; cbn [each filter]; auto. destruct (xname_eqb (aname a) (mkName "" "ref")); cbn [negb each]; apply IH.
Qed.
Lemma reworded_names r d l : map aname (map (reworded r d) l) = map aname l.
Proof. rewrite map_map. apply map_ext. intros a. unfold reworded. destruct (xname_eqb _ _); reflexivity. Qed.
Lemma NoDup_filter_map {A B} (f : A -> B) g l : NoDup (map f l) -> NoDup (map f (filter g l)).
Proof.
  induction l as [|a l IH]; cbn [map filter]; auto. intros N. inversion N as [|? ? N1 N2]; subst. destruct (g a); cbn [map]; auto. constructor; auto.
  intros H. apply in_map_iff in H. destruct H as (b & E & Hb). apply filter_In in Hb. apply N1. rewrite <- E. apply in_map. tauto.
Qed.
Lemma override_merged r d : clear_names r d -> override (map (requalify (e_scope r) (e_scope d)) (e_attrs d)) (e_attrs r) = merged_attrs r d.
Proof.
  intros (N1 & N2 & C). rewrite override_refs. change (map (requalify (e_scope r) (e_scope d)) (e_attrs d)) with (defined r d). unfold merged_attrs, overriding. apply override_list.
  - apply NoDup_filter_map. auto.
  - unfold defined. rewrite reworded_names. auto.
  - intros a b Ha Hb H1 H2. apply filter_In in Ha. assert (Hn : In (aname b) (map aname (e_attrs r ++ e_attrs d))).
    { apply in_app_or in Hb. rewrite map_app. apply in_or_app. destruct Hb as [Hb|Hb]; [left; apply in_map; apply filter_In in Hb; tauto|]. right. rewrite <- (reworded_names r d). apply in_map. exact Hb. }
    apply in_map_iff in Hn. destruct Hn as (b' & E & Hb'). rewrite <- E in *. apply (C a b'); tauto.
Qed.
(* no reference is left in it *)
Lemma attr_get_reworded r d l : attr_get (map (reworded r d) l) "" "ref" = attr_get l "" "ref".
Proof.
  induction l as [|a l IH]; cbn [map attr_get]; auto. unfold reworded at 1 2. destruct (xname_eqb (aname a) (mkName "" "type")) eqn:E; [|rewrite IH; auto].
  apply xname_eqb_eq in E. cbn [aname]. rewrite E. exact IH.
Qed.
Lemma override_ref : forall refs l, (forall a, In a refs -> nlocal (aname a) = "ref" -> nspace (aname a) = "") -> attr_get (override l refs) "" "ref" = attr_get l "" "ref".
Proof.
  unfold override. induction refs as [|a refs IH]; intros l C; cbn [each]; auto. rewrite IH by (intros b Hb; apply C; right; auto).
  destruct (xname_eqb (aname a) (mkName "" "ref")) eqn:E; auto. apply xname_eqb_neq in E. apply attr_set_other. intros n H1 H2. apply name_match_iff in H1, H2.
  destruct H1 as [H1 _], H2 as [H2 _]. apply E. specialize (C a (or_introl eq_refl)). destruct (aname a) as [s n']. cbn [nlocal nspace] in *. f_equal; [apply C|]; congruence.
Qed.
Lemma merged_no_ref r d : clear_names r d -> (forall a, In a (e_attrs r) -> nlocal (aname a) = "ref" -> nspace (aname a) = "") -> ~ has_ref d -> ~ has_ref (merged r d).
Proof.
  unfold has_ref, attr. intros C Cr H. cbn [merged e_attrs]. rewrite <- (override_merged r d C), override_ref by auto.
  change (map (requalify (e_scope r) (e_scope d)) (e_attrs d)) with (map (reworded r d) (e_attrs d)). rewrite attr_get_reworded. exact H.
Qed.
(* the type is the one the definition names *)
Lemma reworded_type r d v : no_shadowing (e_scope r) -> prefixes_ok (e_scope r) -> let n := resolve (e_scope d) v in
  nlocal n <> "" -> s_in ":"%char (nlocal n) = false -> (exists p, In (mkName (nspace n) p) (e_scope r)) -> nspace n <> "" -> nspace n <> xml_uri -> nspace n <> xmlns_uri ->
  resolve (e_scope (merged r d)) (avalue (reworded r d (mkAttr (mkName "" "type") v))) = n.
Proof.
  cbv zeta. intros H1 H2 H3 H4 H5 H6 H7 H8. pose proof (resolve_prefix _ _ H1 H2 H3 H4 H5 H6 H7 H8) as P. change (avalue (reworded r d (mkAttr (mkName "" "type") v))) with (prefix (e_scope r) (resolve (e_scope d) v)). cbn [merged e_scope].
  destruct (e_children d); [unfold resolve at 1; rewrite P; reflexivity|]. unfold resolve at 1. rewrite (proj1 (join_scope_law _ _ _) _ P). reflexivity.
Qed.
