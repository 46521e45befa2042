(* A normal form that is written and read is one again, and normalising it changes nothing. *)
From Verif Require Import Base ScopeModel ScopeSpec ScopeProofs TreeModel TreeSpec TreeProofs MarshalSpec MarshalProofs BuiltinModel XsdModel NormModel NormMem NormOps NormPath NormSpec NormPass NormDefaults NormExpand NormAnonSpec NormAnonProofs NormCopyProofs NormAnonRoots NormUnpack NormUnpackAll NormRefSpec NormIndex NormFlatten NormFixed NormAgain NormReread.
From Verif Require NormRefs.
From Coq Require Import Sorted.
Local Open Scope string_scope.

(* ---------- the normal form of a plain schema is plain ---------- *)
Lemma below_flat e : e_name e <> xs "complexType" -> no_nested_ct e -> no_nested_ct (below expand_el e).
Proof.
  intros Nr N q d' k' E Nd Hk. destruct q as [|i q].
  - cbn [sub] in E. injection E as <-. exfalso. apply Nr. rewrite <- Nd. destruct e; reflexivity.
  - destruct (root_from e (i :: q) d' N) as (k & Hk0 & F); [split; [discriminate|exact E]|]. destruct F as [(d & Hd & ->)|(d & Hd & _ & [-> | ->])]; [|discriminate Nd|discriminate Nd].
    destruct (below_desc e k d Hk0 Hd) as (s & Ds). rewrite expand_name in Nd.
    assert (M : forall c, In c (map expand_el (e_children d)) -> e_name c <> xs "complexType"). { intros c Hc. apply in_map_iff in Hc. destruct Hc as (c0 & <- & Hc). rewrite expand_name. exact (N s d c0 (proj2 Ds) Nd Hc). }
    assert (N' : no_nested_ct d). { intros t d1 k1 S1. apply (N (s ++ t)%list). rewrite sub_app, (proj2 Ds). exact S1. }
    rewrite (expand_el_flat d N') in Hk. destruct (shorthand d).
    + cbn [long_form e_children] in Hk. apply in_app_or in Hk. destruct Hk as [Hk|[<-|[]]]; [|discriminate]. apply filter_In in Hk. apply M, Hk.
    + unfold below in Hk. rewrite NormRefs.e_children_with in Hk. apply M, Hk.
Qed.
Lemma expand_scope e : e_scope (expand_el e) = e_scope e.
Proof. rewrite expand_el_eq. destruct (shorthand e); destruct e; reflexivity. Qed.
Lemma below_plain e : plain e -> normal (below expand_el e) -> plain (below expand_el e).
Proof.
  intros P N. pose proof (pl_flat e P) as Fl. constructor.
  - pose proof (pl_schema e P) as X. destruct e; exact X.
  - intros q d' D. destruct (root_from e q d' Fl D) as (k & Hk & F). assert (X : exists d, In d (subs k) /\ e_scope d' = e_scope d). { destruct F as [(d & Hd & ->)|(d & Hd & _ & [-> | ->])]; exists d; split; auto. apply expand_scope. }
    destruct X as (d & Hd & ->). destruct (below_desc e k d Hk Hd) as (s & Ds). exact (pl_scope e P s d Ds).
  - apply below_flat; auto. rewrite (pl_schema e P). discriminate.
  - exact (nf_named _ N).
  - exact (nf_refs _ N).
  - exact (nf_groups _ N).
Qed.

(* ---------- the same names and attributes ---------- *)
Definition mirrors (e e' : elem) : Prop := forall q, match sub e q, sub e' q with
  | Some d, Some d' => e_name d' = e_name d /\ e_attrs d' = e_attrs d /\ List.length (e_children d') = List.length (e_children d) /\ forall x, In x (e_scope d) -> In x (e_scope d')
  | None, None => True
  | _, _ => False
  end.
Section Mirrors.
  Variables e e' : elem.
  Hypothesis M : mirrors e e'.
  Lemma mirror_at q d' : sub e' q = Some d' -> exists d, sub e q = Some d /\ e_name d' = e_name d /\ e_attrs d' = e_attrs d /\ forall x, In x (e_scope d) -> In x (e_scope d').
  Proof. intros E. specialize (M q). rewrite E in M. destruct (sub e q) as [d|]; [|contradiction]. exists d. destruct M as (A & B & _ & C). auto. Qed.
  Lemma mirror_desc q d' : descendant e' q d' -> exists d, descendant e q d /\ e_name d' = e_name d /\ e_attrs d' = e_attrs d /\ forall x, In x (e_scope d) -> In x (e_scope d').
  Proof. intros (Hq & E). destruct (mirror_at q d' E) as (d & Ed & X). exists d. split; [split; auto|exact X]. Qed.
  Lemma mirror_kid q d d' k' : sub e q = Some d -> sub e' q = Some d' -> In k' (e_children d') ->
    exists i k, In k (e_children d) /\ sub e (q ++ [i])%list = Some k /\ sub e' (q ++ [i])%list = Some k' /\ e_name k' = e_name k /\ e_attrs k' = e_attrs k.
  Proof.
    intros E E' Hk. apply In_nth_error in Hk. destruct Hk as (i & Ei). rewrite <- (sub_kid e' q d' i E') in Ei. destruct (mirror_at _ _ Ei) as (k & Ek & N & A & _).
    exists i, k. split; [rewrite (sub_kid e q d i E) in Ek; eapply nth_error_In; eauto|]. auto.
  Qed.
  Lemma mirror_back q d d' k : sub e q = Some d -> sub e' q = Some d' -> In k (e_children d) -> exists k', In k' (e_children d') /\ e_name k' = e_name k.
  Proof.
    intros E E' Hk. apply In_nth_error in Hk. destruct Hk as (i & Ei). pose proof (M (q ++ [i])%list) as X. rewrite (sub_kid e q d i E), (sub_kid e' q d' i E'), Ei in X.
    destruct (nth_error (e_children d') i) as [k'|] eqn:Ek; [|contradiction]. exists k'. split; [eapply nth_error_In; eauto|apply X].
  Qed.
  Lemma mirror_normal : normal e -> normal e'.
  Proof.
    intros [A B C D E F]. constructor.
    - intros q d' X Hn. destruct (mirror_desc q d' X) as (d & Dd & En & Ea & _). unfold attr. rewrite Ea. rewrite En in Hn. exact (A q d Dd Hn).
    - intros q d' k' X Hk Hn. destruct (mirror_desc q d' X) as (d & Dd & _). destruct (mirror_kid q d d' k' (proj2 Dd) (proj2 X) Hk) as (i & k & Ik & _ & _ & En & Ea). unfold attr. rewrite Ea. rewrite En in Hn. exact (B q d k Dd Ik Hn).
    - intros q d' k' X Hn Hk. destruct (mirror_desc q d' X) as (d & Dd & En & _). destruct (mirror_kid q d d' k' (proj2 Dd) (proj2 X) Hk) as (i & k & Ik & Sk & Sk' & Ek & Ea). destruct (C q d k Dd ltac:(congruence) Ik) as (C1 & C2). split.
      + intros Nk. unfold optional, attr. rewrite Ea. apply C1. congruence.
      + intros Nk. apply Forall_forall. intros c' Hc. destruct (mirror_kid _ k k' c' Sk Sk' Hc) as (j & c & Ic & _ & _ & _ & Eac). unfold optional, attr. rewrite Eac. specialize (C2 ltac:(congruence)). rewrite Forall_forall in C2. exact (C2 c Ic).
    - intros q d' X Hn. destruct (mirror_desc q d' X) as (d & Dd & En & _). destruct (D q d Dd ltac:(congruence)) as (k & Ik & Nk). destruct (mirror_back q d d' k (proj2 Dd) (proj2 X) Ik) as (k' & Ik' & En'). exists k'. split; [auto|]. rewrite En'. exact Nk.
    - intros q d' X. destruct (mirror_desc q d' X) as (d & Dd & _ & Ea & _). unfold attr. rewrite Ea. exact (E q d Dd).
    - intros q d' k' X Hk. destruct (mirror_desc q d' X) as (d & Dd & _). destruct (mirror_kid q d d' k' (proj2 Dd) (proj2 X) Hk) as (i & k & Ik & _ & _ & En & _). rewrite En. exact (F q d k Dd Ik).
  Qed.
  Lemma mirror_plain : plain e -> plain e'.
  Proof.
    intros [A B C D E F]. constructor.
    - destruct (mirror_at [] e' eq_refl) as (d & Ed & En & _). cbn [sub] in Ed. injection Ed as <-. congruence.
    - intros q d' X. destruct (mirror_desc q d' X) as (d & Dd & _ & _ & Es). destruct (B q d Dd) as (p & Hp). exists p. auto.
    - intros q d' k' X Hn Hk. destruct (mirror_at q d' X) as (d & Dd & En & _). destruct (mirror_kid q d d' k' Dd X Hk) as (i & k & Ik & _ & _ & Ek & _). rewrite Ek. apply (C q d k Dd); auto. congruence.
    - intros q d' k' X Hk Hn. destruct (mirror_desc q d' X) as (d & Dd & _). destruct (mirror_kid q d d' k' (proj2 Dd) (proj2 X) Hk) as (i & k & Ik & _ & _ & En & Ea). unfold attr. rewrite Ea. rewrite En in Hn. exact (D q d k Dd Ik Hn).
    - intros q d' X. destruct (mirror_desc q d' X) as (d & Dd & _ & Ea & _). unfold attr. rewrite Ea. exact (E q d Dd).
    - intros q d' k' X Hk. destruct (mirror_desc q d' X) as (d & Dd & _). destruct (mirror_kid q d d' k' (proj2 Dd) (proj2 X) Hk) as (i & k & Ik & _ & _ & En & _). rewrite En. exact (F q d k Dd Ik).
  Qed.
End Mirrors.
Lemma rereads_nth ps ps' l l' : rereads ps ps' l l' -> forall i, match nth_error l i, nth_error l' i with Some k, Some k' => reread ps ps' k k' | None, None => True | _, _ => False end.
Proof. induction 1 as [|ps ps' e e' l l' H R IH]; intros [|i]; cbn [nth_error]; auto; try exact (IH i). Qed.
Lemma rereads_len ps ps' l l' : rereads ps ps' l l' -> List.length l' = List.length l.
Proof. induction 1; cbn [List.length]; auto. Qed.
Lemma reread_mirrors : forall q e e' ps ps', reread ps ps' e e' -> (forall x, In x ps -> In x ps') -> match sub e q, sub e' q with
  | Some d, Some d' => e_name d' = e_name d /\ e_attrs d' = e_attrs d /\ List.length (e_children d') = List.length (e_children d) /\ forall x, In x (e_scope d) -> In x (e_scope d')
  | None, None => True
  | _, _ => False
  end.
Proof.
  assert (S : forall ps ps' ds ds' : list xname, (forall x, In x ps -> In x ps') -> Permutation ds ds' -> forall x, In x (ps ++ ds)%list -> In x (ps' ++ ds')%list).
  { intros ps ps' ds ds' I P x H. apply in_app_or in H. apply in_or_app. destruct H as [H|H]; [left; auto|right; eapply Permutation_in; eauto]. }
  induction q as [|i q IH]; intros e e' ps ps' R I; destruct R as [ps ps' n a ds ds' c c' ch ch' P So Hc Hch]; cbn [sub e_children].
  - cbn [e_name e_attrs e_scope e_children]. split; [auto|]. split; [auto|]. split; [eapply rereads_len; eauto|exact (S _ _ _ _ I P)].
  - pose proof (rereads_nth _ _ _ _ Hch i) as X. destruct (nth_error ch i) as [k|], (nth_error ch' i) as [k'|]; auto; try contradiction. exact (IH k k' _ _ X (S _ _ _ _ I P)).
Qed.

(* ---------- nothing to do ---------- *)
Lemma only_same P e e' : only_attrs P e e' -> (forall q d a, sub e q = Some d -> P q d a -> a = e_attrs d) -> e' = e.
Proof.
  intros H K. assert (X : forall n e e', height e <= n -> (forall q, match sub e q, sub e' q with Some d, Some d' => e_name d' = e_name d /\ e_scope d' = e_scope d /\ e_content d' = e_content d /\ e_attrs d' = e_attrs d | None, None => True | _, _ => False end) -> e' = e).
  { clear. induction n as [|n IH]; intros e e' Hn H; [rewrite height_eq in Hn; lia|]. pose proof (H []) as H0. cbn [sub] in H0. destruct e as [nm a s c ks], e' as [nm' a' s' c' ks']. cbn [e_name e_scope e_content e_attrs e_children] in *. destruct H0 as (-> & -> & -> & ->). f_equal.
    rewrite height_eq in Hn. cbn [e_children] in Hn. apply le_S_n in Hn. pose proof (fun i q => H (i :: q)) as Hk. cbn [sub e_children] in Hk. clear H. revert ks' Hk. induction ks as [|k ks IHk]; intros [|k' ks'] Hk; auto; [specialize (Hk 0 []); destruct Hk|specialize (Hk 0 []); destruct Hk|].
    cbn [heights] in Hn. f_equal; [apply IH; [lia|exact (Hk 0)]|]. apply IHk; [lia|]. intros i. exact (Hk (Datatypes.S i)). }
  apply (X (height e) e e' (le_n _)). intros q. specialize (H q). specialize (K q). destruct (sub e q) as [d|], (sub e' q) as [d'|]; auto. destruct H as (A & B & C & D). repeat split; auto.
Qed.
Lemma optional_kid e q : choices_below e -> forall d, optional_at e q -> sub e q = Some d -> attr d "" "minOccurs" = "0".
Proof.
  intros C d [(s & i & -> & (d0 & D0 & N0) & Ns)|(s & i & j & -> & (d0 & D0 & N0) & (d1 & S1 & N1))] E.
  - assert (Hk : In d (e_children d0)) by (rewrite (sub_kid e s d0 i (proj2 D0)) in E; eapply nth_error_In; eauto). destruct (C s d0 d D0 N0 Hk) as (C1 & _). apply C1. intros X. apply Ns. exists d. auto.
  - assert (Hk : In d1 (e_children d0)) by (rewrite (sub_kid e s d0 i (proj2 D0)) in S1; eapply nth_error_In; eauto). destruct (C s d0 d1 D0 N0 Hk) as (_ & C2). specialize (C2 N1). rewrite Forall_forall in C2. apply C2.
    change [i; j] with ([i] ++ [j])%list in E. rewrite app_assoc in E. rewrite (sub_kid e _ d1 j S1) in E. eapply nth_error_In; eauto.
Qed.
Lemma prepared_same e e2 : normal e -> prepared e e2 -> e2 = e.
Proof.
  intros N (e1 & A & B). assert (E1 : e1 = e).
  { apply (only_same _ _ _ A). intros q d a Sq (_ & _ & D3). apply D3; intros (Hq & Nd & Ty); [apply (nf_types e N q d (conj Hq Sq)); auto|apply (nf_types e N q d (conj Hq Sq)); auto]. }
  subst e1. apply (only_same _ _ _ B). intros q d a Sq (D1 & D2).
  destruct (list_eq_dec xattr_dec a (e_attrs d)) as [E|E]; [exact E|]. exfalso. apply E. apply D2. intros O. apply E. rewrite (D1 O). apply attr_set_same; [discriminate|]. exact (optional_kid e q (nf_choice e N) d O Sq).
Qed.
Lemma content_some e : e_name e = xs "complexType" -> (exists k, In k (e_children e) /\ (e_name k = xs "simpleContent" \/ e_name k = xs "complexContent")) -> shorthand e = false.
Proof.
  intros N (k & Hk & Hn). unfold shorthand. rewrite N. change (xname_eqb _ _) with true. cbn [andb]. apply negb_false_iff. apply existsb_exists. exists k. split; [auto|]. unfold content_el. apply orb_true_iff. destruct Hn as [-> | ->]; [left|right]; reflexivity.
Qed.
Lemma expand_same : forall e, (forall q d, sub e q = Some d -> e_name d = xs "complexType" -> shorthand d = false) -> expand_el e = e.
Proof.
  induction e as [n a s c ks IH] using elem_ind'. intros H. rewrite expand_el_eq. assert (S : shorthand (Elem n a s c ks) = false).
  { destruct (shorthand (Elem n a s c ks)) eqn:E; auto. rewrite <- E. apply (H []); auto. apply shorthand_name, E. }
  rewrite S. change (below expand_el (Elem n a s c ks)) with (Elem n a s c (map expand_el ks)). f_equal. rewrite <- (map_id ks) at 2. apply map_ext_in. intros k Hk. apply IH; auto. intros q d Sq. apply In_nth_error in Hk. destruct Hk as (i & Ei). apply (H (i :: q)). cbn [sub e_children]. rewrite Ei. exact Sq.
Qed.
Lemma below_same e : normal e -> below expand_el e = e.
Proof.
  intros N. unfold below. assert (E : map expand_el (e_children e) = e_children e); [|rewrite E; destruct e; reflexivity]. rewrite <- (map_id (e_children e)) at 2. apply map_ext_in. intros k Hk. apply expand_same. intros q d Sq Nd. apply content_some; auto.
  apply In_nth_error in Hk. destruct Hk as (i & Ei). apply (nf_content e N (i :: q) d); auto. split; [discriminate|]. cbn [sub]. rewrite Ei. exact Sq.
Qed.

(* ---------- order of declarations ---------- *)
Lemma tidy_iff ps e : tidy ps e <-> (exists ds, e_scope e = (ps ++ ds)%list /\ StronglySorted (fun a b => s_ltb (nspace a ++ nlocal a) (nspace b ++ nlocal b) = true) ds) /\ forall k, In k (e_children e) -> tidy (e_scope e) k.
Proof.
  split.
  - intros H. destruct H as [ps n a ds c ch A B]. split; [exists ds; auto|exact B].
  - destruct e as [n a s c ch]. cbn [e_scope e_children]. intros ((ds & -> & A) & B). constructor; auto.
Qed.
Lemma only_tidy P ps e : tidy ps e -> forall e', only_attrs P e e' -> tidy ps e'.
Proof.
  intros T e' H. assert (K : forall q, match sub e q, sub e' q with Some d, Some d' => e_scope d' = e_scope d | None, None => True | _, _ => False end) by (intros q; specialize (H q); destruct (sub e q), (sub e' q); auto; apply H).
  clear H. revert e' K. induction T as [ps n a ds c ch A B IH]. intros e' K. pose proof (K []) as K0. cbn [sub e_scope] in K0. apply tidy_iff. split; [exists ds; auto|]. intros k' Hk. rewrite K0. apply In_nth_error in Hk. destruct Hk as (i & Ei).
  pose proof (fun q => K (i :: q)) as Kq. cbn [sub e_children] in Kq. rewrite Ei in Kq. destruct (nth_error ch i) as [k|] eqn:Ek; [|specialize (Kq []); destruct Kq]. apply (IH k); [eapply nth_error_In; eauto|exact Kq].
Qed.
Lemma expand_tidy ps e : tidy ps e -> no_nested_ct e -> tidy ps (expand_el e).
Proof.
  induction 1 as [ps n a ds c ch A B IH]. intros N. set (e := Elem n a (ps ++ ds)%list c ch) in *.
  assert (K : forall k, In k (map expand_el ch) -> tidy (ps ++ ds)%list k). { intros k Hk. apply in_map_iff in Hk. destruct Hk as (k0 & <- & Hk). apply IH; auto. apply (no_nested_kid e); auto. }
  rewrite (expand_el_flat e N). destruct (shorthand e) eqn:Sh; [|unfold below; change (e_children e) with ch; apply tidy_iff; split; [exists ds; auto|exact K]].
  change (e_name e) with n. change (e_attrs e) with a. change (e_scope e) with (ps ++ ds)%list. change (e_children e) with ch. unfold long_form. set (s := (ps ++ ds)%list) in *.
  assert (Own : forall l a' k, (forall x, In x k -> tidy s x) -> tidy s (Elem l a' s "" k)). { intros l a' k Hk. apply tidy_iff. cbn [e_scope e_children]. split; [|exact Hk]. exists []. rewrite app_nil_r. split; [auto|constructor]. }
  constructor; auto. intros k Hk. apply in_app_or in Hk. destruct Hk as [Hk|[<-|[]]]; [apply K; apply filter_In in Hk; apply Hk|]. apply Own. intros k [<-|[]]. apply Own. intros k Hk. apply K; apply filter_In in Hk; apply Hk.
Qed.
Lemma below_tidy ps e : tidy ps e -> no_nested_ct e -> tidy ps (below expand_el e).
Proof.
  intros T N. pose proof T as T0. apply tidy_iff in T. destruct T as (A & B). apply tidy_iff. destruct e as [n a s c ch]. unfold below. cbn [with_children e_scope e_children] in *. split; [exact A|]. intros k Hk. apply in_map_iff in Hk. destruct Hk as (k0 & <- & Hk). apply expand_tidy; auto. eapply no_nested_kid; eauto.
Qed.
Lemma prepared_tidy ps e e2 : prepared e e2 -> tidy ps e -> tidy ps e2.
Proof. intros (e1 & A & B) T. exact (only_tidy _ _ _ (only_tidy _ _ _ T _ A) _ B). Qed.
