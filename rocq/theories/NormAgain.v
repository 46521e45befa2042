(* Normalising schemas without references, groups and anonymous types; normalising again. *)
From Verif Require Import Base GraphModel ScopeModel ScopeSpec ScopeProofs TreeModel TreeSpec TreeProofs BuiltinModel XsdModel XsdProofs NormModel NormMem NormOps NormPath NormSpec NormPass NormDefaults NormExpand NormHoistSpec NormAnonSpec NormAnon NormAnonProofs NormCopyProofs NormAnonRoots NormUnpack NormUnpackAll NormRefSpec NormIndex NormRefs NormFlatten NormBuild NormExamples NormFixed.
Local Open Scope string_scope.

(* the prefix of the schema namespace can be written *)
Definition scoped_below (e : elem) : Prop := forall q d, descendant e q d -> exists p, In (mkName schemaNS p) (e_scope d).
Record plain (e : elem) : Prop := mkPlain {
  pl_schema : e_name e = xs "schema"; pl_scope : scoped_below e; pl_flat : no_nested_ct e;
  pl_named : named_below e; pl_refs : no_refs_below e; pl_groups : no_groups_below e }.

Lemma prefix_written s any : any <> "" -> (exists p, In (mkName schemaNS p) s) -> prefix s (xs any) <> "".
Proof.
  intros Ha (p & Hp). unfold prefix. change (nspace (xs any)) with schemaNS. change (nlocal (xs any)) with any.
  change (String.eqb schemaNS "") with false. change (String.eqb schemaNS xmlLangURI) with false. change (String.eqb schemaNS xmlNamespaceURI) with false. cbv iota.
  unfold prefix_loop. change (nspace (xs any)) with schemaNS. change (nlocal (xs any)) with any. induction s as [|d s IH]; [destruct Hp|]. cbn [fold_right].
  set (r := fold_right _ "" s) in *. destruct (String.eqb (nspace d) schemaNS) eqn:E.
  - destruct (String.eqb (nlocal d) ""); [exact Ha|]. destruct (Nat.eqb (String.length r) 0) eqn:E2; [|intros ->; discriminate]. destruct (nlocal d); discriminate.
  - destruct Hp as [-> |Hp]; [rewrite String.eqb_refl in E; discriminate|]. exact (IH Hp).
Qed.

(* ---------- only the attribute l0 changes ---------- *)
Definition changed (l0 : string) (e e' : elem) : Prop := forall q, match sub e q, sub e' q with
  | Some d, Some d' => e_name d' = e_name d /\ e_scope d' = e_scope d /\ forall l, l <> l0 -> attr d' "" l = attr d "" l
  | None, None => True
  | _, _ => False
  end.
Section Changed.
  Variables (l0 : string) (e e' : elem).
  Hypothesis C : changed l0 e e'.
  Lemma changed_at q d' : sub e' q = Some d' -> exists d, sub e q = Some d /\ e_name d' = e_name d /\ e_scope d' = e_scope d /\ forall l, l <> l0 -> attr d' "" l = attr d "" l.
  Proof. intros E. specialize (C q). rewrite E in C. destruct (sub e q) as [d|]; [|contradiction]. exists d. auto. Qed.
  Lemma changed_kid q d d' k' : sub e q = Some d -> sub e' q = Some d' -> In k' (e_children d') ->
    exists i k, In k (e_children d) /\ sub e (q ++ [i])%list = Some k /\ sub e' (q ++ [i])%list = Some k' /\ e_name k' = e_name k /\ forall l, l <> l0 -> attr k' "" l = attr k "" l.
  Proof.
    intros E E' Hk. apply In_nth_error in Hk. destruct Hk as (i & Ei). rewrite <- (sub_kid e' q d' i E') in Ei. destruct (changed_at _ _ Ei) as (k & Ek & N & _ & A).
    exists i, k. split; [rewrite (sub_kid e q d i E) in Ek; eapply nth_error_In; eauto|]. auto.
  Qed.
  Lemma changed_desc q d' : descendant e' q d' -> exists d, descendant e q d /\ e_name d' = e_name d /\ e_scope d' = e_scope d /\ forall l, l <> l0 -> attr d' "" l = attr d "" l.
  Proof. intros (Hq & E). destruct (changed_at q d' E) as (d & Ed & X). exists d. split; [split; auto|exact X]. Qed.
  Lemma changed_plain : l0 <> "name" -> l0 <> "ref" -> plain e -> plain e'.
  Proof.
    intros N1 N2 P. constructor.
    - destruct (changed_at [] e' eq_refl) as (d & Ed & N & _). cbn [sub] in Ed. injection Ed as <-. rewrite N. exact (pl_schema e P).
    - intros q d' D. destruct (changed_desc q d' D) as (d & Dd & _ & Es & _). rewrite Es. exact (pl_scope e P q d Dd).
    - intros q d' k' E' Nm Hk. destruct (changed_at q d' E') as (d & Ed & En & _). destruct (changed_kid q d d' k' Ed E' Hk) as (i & k & Ik & _ & _ & Ek & _). rewrite Ek. apply (pl_flat e P q d k Ed); auto. congruence.
    - intros q d' k' D Hk Nm. destruct (changed_desc q d' D) as (d & Dd & _). destruct (changed_kid q d d' k' (proj2 Dd) (proj2 D) Hk) as (i & k & Ik & _ & _ & Ek & A). rewrite (A "name") by congruence. rewrite Ek in Nm. exact (pl_named e P q d k Dd Ik Nm).
    - intros q d' D. destruct (changed_desc q d' D) as (d & Dd & _ & _ & A). rewrite (A "ref") by congruence. exact (pl_refs e P q d Dd).
    - intros q d' k' D Hk. destruct (changed_desc q d' D) as (d & Dd & _). destruct (changed_kid q d d' k' (proj2 Dd) (proj2 D) Hk) as (i & k & Ik & _ & _ & Ek & _). rewrite Ek. exact (pl_groups e P q d k Dd Ik).
  Qed.
  Lemma changed_typed : l0 <> "type" -> typed_below e -> typed_below e'.
  Proof. intros N T q d' D H. destruct (changed_desc q d' D) as (d & Dd & En & _ & A). rewrite (A "type") by congruence. rewrite En in H. exact (T q d Dd H). Qed.
End Changed.
Lemma attr_other l0 l v a : l <> l0 -> attr_get (attr_set a "" l0 v) "" l = attr_get a "" l.
Proof. intros H. apply attr_set_other. intros m K1 K2. apply name_match_iff in K1, K2. destruct K1 as [K1 _], K2 as [K2 _]. congruence. Qed.
Lemma defaulted_cases q d a : defaulted q d a ->
  a = e_attrs d /\ ~ untyped "attribute" q d /\ ~ untyped "element" q d \/ exists any, any <> "" /\ a = attr_set (e_attrs d) "" "type" (prefix (e_scope d) (xs any)).
Proof.
  intros (D1 & D2 & D3). destruct (untyped_dec (fun a _ => a) "attribute" q d) as [U|U]; [right; exists "anySimpleType"; split; [discriminate|auto]|].
  destruct (untyped_dec (fun a _ => a) "element" q d) as [V|V]; [right; exists "anyType"; split; [discriminate|auto]|]. left. auto.
Qed.
Lemma defaulted_changed e e' : only_attrs defaulted e e' -> changed "type" e e'.
Proof.
  intros H q. specialize (H q). destruct (sub e q) as [d|], (sub e' q) as [d'|]; auto. destruct H as (H1 & H2 & _ & H4). split; [auto|]. split; [auto|]. intros l Hl. unfold attr.
  destruct (defaulted_cases q d _ H4) as [(-> & _)|(any & _ & ->)]; [reflexivity|]. apply attr_other, Hl.
Qed.
Lemma defaulted_typed e e' : scoped_below e -> only_attrs defaulted e e' -> typed_below e'.
Proof.
  intros S H q d' (Hq & E) N. specialize (H q). rewrite E in H. destruct (sub e q) as [d|] eqn:Ed; [|contradiction]. destruct H as (H1 & H2 & _ & H4). unfold attr.
  destruct (defaulted_cases q d _ H4) as [(-> & U & V)|(any & Ha & ->)].
  - intros X. rewrite H1 in N. destruct N as [N|N]; [apply V|apply U]; repeat split; auto.
  - rewrite attr_get_set. apply prefix_written; [exact Ha|]. apply (S q d). split; auto.
Qed.
Lemma optional_changed e e' : only_attrs (made_optional e) e e' -> changed "minOccurs" e e'.
Proof. intros H. exact (optional_alike e e' H). Qed.
Lemma optional_choices e e' : only_attrs (made_optional e) e e' -> choices_below e'.
Proof.
  intros H q d' k' D' N Hk. pose proof (optional_changed e e' H) as C. destruct (changed_desc _ e e' C q d' D') as (d & D & En & _). destruct (changed_kid _ e e' C q d d' k' (proj2 D) (proj2 D') Hk) as (i & k & Ik & Sk & Sk' & Ek & _).
  assert (Ch : choice_at e q) by (exists d; split; [exact D|congruence]). split.
  - intros Nk. specialize (H (q ++ [i])%list). rewrite Sk, Sk' in H. destruct H as (_ & _ & _ & O & _). unfold optional, attr. rewrite O; [apply attr_get_set|]. left. exists q, i. split; [reflexivity|]. split; [exact Ch|]. intros (k0 & S0 & N0). congruence.
  - intros Nk. apply Forall_forall. intros c' Hc. destruct (changed_kid _ e e' C _ k k' c' Sk Sk' Hc) as (j & c & _ & Sc & Sc' & _). rewrite <- app_assoc in Sc, Sc'. cbn [app] in Sc, Sc'.
    specialize (H (q ++ [i; j])%list). rewrite Sc, Sc' in H. destruct H as (_ & _ & _ & O & _). unfold optional, attr. rewrite O; [apply attr_get_set|]. right. exists q, i, j. split; [reflexivity|]. split; [exact Ch|]. exists k. split; [exact Sk|congruence].
Qed.

(* ---------- expansion ---------- *)
Definition cc (d : elem) : elem := Elem (xs "complexContent") [] (e_scope d) ""
  [Elem (xs "restriction") [mkAttr (mkName "" "base") (prefix (e_scope d) (xs "anyType"))] (e_scope d) "" (filter (fun k => negb (stays k)) (map expand_el (e_children d)))].
Definition restr (d : elem) : elem := Elem (xs "restriction") [mkAttr (mkName "" "base") (prefix (e_scope d) (xs "anyType"))] (e_scope d) "" (filter (fun k => negb (stays k)) (map expand_el (e_children d))).
Definition from (e d' : elem) : Prop := (exists d, In d (subs e) /\ d' = expand_el d) \/ exists d, In d (subs e) /\ shorthand d = true /\ (d' = cc d \/ d' = restr d).
Lemma from_kid e k d' : In k (e_children e) -> from k d' -> from e d'.
Proof.
  intros Hk [(d & Hd & H)|(d & Hd & H)]; [left|right]; exists d; (split; [rewrite subs_eq; right; apply in_flat_map; exists k; auto|exact H]).
Qed.
Lemma expanded_from : forall e, no_nested_ct e -> forall d', In d' (subs (expand_el e)) -> from e d'.
Proof.
  induction e as [n a s c ks IH] using elem_ind'. intros H d' Hd. rewrite subs_eq in Hd. destruct Hd as [<-|Hd]; [left; exists (Elem n a s c ks); split; [apply subs_self|reflexivity]|].
  assert (K : forall k, In k (map expand_el ks) -> In d' (subs k) -> from (Elem n a s c ks) d').
  { intros k Hk Hs. apply in_map_iff in Hk. destruct Hk as (k0 & <- & Hk0). apply (from_kid _ k0); [exact Hk0|]. apply IH; auto. eapply no_nested_kid; eauto. }
  rewrite (expand_el_flat _ H) in Hd. destruct (shorthand (Elem n a s c ks)) eqn:Sh.
  - unfold long_form in Hd. cbn [e_children e_name e_attrs e_scope] in Hd. rewrite flat_map_app in Hd. apply in_app_or in Hd. destruct Hd as [Hd|Hd].
    + apply in_flat_map in Hd. destruct Hd as (k & Hk & Hd). apply filter_In in Hk. exact (K k (proj1 Hk) Hd).
    + cbn [flat_map] in Hd. rewrite app_nil_r in Hd. rewrite subs_eq in Hd. destruct Hd as [<-|Hd]; [right; exists (Elem n a s c ks); split; [apply subs_self|]; split; [exact Sh|left; reflexivity]|].
      cbn [e_children flat_map] in Hd. rewrite app_nil_r, subs_eq in Hd. destruct Hd as [<-|Hd]; [right; exists (Elem n a s c ks); split; [apply subs_self|]; split; [exact Sh|right; reflexivity]|].
      cbn [e_children] in Hd. apply in_flat_map in Hd. destruct Hd as (k & Hk & Hd). apply filter_In in Hk. exact (K k (proj1 Hk) Hd).
  - cbn [below with_children e_children] in Hd. apply in_flat_map in Hd. destruct Hd as (k & Hk & Hd). exact (K k Hk Hd).
Qed.
Lemma expand_attrs e : e_attrs (expand_el e) = e_attrs e.
Proof. rewrite expand_el_eq. destruct (shorthand e); destruct e; reflexivity. Qed.
Lemma expand_attr e l : attr (expand_el e) "" l = attr e "" l.
Proof. unfold attr. rewrite expand_attrs. reflexivity. Qed.
Lemma expand_kids e : no_nested_ct e -> e_name e <> xs "complexType" -> e_children (expand_el e) = map expand_el (e_children e).
Proof.
  intros H N. rewrite (expand_el_flat e H). assert (S : shorthand e = false). { unfold shorthand. destruct (xname_eqb (e_name e) (xs "complexType")) eqn:E; auto. apply xname_eqb_eq in E. contradiction. }
  rewrite S. reflexivity.
Qed.
(* the children of what comes out are children before, expanded, or made up *)
Lemma from_kids e d' k' : no_nested_ct e -> from e d' -> In k' (e_children d') ->
  (exists d k, In d (subs e) /\ In k (e_children d) /\ k' = expand_el k) \/ e_name k' = xs "complexContent" \/ e_name k' = xs "restriction".
Proof.
  intros N F Hk. assert (Nd : forall d, In d (subs e) -> no_nested_ct d). { intros d Hd. destruct (subs_sub e d Hd) as (s & Hs). intros q d1 k1 S1. apply (N (s ++ q)%list). rewrite sub_app, Hs. exact S1. }
  destruct F as [(d & Hd & ->)|(d & Hd & _ & [-> | ->])].
  - rewrite (expand_el_flat d (Nd d Hd)) in Hk. destruct (shorthand d).
    + unfold long_form in Hk. cbn [e_children] in Hk. apply in_app_or in Hk. destruct Hk as [Hk|[<-|[]]]; [|right; left; reflexivity]. apply filter_In in Hk. destruct Hk as (Hk & _). apply in_map_iff in Hk. destruct Hk as (k & <- & Hk). left. eauto.
    + cbn [below] in Hk. unfold below in Hk. rewrite NormRefs.e_children_with in Hk. apply in_map_iff in Hk. destruct Hk as (k & <- & Hk). left. eauto.
  - destruct Hk as [<-|[]]. right. right. reflexivity.
  - cbn [restr e_children] in Hk. apply filter_In in Hk. destruct Hk as (Hk & _). apply in_map_iff in Hk. destruct Hk as (k & <- & Hk). left. eauto.
Qed.
Lemma root_from e q d' : no_nested_ct e -> descendant (below expand_el e) q d' -> exists k, In k (e_children e) /\ from k d'.
Proof.
  intros N (Hq & E). destruct q as [|i q]; [congruence|]. cbn [sub] in E. unfold below in E. rewrite NormRefs.e_children_with, nth_error_map in E. destruct (nth_error (e_children e) i) as [k|] eqn:Ek; [|discriminate]. cbn [option_map] in E.
  exists k. split; [eapply nth_error_In; eauto|]. apply expanded_from; [eapply no_nested_kid; eauto; eapply nth_error_In; eauto|]. eapply sub_subs; eauto.
Qed.
Lemma below_desc e k d : In k (e_children e) -> In d (subs k) -> exists q, descendant e q d.
Proof. intros Hk Hd. apply In_nth_error in Hk. destruct Hk as (i & Ei). destruct (subs_sub k d Hd) as (s & Hs). exists (i :: s). split; [discriminate|]. cbn [sub]. rewrite Ei. exact Hs. Qed.
Lemma expanded_normal e : plain e -> typed_below e -> choices_below e -> normal (below expand_el e).
Proof.
  intros P T C. pose proof (pl_flat e P) as Fl. constructor.
  - intros q d' D N. destruct (root_from e q d' Fl D) as (k & Hk & [(d & Hd & ->)|(d & Hd & _ & [-> | ->])]); [|destruct N as [N|N]; discriminate N|destruct N as [N|N]; discriminate N].
    destruct (below_desc e k d Hk Hd) as (s & Ds). rewrite expand_attr. rewrite expand_name in N. exact (T s d Ds N).
  - intros q d' k' D Hk' N. destruct (root_from e q d' Fl D) as (k & Hk & F). destruct (from_kids k d' k' (no_nested_kid e k Fl Hk) F Hk') as [(d & c & Hd & Hc & ->)|[E|E]]; [|rewrite E in N; destruct N as [N|N]; discriminate N|rewrite E in N; destruct N as [N|N]; discriminate N].
    destruct (below_desc e k d Hk Hd) as (s & Ds). rewrite expand_attr. rewrite expand_name in N. exact (pl_named e P s d c Ds Hc N).
  - intros q d' k' D N Hk'. destruct (root_from e q d' Fl D) as (k & Hk & [(d & Hd & ->)|(d & Hd & _ & [-> | ->])]); [|discriminate N|discriminate N].
    destruct (below_desc e k d Hk Hd) as (s & Ds). assert (Nd : forall t d, descendant e t d -> no_nested_ct d). { intros t d0 (_ & Hs) q0 d1 k1 S1. apply (Fl (t ++ q0)%list). rewrite sub_app, Hs. exact S1. }
    rewrite expand_name in N. rewrite (expand_kids d (Nd _ _ Ds)) in Hk' by (rewrite N; discriminate). apply in_map_iff in Hk'. destruct Hk' as (c & <- & Hc). destruct (C s d c Ds N Hc) as (C1 & C2). rewrite expand_name. unfold optional. rewrite expand_attr. split; [exact C1|]. intros Nc. specialize (C2 Nc).
    assert (Dc : exists t, descendant e t c). { apply In_nth_error in Hc. destruct Hc as (i & Ei). exists (s ++ [i])%list. split; [destruct s; discriminate|]. rewrite (sub_kid e s d i (proj2 Ds)). exact Ei. }
    destruct Dc as (t & Dc). rewrite (expand_kids c (Nd _ _ Dc)) by (rewrite Nc; discriminate). rewrite Forall_forall in C2 |- *. intros z Hz. apply in_map_iff in Hz. destruct Hz as (z0 & <- & Hz). rewrite expand_attr. exact (C2 z0 Hz).
  - intros q d' D N. exact (expanded_types e q d' Fl D N).
  - intros q d' D. destruct (root_from e q d' Fl D) as (k & Hk & [(d & Hd & ->)|(d & Hd & _ & [-> | ->])]); [|reflexivity|reflexivity].
    destruct (below_desc e k d Hk Hd) as (s & Ds). rewrite expand_attr. exact (pl_refs e P s d Ds).
  - intros q d' k' D Hk'. destruct (root_from e q d' Fl D) as (k & Hk & F). destruct (from_kids k d' k' (no_nested_kid e k Fl Hk) F Hk') as [(d & c & Hd & Hc & ->)|[E|E]]; [|rewrite E; split; discriminate|rewrite E; split; discriminate].
    destruct (below_desc e k d Hk Hd) as (s & Ds). rewrite expand_name. exact (pl_groups e P s d c Ds Hc).
Qed.
Lemma heights_in ks k : In k ks -> height k <= heights ks.
Proof. induction ks as [|z ks IH]; intros H; [destruct H|]. cbn [heights]. destruct H as [-> |H]; [lia|]. specialize (IH H). lia. Qed.
Lemma expand_height : forall n e, height e <= n -> no_nested_ct e -> height (expand_el e) <= 3 * height e.
Proof.
  induction n as [|n IH]; intros e Hn N; [rewrite height_eq in Hn; lia|]. assert (K : heights (map expand_el (e_children e)) <= 3 * heights (e_children e)).
  { apply heights_le. intros k Hk. apply in_map_iff in Hk. destruct Hk as (k0 & <- & Hk0). pose proof (heights_in _ _ Hk0). rewrite height_eq in Hn. specialize (IH k0 ltac:(lia) (no_nested_kid e k0 N Hk0)). lia. }
  rewrite (expand_el_flat e N). destruct (shorthand e).
  - assert (F : forall f l, heights (filter f l) <= heights l). { intros f l. apply heights_le. intros k Hk. apply filter_In in Hk. apply heights_in, (proj1 Hk). }
    rewrite (height_eq e), height_eq. unfold long_form. cbn [e_children]. apply le_n_S in K. set (M := map expand_el (e_children e)) in *. 
    assert (X : heights (filter stays M ++ [Elem (xs "complexContent") [] (e_scope e) "" [Elem (xs "restriction") [mkAttr (mkName "" "base") (prefix (e_scope e) (xs "anyType"))] (e_scope e) "" (filter (fun k => negb (stays k)) M)]])%list <= 2 + heights M); [|lia].
    apply heights_le. intros k Hk. apply in_app_or in Hk. destruct Hk as [Hk|[<-|[]]]; [apply filter_In in Hk; pose proof (heights_in _ _ (proj1 Hk)); lia|].
    rewrite height_eq. cbn [e_children heights]. rewrite height_eq. cbn [e_children]. specialize (F (fun k => negb (stays k)) M). lia.
  - rewrite (height_eq e), height_eq. unfold below. rewrite NormRefs.e_children_with. lia.
Qed.
Lemma below_height e : no_nested_ct e -> height (below expand_el e) <= 3 * height e.
Proof.
  intros N. rewrite (height_eq e), height_eq. unfold below. rewrite NormRefs.e_children_with. assert (K : heights (map expand_el (e_children e)) <= 3 * heights (e_children e)); [|lia].
  apply heights_le. intros k Hk. apply in_map_iff in Hk. destruct Hk as (k0 & <- & Hk0). pose proof (heights_in _ _ Hk0). pose proof (expand_height _ k0 (le_n _) (no_nested_kid e k0 N Hk0)). lia.
Qed.

(* ---------- all of it ---------- *)
Definition prepared (e e2 : elem) : Prop := exists e1, only_attrs defaulted e e1 /\ only_attrs (made_optional e1) e1 e2.
Section All.
  Variables (grow agrow : nat -> nat -> nat) (fuel : nat).
  Lemma defaults_plain : pass (defaults grow agrow fuel) (fun e => height e <= fuel /\ plain e) (fun e e1 => only_attrs defaulted e e1).
  Proof.
    intros h e p x G (Hf & P). destruct (defaults_pass agrow fuel h e p x G Hf) as (h1 & e1 & E1 & R1 & L1). exists h1, e1. split; [|split; auto].
    destruct (leaves_good _ _ _ _ _ _ G L1) as (x1 & (A1 & A2 & _) & _). unfold default_types in E1. unfold defaults.
    destruct (attribute_default_type agrow fuel p h) as [h0| |]; cbn [bind] in *; try discriminate E1. rewrite E1. cbn [bind].
    apply (copy_fixed grow agrow fuel h1 p x1 e1 A1 A2).
    - rewrite (only_attrs_height agrow _ _ _ R1). exact Hf.
    - apply (pl_named e1), (changed_plain _ e e1 (defaulted_changed e e1 R1)); auto; discriminate.
  Qed.
  (* no name is used up *)
  Definition name_one (p : ptr) (h : heap) : res heap :=
    match name_anonymous grow agrow fuel p (h, 0) with Done (h', 0) => set_choices_optional agrow fuel p h' | _ => Fails end.
  Lemma name_plain : pass name_one (fun e => height e <= fuel /\ plain e) (fun e e1 => only_attrs (made_optional e) e e1).
  Proof.
    intros h e p x G (Hf & P). destruct (optional_pass agrow fuel h e p x G Hf) as (h1 & e1 & E1 & R1 & L1). exists h1, e1. split; [|auto]. unfold name_one.
    destruct G as (A1 & A2 & _). rewrite (name_fixed grow agrow fuel h p x e A1 A2 Hf 0 (pl_named e P)). exact E1.
  Qed.
  Lemma name_all_one : forall roots h h', on_each name_one roots h = Done h' -> name_all grow agrow fuel roots (h, 0) = Done (h', 0).
  Proof.
    induction roots as [|r roots IH]; intros h h' E; cbn [on_each name_all] in *; [injection E as <-; reflexivity|]. unfold name_one at 1 in E.
    destruct (name_anonymous grow agrow fuel r (h, 0)) as [[h1 [|n]]| |]; try discriminate E. destruct (set_choices_optional agrow fuel r h1); try discriminate E. apply IH, E.
  Qed.
  Lemma Forall2_comp {A} (R S : A -> A -> Prop) : forall l m n, Forall2 R l m -> Forall2 S m n -> Forall2 (fun a c => exists b, R a b /\ S b c) l n.
  Proof. induction l as [|a l IH]; intros m n H1 H2; inversion H1; subst; inversion H2; subst; constructor; eauto. Qed.
  Lemma normalised roots es h : stands h roots es -> Forall (fun e => 3 * height e <= fuel /\ plain e) es ->
    exists h' es2, normalize grow agrow fuel roots h = Done h' /\ stands h' roots (map (below expand_el) es2) /\ Forall2 prepared es es2 /\
      Forall (fun e => height e <= fuel /\ normal e) (map (below expand_el) es2).
  Proof.
    intros St F. assert (F0 : Forall (fun e => height e <= fuel /\ plain e) es) by (eapply Forall_impl; [|exact F]; intros a (A & B); split; [lia|exact B]).
    destruct (on_each_stands _ _ _ roots es h defaults_plain St F0) as (h1 & es1 & E1 & R1 & S1).
    assert (F1 : Forall (fun e => 3 * height e <= fuel /\ plain e /\ typed_below e) es1).
    { clear -agrow F R1. induction R1 as [|e e1 es es1 R B IH]; constructor; inversion F as [|? ? (A & P) F']; subst; auto. rewrite (only_attrs_height agrow _ _ _ R). split; [exact A|].
      split; [apply (changed_plain _ e e1 (defaulted_changed e e1 R)); auto; discriminate|]. exact (defaulted_typed e e1 (pl_scope e P) R). }
    assert (F1' : Forall (fun e => height e <= fuel /\ plain e) es1) by (eapply Forall_impl; [|exact F1]; intros a (A & B & _); split; [lia|exact B]).
    destruct (on_each_stands _ _ _ roots es1 h1 name_plain S1 F1') as (h2 & es2 & E2 & R2 & S2).
    assert (F2 : Forall (fun e => 3 * height e <= fuel /\ plain e /\ typed_below e /\ choices_below e) es2).
    { clear -agrow F1 R2. induction R2 as [|e e1 es es1 R B IH]; constructor; inversion F1 as [|? ? (A & P & T) F']; subst; auto. rewrite (only_attrs_height agrow _ _ _ R). split; [exact A|].
      pose proof (optional_changed e e1 R) as C. split; [apply (changed_plain _ e e1 C); auto; discriminate|]. split; [apply (changed_typed _ e e1 C); auto; discriminate|]. exact (optional_choices e e1 R). }
    assert (F2' : Forall (fun e => height e <= fuel /\ e_name e = xs "schema") es2) by (eapply Forall_impl; [|exact F2]; intros a (A & B & _); split; [lia|exact (pl_schema a B)]).
    destruct (expand_roots grow fuel roots es2 h2 S2 F2') as (h3 & E3 & S3). exists h3, es2.
    assert (F3 : Forall (fun e => height e <= fuel /\ normal e) (map (below expand_el) es2)).
    { apply Forall_map. eapply Forall_impl; [|exact F2]. intros e (A & P & T & C). split; [pose proof (below_height e (pl_flat e P)); lia|]. exact (expanded_normal e P T C). }
    split; [|split; [exact S3|split; [exact (Forall2_comp _ _ _ _ _ R1 R2)|exact F3]]].
    unfold normalize. rewrite E1. cbn [bind]. rewrite (name_all_one _ _ _ E2). cbn [bind fst]. rewrite E3. cbn [bind]. apply (flatten_fixed grow agrow fuel h3 roots _ (stands_shows _ _ _ S3)).
    eapply Forall_impl; [|exact F3]. intros e (A & N). split; [exact A|]. split; [exact (nf_refs e N)|exact (nf_groups e N)].
  Qed.
  Lemma again roots es h : stands h roots es -> Forall (fun e => 3 * height e <= fuel /\ plain e) es ->
    exists h', normalize grow agrow fuel roots h = Done h' /\ normalize grow agrow fuel roots h' = Done h'.
  Proof.
    intros St F. destruct (normalised roots es h St F) as (h' & es2 & E & S' & _ & F'). exists h'. split; [exact E|]. apply (fixed grow agrow fuel h' roots _ (stands_shows _ _ _ S') F').
  Qed.
End All.
