From Verif Require Import Base ScopeModel ScopeSpec.

Lemma split_qname_parts q p l : split_qname q = (p, l) <-> qname_parts q p l.
Proof.
  unfold split_qname, qname_parts. destruct (cut colon q) as [[a b]|] eqn:E.
  - apply cut_some in E as E'. destruct E' as [-> Ha]. split.
    + intros [= <- <-]. left. auto.
    + intros [[H Hp]|[H [-> ->]]].
      * assert (cut colon (a ++ String colon b)%string = Some (p, l)) as E2.
        { apply cut_some; auto. }
        congruence.
      * rewrite s_in_app in H. cbn in H. rewrite orb_true_r in H. discriminate.
  - apply cut_none in E. split.
    + intros [= <- <-]. right; auto.
    + intros [[-> Hp]|[H [-> ->]]]; auto.
      rewrite s_in_app in E. cbn in E. rewrite orb_true_r in E. discriminate.
Qed.

Lemma qname_parts_fun q p l p' l' : qname_parts q p l -> qname_parts q p' l' -> p = p' /\ l = l'.
Proof. rewrite <- !split_qname_parts. intros -> [= -> ->]; auto. Qed.

Lemma qname_parts_total q : exists p l, qname_parts q p l.
Proof. destruct (split_qname q) as [p l] eqn:E. exists p, l. apply split_qname_parts; auto. Qed.

Lemma find_last_binds s p d :
  find_last (fun d => String.eqb (nlocal d) p) s = Some d -> nlocal d = p /\ binds s p (nspace d).
Proof.
  intros H. apply find_last_some in H as (l1 & l2 & -> & Hp & Hn).
  apply String.eqb_eq in Hp. split; auto. exists l1, l2. destruct d as [u p']; cbn in *; subst p'.
  split; auto. intros u' Hu. apply Hn in Hu. cbn in Hu. rewrite String.eqb_refl in Hu. discriminate.
Qed.

Lemma binds_find_last s p u : binds s p u ->
  find_last (fun d => String.eqb (nlocal d) p) s = Some (mkName u p).
Proof.
  intros (l1 & l2 & -> & Hn). apply find_last_some. exists l1, l2. split; auto. cbn.
  rewrite String.eqb_refl. split; auto. intros [u' p'] Hy. cbn. apply String.eqb_neq.
  intros ->. eapply Hn; eauto.
Qed.

Lemma find_last_nobinds s p :
  find_last (fun d => String.eqb (nlocal d) p) s = None <-> forall u, ~ In (mkName u p) s.
Proof.
  rewrite find_last_none. split.
  - intros H u Hu. apply H in Hu. cbn in Hu. rewrite String.eqb_refl in Hu; discriminate.
  - intros H [u p'] Hin. cbn. apply String.eqb_neq. intros ->. eapply H; eauto.
Qed.

Lemma binds_in s p u : binds s p u -> In (mkName u p) s.
Proof. intros (l1 & l2 & -> & _). apply in_or_app; cbn; auto. Qed.

Lemma binds_fun s p u u' : binds s p u -> binds s p u' -> u = u'.
Proof. intros H H'. apply binds_find_last in H, H'. congruence. Qed.

Lemma resolve_ns_true s q p l : qname_parts q p l ->
  forall n, resolve_ns s q = (n, true) <-> nlocal n = l /\ denotes s p (nspace n).
Proof.
  intros Hq n. apply split_qname_parts in Hq. unfold resolve_ns. rewrite Hq.
  unfold denotes, reserved, xml_uri, xmlns_uri.
  destruct (String.eqb p "xml") eqn:E1.
  { apply String.eqb_eq in E1 as ->. split.
    - intros [= <-]. cbn. auto.
    - intros [<- [[_ H]|[[H _]|[H _]]]]; [|discriminate|tauto].
      destruct n; cbn in *; subst; auto. }
  apply String.eqb_neq in E1. destruct (String.eqb p "xmlns") eqn:E2.
  { apply String.eqb_eq in E2 as ->. split.
    - intros [= <-]. cbn. auto.
    - intros [<- [[H _]|[[_ H]|[H _]]]]; [discriminate| |tauto].
      destruct n; cbn in *; subst; auto. }
  apply String.eqb_neq in E2.
  destruct (find_last _ s) as [d|] eqn:E.
  - apply find_last_binds in E as [Hd Hb]. split.
    + intros [= <-]. cbn. intuition.
    + intros [<- [[H _]|[[H _]|[_ H]]]]; try congruence.
      destruct n; cbn in *. f_equal. f_equal. eapply binds_fun; eauto.
  - split; [discriminate|]. intros [_ [[H _]|[[H _]|[_ H]]]]; try congruence.
    apply binds_find_last in H. congruence.
Qed.

Lemma resolve_ns_false s q p l : qname_parts q p l ->
  forall n, resolve_ns s q = (n, false) <->
    n = mkName p l /\ ~ reserved p /\ forall u, ~ In (mkName u p) s.
Proof.
  intros Hq n. apply split_qname_parts in Hq. unfold resolve_ns. rewrite Hq. unfold reserved.
  destruct (String.eqb p "xml") eqn:E1.
  { apply String.eqb_eq in E1. split; [discriminate|]. tauto. }
  apply String.eqb_neq in E1. destruct (String.eqb p "xmlns") eqn:E2.
  { apply String.eqb_eq in E2. split; [discriminate|]. tauto. }
  apply String.eqb_neq in E2.
  destruct (find_last _ s) as [d|] eqn:E.
  - split; [discriminate|]. intros (_ & _ & H). apply find_last_binds in E as [_ Hb].
    exfalso. eapply H. apply binds_in; eauto.
  - split.
    + intros [= <-]. split; auto. split; [tauto|]. apply find_last_nobinds; auto.
    + intros [-> _]; auto.
Qed.

Lemma resolve_default_spec s q d :
  (d <> "" -> s_in ":"%char q = false -> resolve_default s q d = mkName d q) /\
  (d = "" \/ s_in ":"%char q = true -> resolve_default s q d = resolve s q).
Proof.
  unfold resolve_default, colon. split.
  - intros H1 H2. apply String.eqb_neq in H1. rewrite H1, H2. auto.
  - intros [->|H]; [rewrite String.eqb_refl; auto|]. rewrite H, orb_true_r. auto.
Qed.

(* ---- Prefix ---- *)
Lemma slen_zero s : Nat.eqb (String.length s) 0 = String.eqb s "".
Proof. destruct s; auto. Qed.

Lemma qual_nonempty p l : (p ++ ":" ++ l)%string <> "".
Proof. destruct p; discriminate. Qed.

Lemma prefix_loop_nodefault s n : ~ In (mkName (nspace n) "") s ->
  prefix_loop s n =
  match find_last (fun d => String.eqb (nspace d) (nspace n)) s with
  | Some d => (nlocal d ++ ":" ++ nlocal n)%string
  | None => ""
  end.
Proof.
  induction s as [|d s IH]; intros Hd; [reflexivity|].
  unfold prefix_loop in *. cbn [fold_right find_last]. rewrite IH by (intros H; apply Hd; cbn; auto).
  destruct (find_last _ s) as [e|] eqn:E.
  - rewrite slen_zero. rewrite (proj2 (String.eqb_neq _ _) (qual_nonempty _ _)).
    destruct (String.eqb (nspace d) (nspace n)) eqn:Es; auto.
    destruct (String.eqb (nlocal d) "") eqn:El; auto.
    apply String.eqb_eq in Es, El. exfalso. apply Hd. left. destruct d; cbn in *; subst; auto.
  - cbn. destruct (String.eqb (nspace d) (nspace n)) eqn:Es; auto.
    destruct (String.eqb (nlocal d) "") eqn:El; auto.
    apply String.eqb_eq in Es, El. exfalso. apply Hd. left. destruct d; cbn in *; subst; auto.
Qed.

Lemma prefix_loop_default s n : nlocal n <> "" -> In (mkName (nspace n) "") s ->
  prefix_loop s n = nlocal n.
Proof.
  intros Hl. unfold prefix_loop. induction s as [|d s IH]; [intros []|].
  intros Hin. cbn [fold_right].
  destruct (in_dec xname_eq_dec (mkName (nspace n) "") s) as [Hs|Hs].
  - rewrite (IH Hs). rewrite slen_zero. rewrite (proj2 (String.eqb_neq _ _) Hl).
    destruct (String.eqb (nspace d) (nspace n)), (String.eqb (nlocal d) ""); auto.
  - destruct Hin as [->|]; [|tauto]. cbn. rewrite String.eqb_refl. auto.
Qed.

Lemma prefix_cases s n : nlocal n <> "" -> nspace n <> "" ->
  nspace n <> xml_uri -> nspace n <> xmlns_uri ->
  (In (mkName (nspace n) "") s /\ prefix s n = nlocal n) \/
  (~ In (mkName (nspace n) "") s /\ exists l1 p l2, s = l1 ++ mkName (nspace n) p :: l2 /\
      (forall q, ~ In (mkName (nspace n) q) l2) /\ prefix s n = (p ++ ":" ++ nlocal n)%string) \/
  ((forall p, ~ In (mkName (nspace n) p) s) /\ prefix s n = "").
Proof.
  intros Hl Hs Hx Hy. unfold prefix.
  rewrite (proj2 (String.eqb_neq _ _) Hs), (proj2 (String.eqb_neq (nspace n) xmlLangURI) Hx),
    (proj2 (String.eqb_neq (nspace n) xmlNamespaceURI) Hy).
  destruct (in_dec xname_eq_dec (mkName (nspace n) "") s) as [Hin|Hin].
  - left. split; auto. apply prefix_loop_default; auto.
  - right. rewrite prefix_loop_nodefault by auto.
    destruct (find_last _ s) as [d|] eqn:E.
    + left. split; auto. apply find_last_some in E as (l1 & l2 & -> & Hd & Hn).
      apply String.eqb_eq in Hd. exists l1, (nlocal d), l2. split; [destruct d; cbn in *; subst; auto|].
      split; auto. intros q Hq. apply Hn in Hq. cbn in Hq. rewrite String.eqb_refl in Hq; discriminate.
    + right. split; auto. intros p Hp. apply find_last_none with (x := mkName (nspace n) p) in E; auto.
      cbn in E. rewrite String.eqb_refl in E; discriminate.
Qed.

Lemma no_shadowing_binds s u p : no_shadowing s -> In (mkName u p) s -> binds s p u.
Proof.
  intros Hn Hin. apply in_split in Hin as (l1 & l2 & ->). exists l1, l2. split; auto.
  intros u' Hu. unfold no_shadowing in Hn. rewrite map_app in Hn. cbn in Hn.
  apply NoDup_remove_2 in Hn. apply Hn. apply in_or_app. right.
  apply in_map_iff. exists (mkName u' p); auto.
Qed.

Lemma resolve_prefix s n : no_shadowing s -> prefixes_ok s ->
  nlocal n <> "" -> s_in ":"%char (nlocal n) = false ->
  (exists p, In (mkName (nspace n) p) s) -> nspace n <> "" ->
  nspace n <> xml_uri -> nspace n <> xmlns_uri ->
  resolve_ns s (prefix s n) = (n, true).
Proof.
  intros Hns Hpo Hl Hc [p0 Hp0] Hs Hx Hy.
  destruct (prefix_cases s n Hl Hs Hx Hy) as [[Hin ->]|[(Hnin & l1 & p & l2 & Es & Hn & ->)|[Hnone _]]].
  - eapply resolve_ns_true; [right; eauto|]. split; auto. right; right. split.
    + intros [|]; discriminate.
    + apply no_shadowing_binds; auto.
  - assert (Hin : In (mkName (nspace n) p) s) by (rewrite Es; apply in_or_app; cbn; auto).
    destruct (Hpo _ Hin) as [Hp1 Hp2]. cbn in Hp1, Hp2.
    eapply resolve_ns_true; [left; eauto|]. split; auto. right; right. split; auto.
    apply no_shadowing_binds; auto.
  - exfalso. eapply Hnone; eauto.
Qed.

(* ---- JoinScope ---- *)
Lemma join_scope_law outer inner q :
  (forall n, resolve_ns inner q = (n, true) -> resolve_ns (join_scope outer inner) q = (n, true)) /\
  (forall n, resolve_ns inner q = (n, false) -> resolve_ns (join_scope outer inner) q = resolve_ns outer q).
Proof.
  unfold resolve_ns, join_scope. destruct (split_qname q) as [p l].
  destruct (String.eqb p "xml"); [split; intros; [auto|discriminate]|].
  destruct (String.eqb p "xmlns"); [split; intros; [auto|discriminate]|].
  rewrite find_last_app. destruct (find_last _ inner); split; intros n H; auto; discriminate.
Qed.

(* ---- refutations of the unconditional documentation of Prefix ---- *)
Lemma prefix_inverse_shadowed :
  exists s n, (exists p, In (mkName (nspace n) p) s) /\ prefixes_ok s /\ nlocal n <> "" /\
    nspace n <> "" /\ resolve s (prefix s n) <> n.
Proof.
  exists [mkName "urn:1" "a"; mkName "urn:2" "a"], (mkName "urn:1" "x").
  split; [exists "a"; cbn; auto|]. split.
  - intros d [<-|[<-|[]]]; cbn; unfold reserved; intuition discriminate.
  - repeat split; discriminate.
Qed.

Lemma prefix_inverse_shadowed_default :
  exists s n, prefix s n = nlocal n /\ nlocal n <> "" /\ nspace n <> "" /\
    (exists p, p <> "" /\ binds s p (nspace n)) /\ resolve s (prefix s n) <> n.
Proof.
  exists [mkName "urn:1" "p"; mkName "urn:1" ""; mkName "urn:2" ""], (mkName "urn:1" "x").
  repeat split; try discriminate. exists "p". split; [discriminate|].
  exists [], [mkName "urn:1" ""; mkName "urn:2" ""]. split; auto.
  intros u [H|[H|[]]]; discriminate.
Qed.

Lemma prefix_unknown_ns :
  exists s n, (forall p, ~ In (mkName (nspace n) p) s) /\ nlocal n <> "" /\ prefix s n <> nlocal n.
Proof.
  exists [mkName "urn:1" "a"], (mkName "urn:2" "x"). repeat split; try discriminate.
  intros p [H|[]]; discriminate.
Qed.
