From Verif Require Import Base ScopeModel TreeModel TreeSpec.
From Coq Require Import Sorted.

(* induction with hypotheses for all children *)
Lemma elem_ind' (P : elem -> Prop) :
  (forall n a s c ch, (forall e, In e ch -> P e) -> P (Elem n a s c ch)) -> forall e, P e.
Proof.
  intros H. fix IH 1. intros [n a s c ch]. apply H.
  induction ch as [|x ch IHch]; intros e He; [destruct He|].
  destruct He as [<-|He]; [apply IH | apply IHch, He].
Qed.

Lemma search_at_eq fn e p :
  search_at fn e p = (if fn e then [p] else []) ++ walk_search fn p (e_children e) 0.
Proof.
  destruct e as [n a s c ch]. cbn [search_at e_children]. f_equal.
  generalize 0 as i. induction ch as [|x ch IH]; intros i; cbn; auto.
  f_equal. apply IH.
Qed.

Lemma walk_search_in fn p l : forall i q,
  In q (walk_search fn p l i) <-> exists k c, nth_error l k = Some c /\ In q (search_at fn c (p ++ [i + k])).
Proof.
  induction l as [|x l IH]; intros i q; cbn [walk_search].
  - split; [intros []|]. intros (k & c & H & _). destruct k; discriminate.
  - rewrite in_app_iff, IH. split.
    + intros [H|(k & c & Hk & H)].
      * exists 0, x. rewrite Nat.add_0_r. auto.
      * exists (S k), c. rewrite <- Nat.add_succ_comm. auto.
    + intros ([|k] & c & Hk & H); cbn in Hk.
      * injection Hk as <-. rewrite Nat.add_0_r in H. auto.
      * right. exists k, c. rewrite Nat.add_succ_comm. auto.
Qed.

Lemma search_at_in fn : forall e p q,
  In q (search_at fn e p) <-> exists r d, q = p ++ r /\ sub e r = Some d /\ fn d = true.
Proof.
  induction e as [n a s c ch IH] using elem_ind'. intros p q.
  rewrite search_at_eq, in_app_iff, walk_search_in. cbn [e_children]. split.
  - intros [H|(k & x & Hk & H)].
    + exists [], (Elem n a s c ch). rewrite app_nil_r. cbn. destruct (fn _); [|destruct H].
      destruct H as [->|[]]; auto.
    + apply (IH x (nth_error_In _ _ Hk)) in H as (r & d & -> & Hs & Hf).
      exists (k :: r), d. rewrite <- app_assoc. cbn. rewrite Hk. auto.
  - intros ([|k r] & d & -> & Hs & Hf); cbn in Hs.
    + injection Hs as <-. rewrite Hf, app_nil_r. cbn; auto.
    + destruct (nth_error ch k) as [x|] eqn:Hk; [|discriminate]. right. exists k, x. split; auto.
      apply (IH x (nth_error_In _ _ Hk)). exists r, d. rewrite <- app_assoc. auto.
Qed.

Lemma search_func_spec fn root q :
  In q (search_func fn root) <-> exists e, descendant root q e /\ fn e = true.
Proof.
  unfold search_func, descendant. rewrite walk_search_in. split.
  - intros (k & c & Hk & H). apply search_at_in in H as (r & d & -> & Hs & Hf).
    exists d. cbn. rewrite Hk. repeat split; auto. discriminate.
  - intros (e & [Hne Hs] & Hf). destruct q as [|k r]; [tauto|]. cbn in Hs.
    destruct (nth_error (e_children root) k) as [x|] eqn:Hk; [|discriminate].
    exists k, x. split; auto. apply search_at_in. exists r, e. auto.
Qed.

Lemma doc_before_app p a b : doc_before a b -> doc_before (p ++ a) (p ++ b).
Proof. induction p; cbn; auto. intros H. apply db_below; auto. Qed.

Lemma ssorted_app_gen {A} (R : A -> A -> Prop) l1 l2 :
  StronglySorted R l1 -> StronglySorted R l2 -> (forall x y, In x l1 -> In y l2 -> R x y) ->
  StronglySorted R (l1 ++ l2).
Proof.
  induction l1 as [|a l1 IH]; cbn; auto. intros H1 H2 H. inversion H1; subst. constructor; auto.
  rewrite Forall_forall in *. intros x Hx. apply in_app_iff in Hx as [Hx|Hx]; auto.
Qed.

Lemma search_at_sorted fn : forall e p, StronglySorted doc_before (search_at fn e p).
Proof.
  induction e as [n a s c ch IH] using elem_ind'. intros p. rewrite search_at_eq. cbn [e_children].
  apply ssorted_app_gen.
  - destruct (fn _); repeat constructor.
  - generalize 0 as i. induction ch as [|x ch IHch]; intros i; cbn [walk_search]; [constructor|].
    apply ssorted_app_gen.
    + apply IH; cbn; auto.
    + apply IHch. intros; apply IH; cbn; auto.
    + intros q r Hq Hr. apply search_at_in in Hq as (q' & ? & -> & _).
      apply walk_search_in in Hr as (k & y & _ & Hr). apply search_at_in in Hr as (r' & ? & -> & _).
      rewrite <- !app_assoc. apply doc_before_app. cbn. constructor. lia.
  - intros q r Hq Hr. destruct (fn _); [|destruct Hq]. destruct Hq as [<-|[]].
    apply walk_search_in in Hr as (k & y & _ & Hr). apply search_at_in in Hr as (r' & ? & -> & _).
    rewrite <- (app_nil_r p) at 1. rewrite <- app_assoc. apply doc_before_app. cbn. constructor.
Qed.

Lemma search_func_sorted fn root : StronglySorted doc_before (search_func fn root).
Proof.
  pose proof (search_at_sorted fn root []) as H. rewrite search_at_eq in H.
  unfold search_func. destruct (fn root); cbn in H; auto. inversion H; auto.
Qed.

Lemma doc_before_irrefl p : ~ doc_before p p.
Proof. induction p; intros H; inversion H; subst; auto. lia. Qed.

Lemma doc_before_trans p q r : doc_before p q -> doc_before q r -> doc_before p r.
Proof.
  intros H; revert r; induction H; intros r Hr; inversion Hr; subst; try constructor; auto; lia.
Qed.

Lemma search_func_nodup fn root : NoDup (search_func fn root).
Proof.
  pose proof (search_func_sorted fn root) as H. induction H as [|a l Hs IH Hf]; constructor; auto.
  intros Hin. rewrite Forall_forall in Hf. apply Hf in Hin. eapply doc_before_irrefl; eauto.
Qed.

Lemma search_spec space local root q :
  In q (search space local root) <-> exists e, descendant root q e /\
     nlocal (e_name e) = local /\ (space = "" \/ nspace (e_name e) = space).
Proof.
  unfold search. rewrite search_func_spec.
  assert (Hb : forall e, (if negb (String.eqb local (nlocal (e_name e))) then false
    else String.eqb space "" || String.eqb space (nspace (e_name e))) = true <->
    nlocal (e_name e) = local /\ (space = "" \/ nspace (e_name e) = space)).
  { intros e. destruct (String.eqb local (nlocal (e_name e))) eqn:E; cbn.
    - apply String.eqb_eq in E. rewrite orb_true_iff, !String.eqb_eq. intuition.
    - apply String.eqb_neq in E. intuition; congruence. }
  split; intros (e & Hd & Hf); exists e; (split; [auto|apply Hb; auto]).
Qed.

Lemma flatten_spec root q : In q (flatten_el root) <-> exists e, descendant root q e.
Proof.
  unfold flatten_el. rewrite search_func_spec. split; intros (e & H); exists e; tauto.
Qed.

(* elements found = elements at the found paths *)
Lemma search_elems_eq fn e :
  search_elems fn e = (if fn e then [e] else []) ++ flat_map (search_elems fn) (e_children e).
Proof.
  destruct e as [n a s c ch]. cbn [search_elems e_children]. f_equal.
Qed.

Lemma search_elems_in fn : forall e d,
  In d (search_elems fn e) <-> exists r, sub e r = Some d /\ fn d = true.
Proof.
  induction e as [n a s c ch IH] using elem_ind'. intros d.
  rewrite search_elems_eq, in_app_iff, in_flat_map. cbn [e_children]. split.
  - intros [H|(x & Hx & H)].
    + exists []. destruct (fn _) eqn:E; [|destruct H]. destruct H as [<-|[]]. auto.
    + apply (IH x Hx) in H as (r & Hs & Hf). apply In_nth_error in Hx as [k Hk].
      exists (k :: r). cbn. rewrite Hk. auto.
  - intros ([|k r] & Hs & Hf); cbn in Hs.
    + injection Hs as <-. rewrite Hf. cbn; auto.
    + destruct (nth_error ch k) as [x|] eqn:Hk; [|discriminate]. right. exists x.
      split; [eapply nth_error_In; eauto|]. apply (IH x (nth_error_In _ _ Hk)). eauto.
Qed.

(* ---- attributes ---- *)
Lemma name_match_iff space local n :
  name_match space local n = true <-> nlocal n = local /\ (space = "" \/ nspace n = space).
Proof.
  unfold name_match. destruct (String.eqb (nlocal n) local) eqn:E; cbn.
  - apply String.eqb_eq in E. rewrite orb_true_iff, !String.eqb_eq. intuition.
  - apply String.eqb_neq in E. intuition; congruence.
Qed.

Lemma attr_get_set l space local v : attr_get (attr_set l space local v) space local = v.
Proof.
  induction l as [|a l IH]; cbn [attr_set attr_get].
  - cbn. unfold name_match. cbn. rewrite String.eqb_refl. cbn. rewrite String.eqb_refl, orb_true_r; auto.
  - destruct (name_match space local (aname a)) eqn:E; cbn [attr_get]; [cbn; rewrite E; auto|].
    rewrite E. auto.
Qed.

(* SetAttr rewrites the first match in place, or appends *)
Lemma attr_set_shape l space local v :
  (exists l1 a l2, l = l1 ++ a :: l2 /\ name_match space local (aname a) = true /\
     (forall b, In b l1 -> name_match space local (aname b) = false) /\
     attr_set l space local v = l1 ++ mkAttr (aname a) v :: l2) \/
  ((forall b, In b l -> name_match space local (aname b) = false) /\
   attr_set l space local v = l ++ [mkAttr (mkName space local) v]).
Proof.
  induction l as [|a l IH]; cbn [attr_set].
  - right. split; auto. intros ? [].
  - destruct (name_match space local (aname a)) eqn:E.
    + left. exists [], a, l. repeat split; auto. intros ? [].
    + destruct IH as [(l1 & b & l2 & -> & Hb & Hn & ->)|[Hn ->]].
      * left. exists (a :: l1), b, l2. repeat split; auto. intros c [<-|Hc]; auto.
      * right. split; auto. intros b [<-|Hb]; auto.
Qed.

Lemma attr_set_other l space local v s' l' :
  (forall n, name_match space local n = true -> name_match s' l' n = true -> False) ->
  attr_get (attr_set l space local v) s' l' = attr_get l s' l'.
Proof.
  intros H. induction l as [|a l IH]; cbn [attr_set].
  - cbn [attr_get aname]. destruct (name_match s' l' (mkName space local)) eqn:E; auto.
    exfalso. apply (H (mkName space local)); auto. apply name_match_iff; cbn; auto.
  - destruct (name_match space local (aname a)) eqn:E; cbn [attr_get aname].
    + destruct (name_match s' l' (aname a)) eqn:E'; auto. exfalso; eauto.
    + rewrite IH. auto.
Qed.

Lemma attr_get_spec l space local :
  (exists l1 a l2, l = l1 ++ a :: l2 /\ name_match space local (aname a) = true /\
     (forall b, In b l1 -> name_match space local (aname b) = false) /\
     attr_get l space local = avalue a) \/
  ((forall b, In b l -> name_match space local (aname b) = false) /\ attr_get l space local = "").
Proof.
  induction l as [|a l IH]; cbn [attr_get].
  - right. split; auto. intros ? [].
  - destruct (name_match space local (aname a)) eqn:E.
    + left. exists [], a, l. repeat split; auto. intros ? [].
    + destruct IH as [(l1 & b & l2 & -> & Hb & Hn & ->)|[Hn ->]].
      * left. exists (a :: l1), b, l2. repeat split; auto. intros c [<-|Hc]; auto.
      * right. split; auto. intros b [<-|Hb]; auto.
Qed.

(* ---- forms used in PropsTree ---- *)
Definition matches (space local : string) (n : xname) : Prop :=
  nlocal n = local /\ (space = "" \/ nspace n = space).

Lemma get_spec e space local :
  (exists l1 a l2, e_attrs e = l1 ++ a :: l2 /\ matches space local (aname a) /\
     (forall b, In b l1 -> ~ matches space local (aname b)) /\ attr e space local = avalue a) \/
  ((forall b, In b (e_attrs e) -> ~ matches space local (aname b)) /\ attr e space local = "").
Proof.
  unfold attr, matches.
  destruct (attr_get_spec (e_attrs e) space local) as [(l1 & a & l2 & H1 & H2 & H3 & H4)|[H1 H2]].
  - left. exists l1, a, l2. apply name_match_iff in H2. repeat split; try tauto.
    intros b Hb Hm. apply name_match_iff in Hm. rewrite H3 in Hm; auto; discriminate.
  - right. split; auto. intros b Hb Hm. apply name_match_iff in Hm. rewrite H1 in Hm; auto; discriminate.
Qed.

Lemma set_spec e space local v :
  let e' := set_attr e space local v in
  e_name e' = e_name e /\ e_scope e' = e_scope e /\ e_content e' = e_content e /\
  e_children e' = e_children e /\ attr e' space local = v /\
  ((exists l1 a l2, e_attrs e = l1 ++ a :: l2 /\ matches space local (aname a) /\
      (forall b, In b l1 -> ~ matches space local (aname b)) /\
      e_attrs e' = l1 ++ mkAttr (aname a) v :: l2) \/
   ((forall b, In b (e_attrs e) -> ~ matches space local (aname b)) /\
      e_attrs e' = e_attrs e ++ [mkAttr (mkName space local) v])).
Proof.
  cbv zeta. destruct e as [n a s c ch]. unfold set_attr, with_attrs, attr, matches.
  cbn [e_name e_attrs e_scope e_content e_children]. repeat split; auto.
  - apply attr_get_set.
  - destruct (attr_set_shape a space local v) as [(l1 & x & l2 & H1 & H2 & H3 & H4)|[H1 H2]].
    + left. exists l1, x, l2. apply name_match_iff in H2. repeat split; try tauto.
      intros b Hb Hm. apply name_match_iff in Hm. rewrite H3 in Hm; auto; discriminate.
    + right. split; auto. intros b Hb Hm. apply name_match_iff in Hm. rewrite H1 in Hm; auto; discriminate.
Qed.

Lemma set_other e space local v s' l' :
  (l' <> local \/ (space <> "" /\ s' <> "" /\ s' <> space)) ->
  attr (set_attr e space local v) s' l' = attr e s' l'.
Proof.
  intros H. destruct e as [n a s c ch]. unfold set_attr, with_attrs, attr. cbn.
  apply attr_set_other. intros m H1 H2. apply name_match_iff in H1, H2.
  destruct H1 as [H1 H1'], H2 as [H2 H2'].
  destruct H as [H|(Ha & Hb & Hc)]; [congruence|]. destruct H1', H2'; congruence.
Qed.
