(* Concrete schemas with references; deciding the conditions on references. *)
From Verif Require Import Base GraphModel ScopeModel ScopeSpec ScopeProofs TreeModel TreeSpec TreeProofs BuiltinModel XsdModel NormModel NormMem NormOps NormPath NormSpec NormBuild NormExamples NormUnpack NormUnpackAll NormRefSpec NormRefAttr NormIndex NormRefs NormFlatten NormCycle NormRecursive.
Local Open Scope string_scope.

(* ---------- one reference ---------- *)
Definition lookup (n : xname) (l : list xattr) : option string := option_map avalue (find (fun a => xname_eqb (aname a) n) l).
Lemma lookup_app n l l' : lookup n (l ++ l') = match lookup n l with Some v => Some v | None => lookup n l' end.
Proof. unfold lookup. induction l as [|a l IH]; cbn [app find]; auto. destruct (xname_eqb (aname a) n); auto. Qed.
Lemma lookup_none n l : lookup n l = None <-> ~ In n (map aname l).
Proof.
  unfold lookup. induction l as [|a l IH]; cbn [find map In]; [tauto|]. destruct (xname_eqb (aname a) n) eqn:E; cbn [option_map].
  - apply xname_eqb_eq in E. split; [discriminate|]. intros H. exfalso. apply H. auto.
  - apply xname_eqb_neq in E. rewrite IH. tauto.
Qed.
Lemma lookup_overriding n r : lookup n (overriding r) = if xname_eqb n the_ref then None else lookup n (e_attrs r).
Proof.
  unfold overriding, lookup. induction (e_attrs r) as [|a l IH]; cbn [filter find]; [destruct (xname_eqb n the_ref); reflexivity|].
  destruct (xname_eqb (aname a) the_ref) eqn:E; cbn [negb find].
  - rewrite IH. apply xname_eqb_eq in E. rewrite E. destruct (xname_eqb n the_ref) eqn:E2; auto. assert (X : xname_eqb the_ref n = false) by (apply xname_eqb_neq; apply xname_eqb_neq in E2; congruence). rewrite X. reflexivity.
  - destruct (xname_eqb (aname a) n) eqn:E2; [|exact IH]. apply xname_eqb_eq in E2. rewrite E2 in E. rewrite E. reflexivity.
Qed.
Lemma lookup_defined n r d : lookup n (defined r d) = option_map (fun v => if xname_eqb n (mkName "" "type") then prefix (e_scope r) (resolve (e_scope d) v) else v) (lookup n (e_attrs d)).
Proof.
  unfold defined, lookup. induction (e_attrs d) as [|[nm v] l IH]; cbn [map find]; auto. unfold reworded at 1 2. cbn [aname avalue]. destruct (xname_eqb nm (mkName "" "type")) eqn:E; cbn [aname];
    (destruct (xname_eqb nm n) eqn:E2; [|exact IH]); apply xname_eqb_eq in E2; subst nm; cbn [option_map]; rewrite E; reflexivity.
Qed.
(* which value each attribute has *)
Lemma merged_lookup r d n : lookup n (merged_attrs r d) =
  match (if xname_eqb n the_ref then None else lookup n (e_attrs r)) with
  | Some v => Some v
  | None => option_map (fun v => if xname_eqb n (mkName "" "type") then prefix (e_scope r) (resolve (e_scope d) v) else v) (lookup n (e_attrs d))
  end.
Proof.
  rewrite <- lookup_overriding, <- lookup_defined. unfold merged_attrs. rewrite lookup_app.
  assert (A : lookup n (map (fun a => match find (fun b => xname_eqb (aname b) (aname a)) (overriding r) with Some b => b | None => a end) (defined r d)) =
    match lookup n (defined r d) with None => None | Some v => Some (match lookup n (overriding r) with Some w => w | None => v end) end).
  { induction (defined r d) as [|a l IH]; auto. unfold lookup in *. cbn [map find]. destruct (find (fun b => xname_eqb (aname b) (aname a)) (overriding r)) as [b|] eqn:F.
    - apply find_some in F as F'. destruct F' as (_ & F'). apply xname_eqb_eq in F'. rewrite F'. destruct (xname_eqb (aname a) n) eqn:E2; [|exact IH]. apply xname_eqb_eq in E2. rewrite E2 in F. cbn [option_map]. rewrite F. reflexivity.
    - destruct (xname_eqb (aname a) n) eqn:E2; [|exact IH]. apply xname_eqb_eq in E2. rewrite E2 in F. cbn [option_map]. rewrite F. reflexivity. }
  rewrite A. destruct (lookup n (defined r d)) as [v|] eqn:D; [destruct (lookup n (overriding r)); auto|].
  apply lookup_none in D. clear A. unfold lookup. induction (overriding r) as [|b l IH]; auto. cbn [filter find]. destruct (named_in (defined r d) (aname b)) eqn:Nm; cbn [negb find].
  - destruct (xname_eqb (aname b) n) eqn:E2; [|exact IH]. exfalso. apply xname_eqb_eq in E2. apply D. apply named_in_iff in Nm. rewrite <- E2. exact Nm.
  - destruct (xname_eqb (aname b) n) eqn:E2; [reflexivity|exact IH].
Qed.
Lemma deref_merged grow agrow h x y r d : rep h r x -> rep h d y -> clear_names r d ->
  let (H, z) := deref_node grow agrow h x y in rep H (merged r d) z /\ forall k w, rep h k w -> rep H k w.
Proof.
  intros Rr Rd C. unfold deref_node, alloc, alloc_ats.
  pose proof Rr as R'. apply rep_eq in R'. destruct R' as (R1 & R2 & R3 & Ra & Rk & _). pose proof Rd as D'. apply rep_eq in D'. destruct D' as (D1 & D2 & D3 & Da & Dk & Db).
  set (ks := kids h y). set (A := (ks ++ repeat zero_node _)%list). set (H1 := (h ++ [Els A])%list).
  assert (Old : forall a c, nth_error h a = Some c -> nth_error H1 a = Some c) by (intros a c E; unfold H1; rewrite nth_error_app1; auto; apply nth_error_Some; congruence).
  assert (Ea : n_attrs H1 x = e_attrs r) by (apply attrs_ok_eq; destruct Ra as (l & X & Y); exists l; auto). assert (Ed : n_attrs H1 y = e_attrs d) by (apply attrs_ok_eq; destruct Da as (l & X & Y); exists l; auto).
  rewrite Ea, Ed, R2, D2, D1, D3, (override_merged r d C). set (Q := (merged_attrs r d ++ repeat zero_attr _)%list). set (H2 := (H1 ++ [Ats Q])%list).
  assert (Old2 : forall a, a < List.length h -> nth_error H2 a = nth_error h a) by (intros a Ha; unfold H2, H1; rewrite !nth_error_app1; auto; rewrite app_length; lia).
  assert (Keep : forall k w, rep h k w -> rep H2 k w). { intros k w Rw. apply (rep_frame k h H2 w Rw). intros a Ha. apply Old2. eapply foot_bound; eauto. }
  split; auto. apply rep_eq. cbn [n_name n_scope n_content n_at n_alen n_arr n_len merged e_name e_scope e_content e_attrs e_children].
  assert (Lk : List.length ks = List.length (e_children d)) by (symmetry; eapply Forall2_len; eauto).
  assert (LH1 : List.length H1 = S (List.length h)) by (unfold H1; rewrite app_length; cbn [List.length]; lia).
  assert (EA : nth_error H2 (List.length h) = Some (Els A)) by (unfold H2; rewrite nth_error_app1 by lia; unfold H1; rewrite nth_error_app2, Nat.sub_diag by lia; reflexivity).
  split; auto. split; [destruct ks, (e_children d); try discriminate Lk; reflexivity|]. split; auto. split; [|split].
  - exists Q. cbn [n_at n_alen]. split; [unfold H2; rewrite nth_error_app2, Nat.sub_diag by lia; reflexivity|]. unfold Q. rewrite app_length, firstn_app, Nat.sub_diag, firstn_O, app_nil_r, firstn_all. split; auto. lia.
  - exists A. cbn [n_arr n_len]. split; auto. unfold A. rewrite app_length. lia.
  - unfold kids, cells. cbn [n_arr n_len]. rewrite EA. unfold A. rewrite firstn_app, Nat.sub_diag, firstn_O, app_nil_r, firstn_all. unfold ks. clearbody H2. clear -Db Keep. induction Db; constructor; auto.
Qed.

(* ---------- deciding ---------- *)
Definition okey_eqb (a : option (xname * xname)) (k : xname * xname) : bool := match a with Some k' => key_eqb k' k | None => false end.
Fixpoint last_from (k : xname * xname) (l : list (option (xname * xname) * elem)) (i : nat) : option (nat * elem) :=
  match l with
  | [] => None
  | (ke, d) :: l' => match last_from k l' (S i) with Some r => Some r | None => if okey_eqb ke k then Some (i, d) else None end
  end.
Lemma okey_eqb_eq a k : okey_eqb a k = true <-> a = Some k.
Proof. destruct a as [k'|]; cbn [okey_eqb]; [rewrite key_eqb_eq|]; split; intros H; try discriminate; congruence. Qed.
Lemma last_from_iff k : forall l i t d, last_from k l i = Some (t, d) <-> (i <= t /\ nth_error l (t - i) = Some (Some k, d) /\ forall t' d', t < t' -> nth_error l (t' - i) <> Some (Some k, d')).
Proof.
  assert (Shift : forall (A : Type) (a : A) l t i, i < t -> nth_error (a :: l) (t - i) = nth_error l (t - S i)) by (intros A a l t i H; replace (t - i) with (S (t - S i)) by lia; reflexivity).
  induction l as [|[ke0 d0] l IH]; intros i t d; cbn [last_from].
  - split; [discriminate|]. intros (_ & H & _). destruct (t - i); discriminate.
  - destruct (last_from k l (S i)) as [[t1 d1]|] eqn:E.
    + apply IH in E. destruct E as (E1 & E2 & E3). split.
      * intros X. injection X as <- <-. split; [lia|]. rewrite Shift by lia. split; auto. intros t' d' Ht. rewrite Shift by lia. apply E3. lia.
      * intros (H1 & H2 & H3). destruct (Nat.lt_trichotomy t t1) as [X|[X|X]].
        -- exfalso. apply (H3 t1 d1 X). rewrite Shift by lia. exact E2.
        -- subst. rewrite Shift in H2 by lia. congruence.
        -- exfalso. rewrite Shift in H2 by lia. exact (E3 t d X H2).
    + assert (N : forall t' d', i < t' -> nth_error l (t' - S i) <> Some (Some k, d')).
      { intros t' d' Ht X. assert (Y : exists t2 d2, t' <= t2 /\ nth_error l (t2 - S i) = Some (Some k, d2) /\ forall t3 d3, t2 < t3 -> nth_error l (t3 - S i) <> Some (Some k, d3)).
        { clear IH E. revert t' d' Ht X. assert (G : forall n t' d', List.length l - (t' - S i) <= n -> i < t' -> nth_error l (t' - S i) = Some (Some k, d') -> exists t2 d2, t' <= t2 /\ nth_error l (t2 - S i) = Some (Some k, d2) /\ forall t3 d3, t2 < t3 -> nth_error l (t3 - S i) <> Some (Some k, d3)).
          { induction n as [|n IHn]; intros t' d' Hn Ht X; [assert (t' - S i < List.length l) by (apply nth_error_Some; congruence); lia|].
            assert (L : t' - S i < List.length l) by (apply nth_error_Some; congruence).
            assert (D : (exists t3 d3, t' < t3 /\ nth_error l (t3 - S i) = Some (Some k, d3)) \/ ~ exists t3 d3, t' < t3 /\ nth_error l (t3 - S i) = Some (Some k, d3)).
            { pose (b := existsb (fun t3 => match nth_error l (t3 - S i) with Some (ke, _) => okey_eqb ke k | None => false end) (seq (S t') (List.length l))). destruct b eqn:Eb; unfold b in Eb.
              - left. apply existsb_exists in Eb. destruct Eb as (t3 & H3 & Eb). apply in_seq in H3. destruct (nth_error l (t3 - S i)) as [[ke3 d3]|] eqn:E3; [|discriminate]. apply okey_eqb_eq in Eb. subst. exists t3, d3. split; [lia|]. exact E3.
              - right. intros (t3 & d3 & H3 & E3). assert (L3 : t3 - S i < List.length l) by (apply nth_error_Some; congruence). assert (C : existsb (fun t3 => match nth_error l (t3 - S i) with Some (ke, _) => okey_eqb ke k | None => false end) (seq (S t') (List.length l)) = true); [|congruence].
                apply existsb_exists. exists t3. split; [apply in_seq; lia|]. rewrite E3. apply okey_eqb_eq. reflexivity. }
            destruct D as [(t3 & d3 & H3 & E3)|D]; [|exists t', d'; split; auto; split; auto; intros t3 d3 H3 E3; apply D; eauto].
            destruct (IHn t3 d3) as (t2 & d2 & A & B & C); auto; [assert (t3 - S i < List.length l) by (apply nth_error_Some; congruence); lia|lia|]. exists t2, d2. split; [lia|]. auto. }
          intros t' d' Ht X. eapply G; eauto. }
        destruct Y as (t2 & d2 & A & B & C). assert (Z : last_from k l (S i) = Some (t2, d2)) by (apply IH; split; [lia|]; auto). congruence. }
      destruct (okey_eqb ke0 k) eqn:K.
      * apply okey_eqb_eq in K. subst ke0. split.
        -- intros X. injection X as <- <-. split; auto. rewrite Nat.sub_diag. split; auto. intros t' d' Ht. rewrite Shift by auto. apply N. auto.
        -- intros (H1 & H2 & H3). destruct (Nat.eq_dec t i) as [->|Hn]; [rewrite Nat.sub_diag in H2; injection H2 as <-; auto|]. exfalso. rewrite Shift in H2 by lia. apply (N t d); auto. lia.
      * split; [discriminate|]. intros (H1 & H2 & H3). exfalso. destruct (Nat.eq_dec t i) as [->|Hn]; [rewrite Nat.sub_diag in H2; cbn [nth_error] in H2; assert (Kt : okey_eqb ke0 k = true) by (apply okey_eqb_eq; congruence); congruence|]. rewrite Shift in H2 by lia. apply (N t d); auto. lia.
Qed.
Definition target (es : list elem) (k : xname * xname) : option (nat * elem) := last_from k (entries es) 0.
Lemma target_iff es k t d : target es k = Some (t, d) <-> target_at es k t d.
Proof.
  unfold target. rewrite last_from_iff. unfold target_at. rewrite Nat.sub_0_r. split.
  - intros (_ & A & B). split; auto. intros t' d' H. specialize (B t' d' H). rewrite Nat.sub_0_r in B. exact B.
  - intros (A & B). split; [lia|]. split; auto. intros t' d' H. rewrite Nat.sub_0_r. auto.
Qed.
Definition has_refb (e : elem) : bool := negb (String.eqb (attr e "" "ref") "").
Lemma has_refb_iff e : has_refb e = true <-> has_ref e.
Proof. unfold has_refb, has_ref. rewrite negb_true_iff. apply String.eqb_neq. Qed.
Fixpoint numbered {A} (i : nat) (l : list A) : list (nat * A) := match l with [] => [] | a :: l' => (i, a) :: numbered (S i) l' end.
Lemma numbered_in {A} (l : list A) : forall i0 i a, nth_error l i = Some a -> In (i0 + i, a) (numbered i0 l).
Proof. induction l as [|x l IH]; intros i0 [|i] a E; cbn [nth_error numbered] in *; try discriminate; [injection E as ->; left; f_equal; lia|]. right. replace (i0 + S i) with (S i0 + i) by lia. auto. Qed.
Definition on_refs (es : list elem) (P : nat -> elem -> nat -> elem -> bool) : bool :=
  forallb (fun ie => let '(i, (_, e)) := ie in negb (has_refb e) || match target es (ref_key e) with Some (t, d) => P i e t d | None => false end) (numbered 0 (entries es)).
Lemma on_refs_sound es P : on_refs es P = true -> forall i ke e, nth_error (entries es) i = Some (ke, e) -> has_ref e -> exists t d, target_at es (ref_key e) t d /\ P i e t d = true.
Proof.
  intros H i ke e E Hr. unfold on_refs in H. rewrite forallb_forall in H. specialize (H (i, (ke, e)) (numbered_in _ 0 i _ E)). cbn beta iota in H. apply has_refb_iff in Hr. rewrite Hr in H. cbn [negb orb] in H.
  destruct (target es (ref_key e)) as [[t d]|] eqn:T; [|discriminate]. exists t, d. split; auto. apply target_iff. exact T.
Qed.
Definition timelyb (es : list elem) : bool := on_refs es (fun i e t d => negb (has_refb d) && (forallb (fun k => negb (has_refb k)) (e_children d) || Nat.leb (t + List.length (subs d)) i)).
Fixpoint nodupb {A} (eqb : A -> A -> bool) (l : list A) : bool := match l with [] => true | a :: l' => negb (existsb (eqb a) l') && nodupb eqb l' end.
Lemma nodupb_sound {A} (eqb : A -> A -> bool) (Heq : forall a b, eqb a b = true <-> a = b) l : nodupb eqb l = true -> NoDup l.
Proof.
  induction l as [|a l IH]; cbn [nodupb]; intros H; constructor; apply andb_prop in H; destruct H as (H1 & H2); auto. intros X. apply negb_true_iff in H1. assert (Y : existsb (eqb a) l = true) by (apply existsb_exists; exists a; split; auto; apply Heq; auto). congruence.
Qed.
Definition clear_namesb (r d : elem) : bool :=
  nodupb xname_eqb (map aname (e_attrs r)) && nodupb xname_eqb (map aname (e_attrs d)) &&
  forallb (fun a => forallb (fun b => negb (String.eqb (nlocal (aname b)) (nlocal (aname a)) && String.eqb (nspace (aname a)) "") || String.eqb (nspace (aname b)) "") (e_attrs r ++ e_attrs d)%list) (e_attrs r).
Definition clear_refsb (es : list elem) : bool :=
  forallb (fun ke => forallb (fun a => negb (String.eqb (nlocal (aname a)) "ref") || String.eqb (nspace (aname a)) "") (e_attrs (snd ke))) (entries es) && on_refs es (fun _ e _ d => clear_namesb e d).
Lemma timelyb_sound es : timelyb es = true -> timely es.
Proof.
  intros H i ke e t d E Hr T. destruct (on_refs_sound es _ H i ke e E Hr) as (t' & d' & T' & P). destruct (target_fun _ _ _ _ _ _ T T') as (<- & <-). apply andb_prop in P. destruct P as (P1 & P2). split.
  - intros X. apply has_refb_iff in X. rewrite X in P1. discriminate.
  - apply orb_prop in P2. destruct P2 as [P2|P2]; [left|right; apply Nat.leb_le; auto]. rewrite forallb_forall in P2. intros k Hk X. apply has_refb_iff in X. specialize (P2 k Hk). rewrite X in P2. discriminate.
Qed.
Lemma clear_namesb_sound r d : clear_namesb r d = true -> clear_names r d.
Proof.
  unfold clear_namesb. intros H. apply andb_prop in H. destruct H as (H & H3). apply andb_prop in H. destruct H as (H1 & H2). split; [apply (nodupb_sound xname_eqb); auto; apply xname_eqb_eq|]. split; [apply (nodupb_sound xname_eqb); auto; apply xname_eqb_eq|].
  intros a b Ha Hb E1 E2. rewrite forallb_forall in H3. specialize (H3 a Ha). rewrite forallb_forall in H3. specialize (H3 b Hb). rewrite (proj2 (String.eqb_eq _ _) E1), (proj2 (String.eqb_eq _ _) E2) in H3. cbn [andb negb orb] in H3. apply String.eqb_eq. exact H3.
Qed.
Lemma clear_refsb_sound es : clear_refsb es = true -> clear_refs es.
Proof.
  unfold clear_refsb. intros H. apply andb_prop in H. destruct H as (H1 & H2). split.
  - intros ke e a Hin Ha E. rewrite forallb_forall in H1. specialize (H1 _ Hin). cbn [snd] in H1. rewrite forallb_forall in H1. specialize (H1 a Ha). rewrite (proj2 (String.eqb_eq _ _) E) in H1. cbn [negb orb] in H1. apply String.eqb_eq. exact H1.
  - intros ke e t d Hin Hr T. apply In_nth_error in Hin. destruct Hin as (i & Ei). destruct (on_refs_sound es _ H2 i ke e Ei Hr) as (t' & d' & T' & P). destruct (target_fun _ _ _ _ _ _ T T') as (<- & <-). apply clear_namesb_sound. exact P.
Qed.
Lemma all_resolve_sound es P : on_refs es P = true -> all_resolve es.
Proof. intros H ke e Hin Hr. apply In_nth_error in Hin. destruct Hin as (i & Ei). destruct (on_refs_sound es _ H i ke e Ei Hr) as (t & d & T & _). eauto. Qed.
Definition refs_emptyb (es : list elem) : bool := forallb (fun ke => negb (has_refb (snd ke)) || match e_children (snd ke) with [] => true | _ => false end) (entries es).
Lemma refs_emptyb_sound es : refs_emptyb es = true -> refs_empty es.
Proof.
  intros H ke e Hin Hr. unfold refs_emptyb in H. rewrite forallb_forall in H. specialize (H _ Hin). cbn [snd] in H. apply has_refb_iff in Hr. rewrite Hr in H. cbn [negb orb] in H. destruct (e_children e); auto. discriminate.
Qed.
(* replacing all references, on trees *)
Fixpoint resolve_el (fuel : nat) (es : list elem) (e : elem) : option elem :=
  match fuel with
  | 0 => None
  | S f => if has_refb e then match target es (ref_key e) with
                              | Some (_, d) => option_map (with_children (merged e d)) (mapo (resolve_el f es) (e_children d))
                              | None => None
                              end
           else option_map (with_children e) (mapo (resolve_el f es) (e_children e))
  end.
Lemma mapo_Forall2 {A B} (f : A -> option B) (R : A -> B -> Prop) : (forall a b, f a = Some b -> R a b) -> forall l l', mapo f l = Some l' -> Forall2 R l l'.
Proof.
  intros H. induction l as [|a l IH]; intros l' E; cbn [mapo] in E; [injection E as <-; constructor|]. destruct (f a) as [b|] eqn:Ef; [|discriminate]. destruct (mapo f l) as [r|]; [|discriminate]. injection E as <-. constructor; auto.
Qed.
Lemma resolve_el_sound es : forall f e e', resolve_el f es e = Some e' -> resolved es e e'.
Proof.
  induction f as [|f IH]; intros e e' E; cbn [resolve_el] in E; [discriminate|]. destruct (has_refb e) eqn:Hr.
  - destruct (target es (ref_key e)) as [[t d]|] eqn:T; [|discriminate]. destruct (mapo _ _) as [ks|] eqn:Em; [|discriminate]. injection E as <-. apply (resolved_ref es e t d ks); [apply has_refb_iff; auto|apply target_iff; auto|]. eapply mapo_Forall2; eauto.
  - destruct (mapo _ _) as [ks|] eqn:Em; [|discriminate]. injection E as <-. apply resolved_plain; [intros X; apply has_refb_iff in X; congruence|]. eapply mapo_Forall2; eauto.
Qed.
Definition resolve_root (fuel : nat) (es : list elem) (e : elem) : option elem := option_map (with_children e) (mapo (resolve_el fuel es) (e_children e)).
Lemma resolve_root_sound es f e e' : resolve_root f es e = Some e' -> resolved_root es e e'.
Proof. unfold resolve_root. destruct (mapo _ _) as [ks|] eqn:Em; [|discriminate]. intros E. injection E as <-. exists ks. split; auto. eapply mapo_Forall2; eauto using resolve_el_sound. Qed.
Definition groups_apartb (e : elem) : bool :=
  forallb (fun d => negb (has_groups d) || forallb (fun k => negb (has_groups k) && (negb (group_el k) || forallb (fun k' => negb (has_groups k')) (e_children k))) (e_children d)) (flat_map subs (e_children e)).
Lemma groups_apartb_sound e : groups_apartb e = true -> groups_apart e.
Proof.
  intros H q d k Hd Hg Hk. unfold groups_apartb in H. rewrite forallb_forall in H. specialize (H d (descendant_subs e q d Hd)). rewrite Hg in H. cbn [negb orb] in H. rewrite forallb_forall in H. specialize (H k Hk). apply andb_prop in H. destruct H as (H1 & H2). split; [apply negb_true_iff; auto|].
  intros G k' Hk'. rewrite G in H2. cbn [negb orb] in H2. rewrite forallb_forall in H2. apply negb_true_iff. auto.
Qed.

(* ---------- schemas ---------- *)
Definition flattened (es : list elem) : res (list (option elem)) :=
  let (h, ps) := build_roots pow2 pow2 es [] in
  match flatten_ref dbl dbl 20 ps h with Done h => Done (map (read_ptr 20 h) ps) | Fails => Fails | Runs => Runs end.
Definition id_attribute : elem := xel "attribute" [("name", "id"); ("type", "xs:ID")] [].
Definition refs_schema : elem :=
  schema_el [id_attribute;
    xel "attributeGroup" [("name", "ag")] [xel "attribute" [("ref", "a:id")] []; xel "attribute" [("name", "r"); ("type", "xs:int")] []];
    xel "group" [("name", "g")] [xel "sequence" [] [xel "element" [("name", "q"); ("type", "xs:int")] []]];
    xel "complexType" [("name", "t")] [xel "sequence" [] [xel "group" [("ref", "a:g"); ("minOccurs", "0")] []]];
    xel "complexType" [("name", "u")] [xel "attributeGroup" [("ref", "a:ag")] []; xel "attribute" [("ref", "a:id"); ("use", "required")] []]].
Definition refs_result : elem :=
  schema_el [id_attribute;
    xel "attributeGroup" [("name", "ag")] [id_attribute; xel "attribute" [("name", "r"); ("type", "xs:int")] []];
    xel "group" [("name", "g")] [xel "sequence" [] [xel "element" [("name", "q"); ("type", "xs:int")] []]];
    xel "complexType" [("name", "t")] [xel "sequence" [] [xel "sequence" [] [xel "element" [("name", "q"); ("type", "xs:int")] []]]];
    xel "complexType" [("name", "u")] [id_attribute; xel "attribute" [("name", "r"); ("type", "xs:int")] []; xel "attribute" [("name", "id"); ("type", "xs:ID"); ("use", "required")] []]].
Lemma refs_schema_meets : timely [refs_schema] /\ clear_refs [refs_schema] /\ all_resolve [refs_schema] /\
  exists e', resolved_root [refs_schema] refs_schema e' /\ height e' <= 20 /\ groups_apart e'.
Proof.
  split; [apply timelyb_sound; vm_compute; reflexivity|]. split; [apply clear_refsb_sound; vm_compute; reflexivity|]. split; [apply (all_resolve_sound _ (fun _ _ _ _ => true)); vm_compute; reflexivity|].
  destruct (resolve_root 20 [refs_schema] refs_schema) as [e'|] eqn:E; [|vm_compute in E; discriminate]. exists e'. split; [eapply resolve_root_sound; eauto|]. vm_compute in E. injection E as <-. split; [apply Nat.leb_le; vm_compute; reflexivity|apply groups_apartb_sound; vm_compute; reflexivity].
Qed.
(* a definition whose child is a reference, after the reference to it *)
Definition late_schema : elem :=
  schema_el [xel "complexType" [("name", "u")] [xel "attributeGroup" [("ref", "a:ag")] []];
    xel "attributeGroup" [("name", "ag")] [xel "attribute" [("ref", "a:id")] []]; id_attribute].
Lemma late_left : all_resolve [late_schema] /\ exists e' q d, normalized [late_schema] = Done [Some e'] /\ descendant e' q d /\ e_name d = xs "attribute" /\ has_ref d.
Proof.
  split; [apply (all_resolve_sound _ (fun _ _ _ _ => true)); vm_compute; reflexivity|].
  destruct (normalized [late_schema]) as [l| |] eqn:E; [|vm_compute in E; discriminate|vm_compute in E; discriminate]. vm_compute in E. injection E as <-.
  eexists _, [0; 0; 0; 0], _. split; [reflexivity|]. split; [split; [discriminate|reflexivity]|]. split; [reflexivity|discriminate].
Qed.
(* a group that contains itself: a list of nested choices *)
Definition recursive_schema : elem :=
  schema_el [xel "group" [("name", "g")] [xel "choice" [] [xel "element" [("name", "leaf"); ("type", "xs:int")] []; xel "group" [("ref", "a:g")] []]];
    xel "complexType" [("name", "t")] [xel "group" [("ref", "a:g")] []]].
Lemma recursive_schema_meets : all_resolve [recursive_schema] /\ refs_empty [recursive_schema] /\
  exists ke e t d, In (ke, e) (entries [recursive_schema]) /\ has_ref e /\ target_at [recursive_schema] (ref_key e) t d /\ sub d [0; 1] = Some e.
Proof.
  split; [apply (all_resolve_sound _ (fun _ _ _ _ => true)); vm_compute; reflexivity|]. split; [apply refs_emptyb_sound; vm_compute; reflexivity|].
  exists None, (xel "group" [("ref", "a:g")] []). destruct (target [recursive_schema] (ref_key (xel "group" [("ref", "a:g")] []))) as [[t d]|] eqn:E; [|vm_compute in E; discriminate]. exists t, d.
  split; [right; right; right; left; reflexivity|]. split; [discriminate|]. split; [apply target_iff; exact E|]. vm_compute in E. injection E as <- <-. reflexivity.
Qed.
Lemma unknown_schema : normalized [schema_el [xel "complexType" [("name", "t")] [xel "attribute" [("ref", "a:id")] []]]] = Fails.
Proof. vm_compute. reflexivity. Qed.
(* the reference's default type takes the place of the definition's type *)
Lemma type_lost : exists e e' q d d', normalized [e] = Done [Some e'] /\ descendant e [0] d /\ attr d "" "name" = "id" /\ resolve (e_scope d) (attr d "" "type") = xs "ID" /\
  descendant e' q d' /\ attr d' "" "name" = "id" /\ attr d' "" "use" = "required" /\ resolve (e_scope d') (attr d' "" "type") = xs "anySimpleType".
Proof.
  exists (schema_el [id_attribute; xel "complexType" [("name", "t")] [xel "attribute" [("ref", "a:id"); ("use", "required")] []]]). eexists. exists [1; 0; 0; 0]. eexists. eexists.
  split; [vm_compute; reflexivity|]. split; [split; [discriminate|reflexivity]|]. split; [reflexivity|]. split; [vm_compute; reflexivity|]. split; [split; [discriminate|reflexivity]|]. repeat split; vm_compute; reflexivity.
Qed.
(* an attribute in another namespace is overwritten *)
Lemma foreign_overwritten : exists e e' q d d', flattened [e] = Done [Some e'] /\ descendant e [0] d /\ lookup (mkName "urn:b" "note") (e_attrs d) = Some "old" /\
  descendant e' q d' /\ attr d' "" "name" = "id" /\ attr d' "" "use" = "required" /\ lookup (mkName "urn:b" "note") (e_attrs d') = Some "new" /\ lookup (mkName "" "note") (e_attrs d') = None.
Proof.
  exists (schema_el [Elem (xs "attribute") [mkAttr (mkName "" "name") "id"; mkAttr (mkName "urn:b" "note") "old"] xsd_scope "" []; xel "complexType" [("name", "t")] [xel "attribute" [("ref", "a:id"); ("use", "required"); ("note", "new")] []]]).
  eexists. exists [1; 0]. eexists. eexists. split; [vm_compute; reflexivity|]. split; [split; [discriminate|reflexivity]|]. split; [vm_compute; reflexivity|]. split; [split; [discriminate|reflexivity]|]. repeat split; vm_compute; reflexivity.
Qed.
(* the definition's type has no name where the reference stands *)
Lemma type_unnamed : exists f g f' g' d d', flattened [f; g] = Done [Some f'; Some g'] /\ descendant f [0] d /\ attr d "" "name" = "id" /\ resolve (e_scope d) (attr d "" "type") = mkName "urn:b" "code" /\
  descendant g' [0; 0] d' /\ attr d' "" "name" = "id" /\ lookup (mkName "" "type") (e_attrs d') = Some "".
Proof.
  exists (Elem (xs "schema") [mkAttr (mkName "" "targetNamespace") "urn:a"] (mkName "urn:b" "b" :: xsd_scope) "" [Elem (xs "attribute") [mkAttr (mkName "" "name") "id"; mkAttr (mkName "" "type") "b:code"] (mkName "urn:b" "b" :: xsd_scope) "" []]).
  exists (schema_el [xel "complexType" [("name", "t")] [xel "attribute" [("ref", "a:id")] []]]). eexists. eexists. eexists. eexists.
  split; [vm_compute; reflexivity|]. split; [split; [discriminate|reflexivity]|]. split; [reflexivity|]. split; [vm_compute; reflexivity|]. split; [split; [discriminate|reflexivity]|]. repeat split; vm_compute; reflexivity.
Qed.

(* ---------- groups ---------- *)
Definition unpacked (es : list elem) : res (list (option elem)) := passed (unpack_groups dbl 20) es.
Definition groups_schema : elem :=
  schema_el [xel "complexType" [("name", "t")] [xel "sequence" [] [xel "element" [("name", "a")] []; xel "group" [("name", "g")] [xel "element" [("name", "b")] []; xel "choice" [] []]; xel "element" [("name", "c")] []]];
    xel "complexType" [("name", "u")] [xel "attributeGroup" [("name", "ag")] [xel "attribute" [("name", "d")] []]; xel "attribute" [("name", "e")] []]].
Definition groups_result : elem :=
  schema_el [xel "complexType" [("name", "t")] [xel "sequence" [] [xel "element" [("name", "a")] []; xel "element" [("name", "b")] []; xel "choice" [] []; xel "element" [("name", "c")] []]];
    xel "complexType" [("name", "u")] [xel "attribute" [("name", "d")] []; xel "attribute" [("name", "e")] []]].
Lemma groups_schema_meets : groups_apart groups_schema /\ below unpack_el groups_schema = groups_result /\ unpacked [groups_schema] = Done [Some groups_result].
Proof. split; [apply groups_apartb_sound; vm_compute; reflexivity|]. split; vm_compute; reflexivity. Qed.
(* a group next to an attribute group, as in every type that uses both *)
Definition both_schema : elem :=
  schema_el [xel "group" [("name", "g")] [xel "sequence" [] [xel "element" [("name", "q"); ("type", "xs:int")] []]];
    xel "attributeGroup" [("name", "ag")] [xel "attribute" [("name", "r"); ("type", "xs:int")] []];
    xel "complexType" [("name", "t")] [xel "sequence" [] [xel "group" [("ref", "a:g")] []]; xel "attributeGroup" [("ref", "a:ag")] []]].
Lemma both_left : exists e' q d, normalized [both_schema] = Done [Some e'] /\ descendant e' q d /\ e_name d = xs "sequence" /\ has_groups d = true.
Proof. eexists. exists [2; 0; 0; 0]. eexists. split; [vm_compute; reflexivity|]. split; [split; [discriminate|reflexivity]|]. split; reflexivity. Qed.
(* a group used in another group *)
Definition inner_schema : elem :=
  schema_el [xel "attributeGroup" [("name", "ah")] [xel "attribute" [("name", "r"); ("type", "xs:int")] []];
    xel "attributeGroup" [("name", "ag")] [xel "attributeGroup" [("ref", "a:ah")] []];
    xel "complexType" [("name", "t")] [xel "attributeGroup" [("ref", "a:ag")] []]].
Lemma inner_left : timely [inner_schema] /\ exists e' q d, normalized [inner_schema] = Done [Some e'] /\ descendant e' q d /\ e_name d = xs "restriction" /\ has_groups d = true.
Proof. split; [apply timelyb_sound; vm_compute; reflexivity|]. eexists. exists [2; 0; 0]. eexists. split; [vm_compute; reflexivity|]. split; [split; [discriminate|reflexivity]|]. split; reflexivity. Qed.
