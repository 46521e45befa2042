(* Naming anonymous types after their elements: what the tree function achieves. *)
From Verif Require Import Base ScopeModel TreeModel TreeSpec TreeProofs BuiltinModel XsdModel XsdProofs NormModel NormSpec NormOps NormHoistSpec NormHoistMem NormHoist NormAnonSpec NormAnonProofs.
Local Open Scope string_scope.

Lemma Forall2_impl {A B} (P Q : A -> B -> Prop) l m : (forall x y, P x y -> Q x y) -> Forall2 P l m -> Forall2 Q l m.
Proof. intros H F. induction F; constructor; auto. Qed.
Lemma name_in_spec x l : name_in x l = true <-> In x l.
Proof. unfold name_in. rewrite existsb_exists. split; [intros (y & H & E); apply xname_eqb_eq in E; subst; auto|intros H; exists x; split; [auto|apply xname_eqb_eq; auto]]. Qed.
Lemma everywhere_mono (P Q : elem -> Prop) e : (forall d, P d -> Q d) -> everywhere P e -> everywhere Q e.
Proof. intros H E q d Hq. apply H. eapply E; eauto. Qed.
Lemma copies_not_type d : copies d = true -> (e_name d = xs "element" \/ e_name d = xs "attribute") /\ attr d "" "name" <> "" /\ has_anon_el d = true /\ type_el d = false.
Proof.
  unfold copies. intros H. apply andb_true_iff in H. destruct H as [H H3]. apply andb_true_iff in H. destruct H as [H1 H2]. apply negb_true_iff, String.eqb_neq in H2.
  assert (N : e_name d = xs "element" \/ e_name d = xs "attribute") by (apply orb_true_iff in H1; destruct H1 as [H1|H1]; apply xname_eqb_eq in H1; auto).
  split; [exact N|]. split; [auto|]. split; [auto|]. unfold type_el. destruct N as [-> | ->]; reflexivity.
Qed.

Section Copy.
  Variable tns : string.
  Notation hoist_el := (hoist_el (list xname) copies (copy_dec tns)).
  Notation hoist_list := (hoist_list (list xname) copies (copy_dec tns)).
  Notation fulln := (full_name tns).
  Definition settled (U : list xname) (d : elem) : Prop := copies d = true -> In (fulln d) U.
  Definition after (d0 : list elem) (x : xname) (t : elem) : Prop := type_el t = true /\ exists d, In d d0 /\ x = fulln d /\ attr t "" "name" = attr d "" "name".
  Record ledger (used used' : list xname) (es es' ts : list elem) (l : list xname) : Prop := mkLedger {
    l_used : used' = (rev l ++ used)%list;
    l_after : Forall2 (after (flat_map (searched copies) es)) l ts;
    l_nodup : NoDup l;
    l_fresh : forall x, In x l -> ~ In x used;
    l_settled : forall U, incl used' U -> Forall (everywhere (settled U)) (es' ++ ts);
    l_anon : map anon_el es' = map anon_el es;
    l_name : map e_name es' = map e_name es;
    l_refs : forall x, In x l -> exists k q d, In k (es' ++ ts)%list /\ sub k q = Some d /\ typed_as tns x d }.

  Lemma ledger_app used u1 u2 es1 es1' ts1 l1 es2 es2' ts2 l2 : ledger used u1 es1 es1' ts1 l1 -> ledger u1 u2 es2 es2' ts2 l2 ->
    ledger used u2 (es1 ++ es2) (es1' ++ es2') (ts1 ++ ts2) (l1 ++ l2).
  Proof.
    intros [A1 A2 A3 A4 A5 A6 A7 A8] [B1 B2 B3 B4 B5 B6 B7 B8]. constructor.
    - rewrite B1, A1, rev_app_distr, app_assoc. reflexivity.
    - rewrite flat_map_app. apply Forall2_app; (eapply Forall2_impl; [|eassumption]); intros x t (H & d & H1 & H2); split; auto; exists d; rewrite in_app_iff; auto.
    - apply NormOps.nodup_app; auto. intros x H1 H2. apply (B4 x H2). rewrite A1. apply in_or_app. left. apply in_rev in H1. exact H1.
    - intros x H. apply in_app_or in H. destruct H as [H|H]; [auto|]. intros Hu. apply (B4 x H). rewrite A1. apply in_or_app. auto.
    - intros U HU. specialize (B5 U HU). assert (H1 : incl u1 U). { intros x Hx. apply HU. rewrite B1. apply in_or_app. auto. } specialize (A5 U H1).
      apply Forall_app in A5, B5. rewrite !Forall_app. tauto.
    - rewrite !map_app, A6, B6. reflexivity.
    - rewrite !map_app, A7, B7. reflexivity.
    - intros x H. apply in_app_or in H. destruct H as [H|H]; [destruct (A8 x H) as (k & q & d & K1 & K2)|destruct (B8 x H) as (k & q & d & K1 & K2)]; exists k, q, d; (split; [|auto]); rewrite !in_app_iff in *; tauto.
  Qed.
  Lemma ledger_list ks : (forall k, In k ks -> forall u, let '(k', ts, u') := hoist_el k u in exists l, ledger u u' [k] [k'] ts l) ->
    forall u, let '(ks', ts, u') := hoist_list ks u in exists l, ledger u u' ks ks' ts l.
  Proof.
    induction ks as [|k ks IH]; intros H u; cbn [NormHoistSpec.hoist_list].
    - exists []. constructor; [reflexivity|constructor|constructor|intros x []|intros U _; constructor|reflexivity|reflexivity|intros x []].
    - pose proof (H k (or_introl eq_refl) u) as Hk. destruct (hoist_el k u) as [[k' t1] u1]. specialize (IH (fun k0 H0 => H k0 (or_intror H0)) u1). destruct (hoist_list ks u1) as [[r t2] u2].
      destruct Hk as [l1 L1], IH as [l2 L2]. exists (l1 ++ l2)%list. exact (ledger_app u u1 u2 [k] [k'] t1 l1 ks r t2 l2 L1 L2).
  Qed.

  Lemma ledger_el e : tidy copies e -> forall u, let '(e', ts, u') := hoist_el e u in exists l, ledger u u' [e] [e'] ts l.
  Proof.
    induction e as [nm a sc c ks IH] using elem_ind'. intros T u. set (e := Elem nm a sc c ks) in *.
    assert (Tk : forall k, In k ks -> tidy copies k). { intros k Hk q d Hq. apply In_nth_error in Hk. destruct Hk as [i Hi]. apply (T (i :: q)). cbn [sub e e_children]. rewrite Hi. exact Hq. }
    assert (TL := ledger_list ks (fun k Hk => IH k Hk (Tk k Hk))). clear IH. rewrite hoist_el_eq.
    assert (Se : flat_map (searched copies) [e] = ((if copies e then [e] else []) ++ flat_map (searched copies) ks)%list) by (cbn [flat_map]; rewrite app_nil_r; reflexivity).
    assert (Up : forall ks' x, (exists k q d, In k ks' /\ sub k q = Some d /\ typed_as tns x d) -> forall n' a' s' c', exists q d, sub (Elem n' a' s' c' ks') q = Some d /\ typed_as tns x d).
    { intros ks' x (k & q & d & Hk & Hq & Hd) n' a' s' c'. apply In_nth_error in Hk. destruct Hk as [j Hj]. exists (j :: q), d. split; [|auto]. cbn [sub e_children]. rewrite Hj. exact Hq. }
    (* the type stays *)
    assert (Stay : (copies e = true -> In (fulln e) u) -> let '(ks', ts, u2) := hoist_list ks u in exists l, ledger u u2 [e] [with_children e ks'] ts l).
    { intros He. specialize (TL u). destruct (hoist_list ks u) as [[ks' ts] u2]. destruct TL as [l [A1 A2 A3 A4 A5 A6 A7 A8]]. exists l.
      assert (Eh : copies (with_children e ks') = copies e).
      { unfold copies. assert (Eh : has_anon_el (with_children e ks') = has_anon_el e); [|rewrite Eh; reflexivity]. unfold has_anon_el. cbn [with_children e e_children]. revert A6. clear. revert ks. induction ks' as [|k' ks' IH]; intros [|k ks] E; try discriminate E; cbn [existsb]; auto. cbn [map] in E. injection E as -> E. rewrite (IH ks E). reflexivity. }
      constructor; auto.
      - rewrite Se. eapply Forall2_impl; [|exact A2]. intros x t (H & d & H1 & H2). split; [auto|]. exists d. rewrite in_app_iff. auto.
      - intros U HU. specialize (A5 U HU). apply Forall_app in A5. destruct A5 as [A5 A5']. constructor; [|exact A5']. apply everywhere_eq. split; [|exact A5].
        intros Hc. rewrite Eh in Hc. apply HU. rewrite A1. apply in_or_app. right. exact (He Hc).
      - intros x Hx. destruct (A8 x Hx) as (k & q & d & Hk & Hq & Hd). apply in_app_or in Hk. destruct Hk as [Hk|Hk].
        + destruct (Up ks' x (ex_intro _ k (ex_intro _ q (ex_intro _ d (conj Hk (conj Hq Hd))))) nm a sc c) as (q' & d' & H1 & H2). exists (with_children e ks'), q', d'. split; [left; auto|auto].
        + exists k, q, d. split; [right; auto|auto]. }
    cbn [e e_children]. fold e. destruct (copies e) eqn:Hc.
    2:{ specialize (Stay ltac:(discriminate)). destruct (hoist_list ks u) as [[ks' ts] u2]. exact Stay. }
    unfold copy_dec at 1. fold (fulln e). destruct (name_in (fulln e) u) eqn:Hu.
    { apply name_in_spec in Hu. specialize (Stay (fun _ => Hu)). destruct (hoist_list ks u) as [[ks' ts] u2]. exact Stay. }
    assert (Hu' : ~ In (fulln e) u) by (intros H; apply name_in_spec in H; congruence). clear Stay.
    destruct (copies_not_type e Hc) as (Ne & Nn & _ & Nt).
    assert (Ho : hit_ok copies e) by (apply (T []); [reflexivity|exact Hc]). destruct Ho as (ks1 & t & ks2 & Ec & H1 & H2 & H3 & H4 & H5).
    assert (Eks : ks = (ks1 ++ t :: ks2)%list) by exact Ec. assert (Ei : anon_index ks = List.length ks1) by (rewrite Eks; apply anon_index_app; auto). rewrite Ei. clear Ei.
    specialize (TL (fulln e :: u)). destruct (hoist_list ks (fulln e :: u)) as [[ks' ts] u2]. destruct TL as [l [A1 A2 A3 A4 A5 A6 A7 A8]].
    assert (Sp : exists ka kt kb, ks' = (ka ++ kt :: kb)%list /\ List.length ka = List.length ks1 /\ map anon_el ka = map anon_el ks1 /\ anon_el kt = anon_el t /\ map anon_el kb = map anon_el ks2 /\ e_name kt = e_name t).
    { rewrite Eks in A6, A7. clear -A6 A7. revert ks1 A6 A7. induction ks' as [|k ks' IH]; intros [|k1 ks1] E E'; cbn [map app] in E, E'; try discriminate E; injection E as E1 E2; injection E' as E1' E2'.
      - exists [], k, ks'. auto 10.
      - destruct (IH ks1 E2 E2') as (ka & kt & kb & -> & B1 & B2 & B3 & B4 & B5). exists (k :: ka), kt, kb. cbn [app List.length map]. rewrite B1, B2, E1. auto 10. }
    destruct Sp as (ka & kt & kb & -> & B1 & B2 & B3 & B4 & B5). rewrite <- B1. cbn zeta. destruct (firstn_skipn_at ka kt kb) as (-> & -> & ->). cbn [map app].
    set (tas := [("name", attr e "" "name")]). set (q0 := prefix (e_scope e) (fulln e)).
    assert (Nm : attr (set_all kt tas) "" "name" = attr e "" "name") by apply (set_all_last kt []).
    assert (Nf : forall l m, map anon_el l = map anon_el m -> Forall (fun k => anon_el k = false) m -> Forall (fun k => anon_el k = false) l).
    { clear. induction l as [|x l IH]; intros [|y m] E F; try discriminate E; constructor; cbn [map] in E; injection E as E1 E2; inversion F; subst; [congruence|eauto]. }
    assert (Na : has_anon_el (detached e "type" q0 (ka ++ kb)) = false) by (apply has_anon_in; cbn [detached e_children]; apply Forall_app; split; eauto).
    exists (fulln e :: l). constructor.
    - rewrite A1. cbn [rev]. rewrite <- app_assoc. reflexivity.
    - rewrite Se. constructor.
      + split; [unfold type_el; rewrite set_all_name, B5; unfold anon_el in H2; apply andb_true_iff in H2; exact (proj1 H2)|]. exists e. split; [left; auto|]. auto.
      + eapply Forall2_impl; [|exact A2]. intros x t0 (K & d & K1 & K2). split; [auto|]. exists d. rewrite in_app_iff. auto.
    - constructor; [|exact A3]. intros H. apply (A4 _ H). left. auto.
    - intros x [<- |Hx]; [exact Hu'|]. intros H. apply (A4 x Hx). right. auto.
    - intros U HU. specialize (A5 U HU). apply Forall_app in A5. destruct A5 as [A5 A5']. apply Forall_app in A5. destruct A5 as [C1 C2]. apply Forall_cons_iff in C2. destruct C2 as [C2 C3].
      cbn [app]. constructor; [|constructor; [|exact A5']].
      + apply everywhere_eq. cbn [detached e_children]. split; [|apply Forall_app; auto]. intros Hd. unfold copies in Hd. rewrite Na, andb_false_r in Hd. discriminate Hd.
      + apply everywhere_eq in C2. destruct C2 as [C2 C2']. apply everywhere_eq. rewrite set_all_kids. split; [|exact C2']. intros Hd. apply copies_not_type in Hd. destruct Hd as (_ & _ & _ & Hd).
        unfold type_el in Hd. rewrite set_all_name, B5 in Hd. unfold anon_el, type_el in H2. rewrite Hd in H2. discriminate H2.
    - cbn [map]. f_equal. unfold anon_el. assert (E : type_el (detached e "type" q0 (ka ++ kb)) = false) by exact Nt. rewrite E, Nt. reflexivity.
    - reflexivity.
    - intros x [<- |Hx].
      + exists (detached e "type" q0 (ka ++ kb)), [], (detached e "type" q0 (ka ++ kb)). split; [left; auto|]. split; [reflexivity|]. split; [exact Ne|]. split.
        * unfold full_name. cbn [detached e_scope]. f_equal. unfold attr, detached. cbn [e_attrs]. apply attr_set_other. intros m K1 K2. apply name_match_iff in K1, K2. destruct K1 as [K1 _], K2 as [K2 _]. congruence.
        * unfold attr, detached. cbn [e_attrs e_scope]. rewrite attr_get_set. reflexivity.
      + destruct (A8 x Hx) as (k & q & d & Hk & Hq & Hd). apply in_app_or in Hk. destruct Hk as [Hk|Hk]; [|exists k, q, d; split; [right; right; auto|auto]].
        apply in_app_or in Hk. assert (Hk' : In k (ka ++ kb)%list \/ k = kt) by (rewrite in_app_iff; destruct Hk as [Hk|[Hk|Hk]]; auto).
        destruct Hk' as [Hk'| ->].
        * destruct (Up (ka ++ kb)%list x (ex_intro _ k (ex_intro _ q (ex_intro _ d (conj Hk' (conj Hq Hd))))) nm (attr_set a "" "type" q0) sc "") as (q' & d' & K1 & K2). exists (detached e "type" q0 (ka ++ kb)), q', d'. split; [left; auto|auto].
        * exists (set_all kt tas). destruct q as [|j q].
          -- cbn [sub] in Hq. injection Hq as <-. exfalso. destruct Hd as (D1 & _). rewrite B5 in D1. unfold anon_el, type_el in H2. destruct D1 as [D1|D1]; rewrite D1 in H2; discriminate H2.
          -- exists (j :: q), d. split; [right; left; auto|]. split; [|auto]. cbn [sub]. rewrite set_all_kids. exact Hq.
  Qed.
End Copy.

Lemma copied_tree e : Forall (tidy copies) (e_children e) -> let tns := attr e "" "targetNamespace" in
  exists ks ts l, copy_tree e = with_children e (ks ++ ts)%list /\ map e_name ks = map e_name (e_children e) /\
    Forall2 (fun x t => type_el t = true /\ exists d, In d (flat_map (searched copies) (e_children e)) /\ x = full_name tns d /\ attr t "" "name" = attr d "" "name") l ts /\
    NoDup l /\ (forall x, In x l -> ~ In x (used_names e)) /\
    (forall x, In x l -> exists k q d, In k (ks ++ ts)%list /\ sub k q = Some d /\ typed_as tns x d) /\
    Forall (everywhere (fun d => copies d = true -> In (full_name tns d) (l ++ used_names e))) (ks ++ ts)%list.
Proof.
  intros T tns. unfold copy_tree, hoist_root. fold tns.
  pose proof (ledger_list tns (e_children e)) as Q. specialize (Q (fun k Hk => ledger_el tns k (proj1 (Forall_forall _ _) T k Hk)) (used_names e)).
  destruct (hoist_list _ _ _ (e_children e) (used_names e)) as [[ks ts] u']. destruct Q as (l & [A1 A2 A3 A4 A5 A6 A7 A8]). exists ks, ts, l.
  split; [reflexivity|]. split; [exact A7|]. split; [exact A2|]. split; [exact A3|]. split; [exact A4|]. split; [exact A8|]. apply A5. rewrite A1. intros x Hx. apply in_app_or in Hx. apply in_or_app. destruct Hx as [Hx|Hx]; [left; apply in_rev; exact Hx|right; exact Hx].
Qed.
Lemma copied_names e : Forall (tidy copies) (e_children e) -> let tns := attr e "" "targetNamespace" in tns <> "" ->
  (forall d, In d (flat_map (searched copies) (e_children e)) -> s_in colon (attr d "" "name") = false) ->
  exists ks ts, copy_tree e = with_children e (ks ++ ts)%list /\ NoDup (map (fun t => attr t "" "name") ts) /\ forall t, In t ts -> type_el t = true /\ ~ In (mkName tns (attr t "" "name")) (used_names e).
Proof.
  intros T tns Hn Hp. destruct (copied_tree e T) as (ks & ts & l & A1 & A2 & A3 & A4 & A5 & _). fold tns in A3. exists ks, ts. split; [exact A1|].
  assert (El : l = map (fun t => mkName tns (attr t "" "name")) ts).
  { clear -A3 Hp Hn. induction A3 as [|x t l ts (_ & d & Hd & -> & E) _ IH]; cbn [map]; auto. rewrite IH. f_equal. unfold full_name, resolve_default. rewrite (Hp d Hd), E. destruct (String.eqb_spec tns ""); [congruence|reflexivity]. }
  split.
  - rewrite El in A4. clear -A4. induction ts as [|t ts IH]; cbn [map] in *; constructor; apply NoDup_cons_iff in A4; destruct A4 as [A B]; [|auto]. intros H. apply A. apply in_map_iff in H. destruct H as (t' & E & H). apply in_map_iff. exists t'. rewrite E. auto.
  - intros t Ht. split; [|apply A5; rewrite El; apply in_map_iff; exists t; auto]. clear -A3 Ht. induction A3 as [|x t0 l ts (H & _) _ IH]; [destruct Ht|]. destruct Ht as [<- |Ht]; auto.
Qed.
