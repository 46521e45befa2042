(* Naming anonymous types: what the tree function achieves. *)
From Verif Require Import Base ScopeModel TreeModel TreeSpec TreeProofs BuiltinModel XsdModel XsdProofs NormModel NormSpec NormHoistSpec NormHoistMem NormHoist NormAnonSpec.
Local Open Scope string_scope.

Lemma everywhere_eq P e : everywhere P e <-> P e /\ Forall (everywhere P) (e_children e).
Proof.
  split.
  - intros H. split; [apply (H []); reflexivity|]. apply Forall_forall. intros k Hk q d Hq. apply In_nth_error in Hk. destruct Hk as [i Hi]. apply (H (i :: q)). cbn [sub]. rewrite Hi. exact Hq.
  - intros [H1 H2] [|i q] d Hq; cbn [sub] in Hq; [injection Hq as <-; auto|]. destruct (nth_error (e_children e) i) as [k|] eqn:E; [|discriminate]. rewrite Forall_forall in H2. apply nth_error_In in E. exact (H2 k E q d Hq).
Qed.
Lemma has_anon_in e : has_anon_el e = false <-> Forall (fun k => anon_el k = false) (e_children e).
Proof. unfold has_anon_el. induction (e_children e) as [|k ks IH]; cbn [existsb]; [split; auto|]. rewrite orb_false_iff, IH. split; [intros [A B]; auto|intros H; inversion H; auto]. Qed.
Lemma updates_not_type d upd accum : nspace (e_name d) = schemaNS -> updates (nlocal (e_name d)) = Some (upd, accum) -> type_el d = false.
Proof.
  intros _ H. unfold type_el, xname_eqb, xs. cbn [nlocal nspace]. unfold updates in H.
  destruct (String.eqb_spec (nlocal (e_name d)) "complexType") as [E|_]; [rewrite E in H; discriminate H|]. destruct (String.eqb_spec (nlocal (e_name d)) "simpleType") as [E|_]; [rewrite E in H; discriminate H|].
  rewrite !andb_false_r. reflexivity.
Qed.
Lemma updates_attr l upd accum : updates l = Some (upd, accum) -> upd <> "name".
Proof. unfold updates. intros H E. subst upd. repeat match type of H with (if ?b then _ else _) = _ => destruct b; [discriminate H|] end. discriminate H. Qed.
Lemma set_all_last t l n v : attr (set_all t (l ++ [(n, v)])) "" n = v.
Proof. unfold set_all. assert (E : forall A B (f : A -> B -> A) l m a, each f a (l ++ m)%list = each f (each f a l) m) by (induction l0; intros; cbn [each app]; auto). rewrite E. cbn [each fst snd]. unfold attr, set_attr. destruct (each _ t l). cbn. apply attr_get_set. Qed.
Lemma attr_set_attr_other t n v n' : n <> n' -> attr (set_attr t "" n v) "" n' = attr t "" n'.
Proof. intros H. unfold attr, set_attr. destruct t. cbn [e_attrs]. apply attr_set_other. intros m H1 H2. apply name_match_iff in H1, H2. destruct H1 as [H1 _], H2 as [H2 _]. congruence. Qed.

Section Name.
  Variable tns : string.
  Notation hoist_el := (hoist_el (res nat) has_anon_el (name_dec tns)).
  Notation hoist_list := (hoist_list (res nat) has_anon_el (name_dec tns)).
  Definition clean (d : elem) : Prop := holder d = false.
  Definition tally (s' : res nat) (n : nat) (es es' ts : list elem) : Prop :=
    match s' with
    | Done n' => n' = n + List.length ts /\ in_order n ts /\ Forall (fun t => type_el t = true /\ attr t "" "_isAnonymous" = "true") ts /\
        Forall (everywhere clean) es' /\ Forall (everywhere clean) ts /\ map anon_el es' = map anon_el es /\ map e_name es' = map e_name es /\
        List.length ts = List.length (flat_map (searched holder) es) /\
        (forall i, n < i <= n' -> referred tns (anon_name i) (es' ++ ts)) /\ Forall (fun e => ~ unexpected e) es
    | Fails => Exists unexpected es
    | Runs => False
    end.
  Lemma hoist_stuck s : (forall n, s <> Done n) -> forall e, snd (hoist_el e s) = s.
  Proof.
    intros Hs. assert (D : forall d, name_dec tns d s = (None, s)) by (intros d; unfold name_dec; destruct s; [destruct (Hs a); auto|auto|auto]).
    induction e as [n a sc c ks IH] using elem_ind'. rewrite hoist_el_eq.
    assert (El : (if has_anon_el (Elem n a sc c ks) then name_dec tns (Elem n a sc c ks) s else (None, s)) = (None, s)) by (rewrite D; destruct (has_anon_el _); auto). rewrite El. cbn [e_children].
    assert (E : snd (hoist_list ks s) = s).
    { clear El. induction ks as [|k ks IHk]; cbn [NormHoistSpec.hoist_list]; auto. pose proof (IH k (or_introl eq_refl)) as H. destruct (hoist_el k s) as [[k' t1] s1]. cbn [snd] in H. subst s1.
      specialize (IHk (fun k0 H0 => IH k0 (or_intror H0))). destruct (hoist_list ks s) as [[r t2] s2]. exact IHk. }
    destruct (hoist_list ks s) as [[ks' ts] s2]. exact E.
  Qed.
  Lemma hoist_list_stuck s : (forall n, s <> Done n) -> forall ks, snd (hoist_list ks s) = s.
  Proof.
    intros Hs. induction ks as [|k ks IHk]; cbn [NormHoistSpec.hoist_list]; auto. pose proof (hoist_stuck s Hs k) as H. destruct (hoist_el k s) as [[k' t1] s1]. cbn [snd] in H. subst s1.
    destruct (hoist_list ks s) as [[r t2] s2]. exact IHk.
  Qed.
  Lemma referred_incl n l m : incl l m -> referred tns n l -> referred tns n m.
  Proof. intros H (k & q & d & A & B). exists k, q, d. auto. Qed.

  Lemma tally_app n es1 es1' ts1 es2 es2' ts2 n1 s : tally (Done n1) n es1 es1' ts1 -> tally s n1 es2 es2' ts2 -> tally s n (es1 ++ es2) (es1' ++ es2') (ts1 ++ ts2).
  Proof.
    intros (A1 & A2 & A3 & A4 & A5 & A6 & A7 & A8 & A9 & A10) H. destruct s as [n2| |]; cbn [tally] in *; [|apply Exists_app; auto|auto].
    destruct H as (B1 & B2 & B3 & B4 & B5 & B6 & B7 & B8 & B9 & B10).
    split; [rewrite app_length; lia|]. split.
    { unfold in_order in *. rewrite map_app, A2, B2, app_length, seq_app, map_app, A1. reflexivity. }
    split; [apply Forall_app; auto|]. split; [apply Forall_app; auto|]. split; [apply Forall_app; auto|]. split; [rewrite !map_app, A6, B6; auto|]. split; [rewrite !map_app, A7, B7; auto|].
    split; [rewrite flat_map_app, !app_length; lia|]. split; [|apply Forall_app; auto].
    intros i Hi. destruct (le_lt_dec i n1) as [H|H].
    - eapply referred_incl; [|apply A9; lia]. intros k Hk. rewrite !in_app_iff in *. tauto.
    - eapply referred_incl; [|apply B9; lia]. intros k Hk. rewrite !in_app_iff in *. tauto.
  Qed.
  Lemma tally_list ks : (forall k, In k ks -> forall n, let '(k', ts, s') := hoist_el k (Done n) in tally s' n [k] [k'] ts) ->
    forall n, let '(ks', ts, s') := hoist_list ks (Done n) in tally s' n ks ks' ts.
  Proof.
    induction ks as [|k ks IH]; intros H n; cbn [NormHoistSpec.hoist_list].
    - cbn [tally]. unfold in_order. cbn. rewrite Nat.add_0_r. repeat (split; [constructor|]). split; [intros i Hi; lia|constructor].
    - pose proof (H k (or_introl eq_refl) n) as Hk. destruct (hoist_el k (Done n)) as [[k' t1] s1]. destruct s1 as [n1| |]; cbn [tally] in Hk; [| |destruct Hk].
      + specialize (IH (fun k0 H0 => H k0 (or_intror H0)) n1). destruct (hoist_list ks (Done n1)) as [[r t2] s2]. exact (tally_app n [k] [k'] t1 ks r t2 n1 s2 Hk IH).
      + pose proof (hoist_list_stuck Fails ltac:(discriminate) ks) as Hs. destruct (hoist_list ks Fails) as [[r t2] s2]. cbn [snd] in Hs. subst s2. cbn [tally]. inversion Hk as [? ? U|? ? U]; subst; [left; exact U|inversion U].
  Qed.
  Lemma not_unexpected e : (holder e = true -> updates (nlocal (e_name e)) <> None) -> Forall (fun k => ~ unexpected k) (e_children e) -> ~ unexpected e.
  Proof.
    intros H1 H2 ([|i q] & d & Hq & H3 & H4); cbn [sub] in Hq; [injection Hq as <-; exact (H1 H3 H4)|]. destruct (nth_error (e_children e) i) as [k|] eqn:E; [|discriminate]. rewrite Forall_forall in H2. apply nth_error_In in E. apply (H2 k E). exists q, d. auto.
  Qed.
  Lemma up_unexpected e : Exists unexpected (e_children e) -> unexpected e.
  Proof. intros H. apply Exists_exists in H. destruct H as (k & Hk & q & d & Hq & H). apply In_nth_error in Hk. destruct Hk as [i Hi]. exists (i :: q), d. cbn [sub]. rewrite Hi. auto. Qed.

  Lemma tally_el e : tidy has_anon_el e -> forall n, let '(e', ts, s') := hoist_el e (Done n) in tally s' n [e] [e'] ts.
  Proof.
    induction e as [nm a sc c ks IH] using elem_ind'. intros T n. set (e := Elem nm a sc c ks) in *.
    assert (Tk : forall k, In k ks -> tidy has_anon_el k). { intros k Hk q d Hq. apply In_nth_error in Hk. destruct Hk as [i Hi]. apply (T (i :: q)). cbn [sub e e_children]. rewrite Hi. exact Hq. }
    assert (TL := tally_list ks (fun k Hk => IH k Hk (Tk k Hk))). clear IH. rewrite hoist_el_eq.
    assert (Hold : holder e = has_anon_el e && String.eqb (nspace (e_name e)) schemaNS) by reflexivity.
    assert (Se : flat_map (searched holder) [e] = ((if holder e then [e] else []) ++ flat_map (searched holder) ks)%list) by (cbn [flat_map]; rewrite app_nil_r; reflexivity).
    (* the type stays *)
    assert (Stay : holder e = false -> let '(ks', ts, s2) := hoist_list ks (Done n) in tally s2 n [e] [with_children e ks'] ts).
    { intros He. specialize (TL n). destruct (hoist_list ks (Done n)) as [[ks' ts] s2]. destruct s2 as [n'| |]; cbn [tally] in *; [|left; apply up_unexpected; exact TL|exact TL].
      destruct TL as (A1 & A2 & A3 & A4 & A5 & A6 & A7 & A8 & A9 & A10). split; [auto|]. split; [auto|]. split; [auto|]. split.
      { constructor; [|constructor]. apply everywhere_eq. split; [|exact A4]. change (has_anon_el (with_children e ks') && String.eqb (nspace (e_name e)) schemaNS = false).
        assert (Eh : has_anon_el (with_children e ks') = has_anon_el e). { unfold has_anon_el. cbn [with_children e e_children]. revert A6. clear. revert ks. induction ks' as [|k' ks' IH]; intros [|k ks] E; try discriminate E; cbn [existsb]; auto. cbn [map] in E. injection E as -> E. rewrite (IH ks E). reflexivity. }
        rewrite Eh. exact He. }
      split; [auto|]. split; [reflexivity|]. split; [reflexivity|]. split; [rewrite Se, He; exact A8|]. split; [|constructor; [apply not_unexpected; [congruence|exact A10]|constructor]].
      intros i Hi. destruct (A9 i Hi) as (k & q & d & Hk & Hq & Hd). apply in_app_or in Hk. destruct Hk as [Hk|Hk].
      - apply In_nth_error in Hk. destruct Hk as [j Hj]. exists (with_children e ks'), (j :: q), d. split; [left; auto|]. split; [|auto]. cbn [sub with_children e e_children]. rewrite Hj. exact Hq.
      - exists k, q, d. split; [right; auto|auto]. }
    destruct (has_anon_el e) eqn:Ha.
    2:{ cbn [e e_children]. specialize (Stay Hold). destruct (hoist_list ks (Done n)) as [[ks' ts] s2]. exact Stay. }
    unfold name_dec at 1. destruct (String.eqb (nspace (e_name e)) schemaNS) eqn:Hns; cbn [negb].
    2:{ cbn [e e_children]. specialize (Stay Hold). destruct (hoist_list ks (Done n)) as [[ks' ts] s2]. exact Stay. }
    apply String.eqb_eq in Hns.
    destruct (updates (nlocal (e_name e))) as [[upd accum]|] eqn:Hu.
    2:{ cbn [e e_children]. pose proof (hoist_list_stuck Fails ltac:(discriminate) ks) as Hs. destruct (hoist_list ks Fails) as [[r t2] s2]. cbn [snd] in Hs. subst s2. cbn [tally]. left. exists [], e. split; [reflexivity|]. auto. }
    (* the type moves *)
    assert (Ho : hit_ok has_anon_el e) by (apply (T []); [reflexivity|exact Ha]). destruct Ho as (ks1 & t & ks2 & Ec & H1 & H2 & H3 & H4 & H5).
    rewrite Ec, anon_index_app by auto. assert (Eks : ks = (ks1 ++ t :: ks2)%list) by exact Ec. rewrite <- Eks.
    specialize (TL (S n)). pose proof (hoist_list_length _ has_anon_el (name_dec tns) ks (Done (S n))) as Ll. destruct (hoist_list ks (Done (S n))) as [[ks' ts] s2]. cbn [fst] in Ll.
    destruct s2 as [n'| |]; cbn [tally] in *; [|left; apply up_unexpected; exact TL|exact TL].
    destruct TL as (A1 & A2 & A3 & A4 & A5 & A6 & A7 & A8 & A9 & A10).
    (* the list splits in the same way *)
    assert (Sp : exists ka kt kb, ks' = (ka ++ kt :: kb)%list /\ List.length ka = List.length ks1 /\ map anon_el ka = map anon_el ks1 /\ anon_el kt = anon_el t /\ map anon_el kb = map anon_el ks2 /\ e_name kt = e_name t).
    { rewrite Eks in A6, A7. clear -A6 A7. revert ks1 A6 A7. induction ks' as [|k ks' IH]; intros [|k1 ks1] E E'; cbn [map app] in E, E'; try discriminate E; injection E as E1 E2; injection E' as E1' E2'.
      - exists [], k, ks'. auto 10.
      - destruct (IH ks1 E2 E2') as (ka & kt & kb & -> & B1 & B2 & B3 & B4 & B5). exists (k :: ka), kt, kb. cbn [app List.length map]. rewrite B1, B2, E1. auto 10. }
    destruct Sp as (ka & kt & kb & -> & B1 & B2 & B3 & B4 & B5). rewrite <- B1. destruct (firstn_skipn_at ka kt kb) as (-> & -> & ->). cbn [map app].
    set (tas := [("name", anon_name (S n)); ("_isAnonymous", "true")]).
    set (q0 := if accum then attr e "" upd ++ " " ++ prefix (e_scope e) (mkName tns (anon_name (S n))) else prefix (e_scope e) (mkName tns (anon_name (S n)))).
    assert (Nm : attr (set_all kt tas) "" "name" = anon_name (S n)).
    { unfold tas, set_all. cbn [each fst snd]. rewrite attr_set_attr_other by discriminate. unfold attr, set_attr. destruct kt. apply attr_get_set. }
    assert (Mk : attr (set_all kt tas) "" "_isAnonymous" = "true") by (apply (set_all_last kt [("name", anon_name (S n))])).
    apply Forall_app in A4. destruct A4 as [A4 A4']. apply Forall_cons_iff in A4'. destruct A4' as [A4' A4''].
    assert (Nf : forall l m, map anon_el l = map anon_el m -> Forall (fun k => anon_el k = false) m -> Forall (fun k => anon_el k = false) l).
    { clear. induction l as [|x l IH]; intros [|y m] E F; try discriminate E; constructor; cbn [map] in E; injection E as E1 E2; inversion F; subst; [congruence|eauto]. }
    split; [cbn [List.length]; lia|]. split.
    { unfold in_order in *. cbn [map List.length seq]. rewrite Nm, A2. reflexivity. }
    split; [constructor; [split; [unfold type_el; rewrite set_all_name, B5; unfold anon_el in H2; apply andb_true_iff in H2; exact (proj1 H2)|exact Mk]|exact A3]|].
    split.
    { constructor; [|constructor]. apply everywhere_eq. unfold detached at 2. cbn [e_children]. split; [|apply Forall_app; auto].
      unfold clean, holder. assert (E : has_anon_el (detached e upd q0 (ka ++ kb)) = false) by (apply has_anon_in; cbn [detached e_children]; apply Forall_app; split; eauto). rewrite E. reflexivity. }
    split.
    { constructor; [|exact A5]. apply everywhere_eq in A4'. destruct A4' as [C1 C2]. apply everywhere_eq. rewrite set_all_kids. split; [|exact C2].
      unfold clean, holder in *. unfold has_anon_el in *. rewrite set_all_kids, set_all_name. exact C1. }
    assert (Nt : type_el e = false) by (eapply updates_not_type; eauto).
    split; [cbn [map]; f_equal; unfold anon_el; assert (E : type_el (detached e upd q0 (ka ++ kb)) = false) by exact Nt; rewrite E, Nt; reflexivity|].
    split; [reflexivity|]. split; [rewrite Se, Hold; cbn [List.length andb app]; lia|].
    split; [|constructor; [apply not_unexpected; [congruence|exact A10]|constructor]].
    intros i Hi. destruct (Nat.eq_dec i (S n)) as [-> |Ni].
    - exists (detached e upd q0 (ka ++ kb)), [], (detached e upd q0 (ka ++ kb)). split; [left; auto|]. split; [reflexivity|].
      exists upd, accum. split; [exact Hu|]. split; [exact Hns|]. cbn zeta. cbn [detached e_scope]. unfold attr, detached. cbn [e_attrs]. rewrite attr_get_set. unfold q0. destruct accum; [right; split; [auto|]; eexists; reflexivity|left; reflexivity].
    - destruct (A9 i) as (k & q & d & Hk & Hq & Hd); [lia|]. apply in_app_or in Hk. destruct Hk as [Hk|Hk]; [|exists k, q, d; split; [right; right; auto|auto]].
      apply in_app_or in Hk. assert (Hk' : In k (ka ++ kb)%list \/ k = kt) by (rewrite in_app_iff; destruct Hk as [Hk|[Hk|Hk]]; auto).
      destruct Hk' as [Hk'| ->].
      + apply In_nth_error in Hk'. destruct Hk' as [j Hj]. exists (detached e upd q0 (ka ++ kb)), (j :: q), d. split; [left; auto|]. split; [|auto]. cbn [sub detached e_children]. rewrite Hj. exact Hq.
      + exists (set_all kt tas). destruct q as [|j q].
        * cbn [sub] in Hq. injection Hq as <-. exfalso. destruct Hd as (u2 & ac2 & D1 & D2 & _). rewrite B5 in D1, D2. pose proof (updates_not_type t _ _ D2 D1) as D3. unfold anon_el in H2. rewrite D3 in H2. discriminate H2.
        * exists (j :: q), d. split; [right; left; auto|]. split; [|auto]. cbn [sub]. rewrite set_all_kids. exact Hq.
  Qed.
End Name.

Lemma named_tree e n : Forall (tidy has_anon_el) (e_children e) ->
  match name_tree e n with
  | (e', Done n') => exists ks ts, e' = with_children e (ks ++ ts)%list /\ map e_name ks = map e_name (e_children e) /\ n' = n + List.length ts /\ in_order n ts /\
      Forall (fun t => type_el t = true /\ attr t "" "_isAnonymous" = "true") ts /\
      List.length ts = List.length (flat_map (searched holder) (e_children e)) /\
      Forall (everywhere (fun d => holder d = false)) (ks ++ ts)%list /\
      (forall i, n < i <= n' -> referred (attr e "" "targetNamespace") (anon_name i) (ks ++ ts)%list)
  | (_, Fails) => Exists unexpected (e_children e)
  | (_, Runs) => False
  end.
Proof.
  intros T. unfold name_tree, hoist_root.
  pose proof (tally_list (attr e "" "targetNamespace") (e_children e)) as Q. specialize (Q (fun k Hk => tally_el _ k (proj1 (Forall_forall _ _) T k Hk)) n).
  destruct (hoist_list _ _ _ (e_children e) (Done n)) as [[ks ts] s']. destruct s' as [n'| |]; cbn [tally] in Q; [|exact Q|exact Q].
  destruct Q as (A1 & A2 & A3 & A4 & A5 & A6 & A7 & A8 & A9 & A10). exists ks, ts. split; [reflexivity|]. split; [exact A7|]. split; [exact A1|]. split; [exact A2|]. split; [exact A3|]. split; [exact A8|]. split; [apply Forall_app; split; [exact A4|exact A5]|exact A9].
Qed.
Lemma named_without_error e n : Forall (tidy has_anon_el) (e_children e) -> Forall (fun k => ~ unexpected k) (e_children e) -> exists n', snd (name_tree e n) = Done n'.
Proof.
  intros T U. pose proof (named_tree e n T) as Q. destruct (name_tree e n) as [e' [n'| |]]; [exists n'; reflexivity| |destruct Q]. exfalso. apply Exists_exists in Q. destruct Q as (k & Hk & Hu). rewrite Forall_forall in U. exact (U k Hk Hu).
Qed.
Lemma named_error e n : Forall (tidy has_anon_el) (e_children e) -> Exists unexpected (e_children e) -> snd (name_tree e n) = Fails.
Proof.
  intros T U. unfold name_tree, hoist_root.
  pose proof (tally_list (attr e "" "targetNamespace") (e_children e)) as Q. specialize (Q (fun k Hk => tally_el _ k (proj1 (Forall_forall _ _) T k Hk)) n).
  destruct (hoist_list _ _ _ (e_children e) (Done n)) as [[ks ts] s']. destruct s' as [n'| |]; cbn [tally] in Q; [|reflexivity|destruct Q]. exfalso.
  destruct Q as (_ & _ & _ & _ & _ & _ & _ & _ & _ & A10). apply Exists_exists in U. destruct U as (k & Hk & Hu). rewrite Forall_forall in A10. exact (A10 k Hk Hu).
Qed.
Lemma named_error_iff e n : Forall (tidy has_anon_el) (e_children e) -> (snd (name_tree e n) = Fails <-> Exists unexpected (e_children e)).
Proof.
  intros T. split; [|apply named_error; auto]. intros H. pose proof (named_tree e n T) as Q. destruct (name_tree e n) as [e' s]. cbn [snd] in H. subst s. exact Q.
Qed.
