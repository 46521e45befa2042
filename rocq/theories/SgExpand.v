(* The model of expandComplexTypes meets SgExpandSpec. *)
From Verif Require Import Base SortLib ScopeModel TreeModel EqualModel BuiltinModel XsdModel XsdProofs TypesModel TypesSpec TypesProofs NormAttr GraphModel GraphSpec GraphProofs SgModel SgProofs SgNames SgFlat SgFlatSpec SgFlatten SgExpandSpec.
Local Open Scope string_scope.

Section Expand.
  Variable st : store.
  Hypothesis Hroot : rooted st.
  Hypothesis Hapart : apart st.
  Variable l : list ty.
  Hypothesis Hknown : forall t, In t l -> known st t.
  Hypothesis Hnd : NoDup l.

  (* the distance to the Builtin *)
  Lemma ptr_path i d : nth_error st i = Some d -> exists p b, path st (TPtr i) p b.
  Proof. intros H. destruct (Hroot i d H) as [b A]. destruct (path_of _ _ _ A) as [p Hp]. eauto. Qed.
  Lemma rank_path i p b : path st (TPtr i) p b -> rank_of st i = List.length p - 1.
  Proof. intros H. unfold rank_of. rewrite (follow_path _ _ _ _ H) by exact (path_short _ _ _ _ H). reflexivity. Qed.
  Lemma derives_rank i j : derives st i j -> rank_of st j < rank_of st i.
  Proof.
    intros [c [H1 [H2 _]]]. destruct (ptr_path i _ H1) as [p [b P]]. rewrite (rank_path _ _ _ P). destruct (path_ptr _ _ _ _ P) as [d [m [E [-> Q]]]].
    assert (d = DC c) as -> by congruence. cbn [def_base] in Q. rewrite H2 in Q. rewrite (rank_path _ _ _ Q). destruct (path_ptr _ _ _ _ Q) as [d' [m' [_ [-> _]]]]. cbn [List.length]. lia.
  Qed.

  (* ---------- the list of all types and its index ---------- *)
  Definition indexed (ix : list (xname * nat)) (all : list ty) : Prop :=
    NoDup all /\ (forall t, In t all -> known st t) /\
    (forall n k, lookup n ix = Some k -> exists t, nth_error all k = Some t /\ type_name st t = Some n) /\
    (forall t n, In t all -> type_name st t = Some n -> lookup n ix <> None) /\
    (forall i, In (TPtr i) all -> wanted st l i).
  Definition covers (ix : list (xname * nat)) (t : ty) : Prop := forall i d, ancestor st t (TPtr i) -> nth_error st i = Some d -> lookup (def_name d) ix <> None.
  Lemma known_named t : known st t -> exists n, type_name st t = Some n.
  Proof. destruct t as [|b|n|i]; cbn [known type_name]; intros H; try contradiction; [eauto|]. destruct (nth_error st i) as [d|] eqn:E; [cbn; eauto|]. apply nth_error_None in E. lia. Qed.
  Lemma lookup_cons {V} n m (v : V) ix : lookup n ((m, v) :: ix) = if xname_eqb m n then Some v else lookup n ix.
  Proof. reflexivity. Qed.
  Lemma index_start : forall l2 l1 ix, l = (l1 ++ l2)%list ->
    (forall n k, lookup n ix = Some k -> exists t, nth_error l k = Some t /\ type_name st t = Some n) ->
    (forall t n, In t l1 -> type_name st t = Some n -> lookup n ix <> None) ->
    exists ix', foldr (fun ix p => match type_name st (snd p) with Some n => Ret ((n, fst p) :: ix) | None => Panic end) ix
        (combine (seq (List.length l1) (List.length l2)) l2) = Ret ix' /\
    (forall n k, lookup n ix' = Some k -> exists t, nth_error l k = Some t /\ type_name st t = Some n) /\
    (forall t n, In t l -> type_name st t = Some n -> lookup n ix' <> None).
  Proof using Hknown.
    clear Hroot Hapart Hnd.
    induction l2 as [|t l2 IH]; intros l1 ix E H1 H2.
    - exists ix. split; [reflexivity|]. split; [exact H1|]. rewrite E, app_nil_r. exact H2.
    - cbn [List.length seq combine foldr snd fst]. destruct (known_named t) as [n Hn]; [apply Hknown; rewrite E; apply in_elt|]. rewrite Hn. cbn [andthen].
      specialize (IH (l1 ++ [t])%list ((n, List.length l1) :: ix)). rewrite app_length in IH. cbn [List.length] in IH. replace (List.length l1 + 1) with (S (List.length l1)) in IH by lia. apply IH.
      + rewrite E, <- app_assoc. reflexivity.
      + intros m k. rewrite lookup_cons. destruct (xname_eqb n m) eqn:X; [|apply H1]. apply xname_eqb_eq in X as ->. intros [= <-]. exists t. split; [|exact Hn].
        rewrite E, nth_error_app2, Nat.sub_diag by lia. reflexivity.
      + intros u m Hu Hm. rewrite lookup_cons. destruct (xname_eqb n m) eqn:X; [discriminate|]. apply in_app_or in Hu as [Hu|[<-|[]]]; [exact (H2 u m Hu Hm)|].
        rewrite Hn in Hm. injection Hm as ->. rewrite (proj2 (xname_eqb_eq m m) eq_refl) in X. discriminate.
  Qed.
  Lemma index_ok : exists ix, index_types st l = Ret ix /\ indexed ix l.
  Proof using Hknown Hnd.
    clear Hroot Hapart.
    destruct (index_start l [] [] eq_refl) as [ix [E [H1 H2]]]; [discriminate|intros t n []|]. exists ix. split; [exact E|].
    split; [exact Hnd|]. split; [exact Hknown|]. split; [exact H1|]. split; [exact H2|]. intros i Hi. exists (TPtr i). split; [exact Hi|constructor].
  Qed.

  Lemma same_name i d t : nth_error st i = Some d -> known st t -> type_name st t = Some (def_name d) -> t = TPtr i.
  Proof using Hapart.
    intros H K N. pose proof (Hapart i d t H N) as X. destruct t; cbn [known] in K; try contradiction. f_equal. exact X.
  Qed.
  Lemma indexed_add ix all t n : indexed ix all -> known st t -> type_name st t = Some n -> lookup n ix = None -> (forall i, t = TPtr i -> wanted st l i) ->
    indexed ((n, List.length all) :: ix) (all ++ [t]).
  Proof using Type.
    clear Hroot Hapart Hknown Hnd. intros [I1 [I2 [I3 [I4 I5]]]] K N L W.
    split; [apply NoDup_snoc; [exact I1|intros Hi; exact (I4 _ n Hi N L)]|].
    split; [intros u Hu; apply in_app_or in Hu as [Hu|[<-|[]]]; [exact (I2 u Hu)|exact K]|].
    split; [intros m k; rewrite lookup_cons; destruct (xname_eqb n m) eqn:X|].
    - apply xname_eqb_eq in X as <-. intros [= <-]. exists t. split; [rewrite nth_error_app2, Nat.sub_diag by lia; reflexivity|exact N].
    - intros Hk. destruct (I3 m k Hk) as [u [U1 U2]]. exists u. split; [rewrite nth_error_app1; [exact U1|apply nth_error_Some; congruence]|exact U2].
    - split; [|intros j Hj; apply in_app_or in Hj as [Hj|[Hj|[]]]; [exact (I5 j Hj)|exact (W j Hj)]].
      intros u m Hu Hm. rewrite lookup_cons. destruct (xname_eqb n m) eqn:X; [discriminate|]. apply in_app_or in Hu as [Hu|[<-|[]]]; [exact (I4 u m Hu Hm)|].
      rewrite N in Hm. injection Hm as ->. rewrite (proj2 (xname_eqb_eq m m) eq_refl) in X. discriminate.
  Qed.
  Lemma more_lookup n k (ix : list (xname * nat)) m : lookup m ix <> None -> lookup m ((n, k) :: ix) <> None.
  Proof using Type. rewrite lookup_cons. destruct (xname_eqb n m); [discriminate|auto]. Qed.
  Lemma add_bases_nil f s : add_bases f st TNil s = Ret s.
  Proof using Type. destruct f; reflexivity. Qed.
  Lemma bases_ok : forall p t b fuel ix all, path st t p b -> List.length p < fuel -> indexed ix all ->
    (forall i, ancestor st t (TPtr i) -> wanted st l i) ->
    exists ix' all', add_bases fuel st t (ix, all) = Ret (ix', all') /\ indexed ix' all' /\ covers ix' t /\ (forall n, lookup n ix <> None -> lookup n ix' <> None) /\
      exists more, all' = (all ++ more)%list.
  Proof using Type.
    clear Hroot Hapart Hknown Hnd.
    induction p as [|i p IH]; intros t b fuel ix all P F I W.
    - assert (t = TB b) as -> by (inversion P; auto). destruct fuel as [|f]; [lia|]. cbn [add_bases type_name base_of fst snd].
      destruct (lookup (b_name b) ix) as [k|] eqn:L; rewrite add_bases_nil; eexists; eexists; (split; [reflexivity|]).
      + split; [exact I|]. split; [intros j d A; apply an_builtin in A; discriminate|]. split; [auto|exists []; rewrite app_nil_r; reflexivity].
      + split; [apply indexed_add; [exact I|exact Logic.I|reflexivity|exact L|discriminate]|]. split; [intros j d A; apply an_builtin in A; discriminate|].
        split; [intros n; apply more_lookup|exists [TB b]; reflexivity].
    - assert (exists d, t = TPtr i /\ nth_error st i = Some d /\ path st (def_base d) p b) as [d [-> [Hd P']]] by (inversion P; subst; eauto).
      destruct fuel as [|f]; [cbn in F; lia|]. cbn [List.length] in F.
      cbn [add_bases type_name base_of]. rewrite Hd. cbn [option_map fst snd].
      assert (W' : forall j, ancestor st (def_base d) (TPtr j) -> wanted st l j).
      { intros j A. apply W. apply an_base; cbn [base_of]; rewrite Hd; [|exact A]. intros X. rewrite X in P'. inversion P'. }
      assert (Cov : forall ix', covers ix' (def_base d) -> lookup (def_name d) ix' <> None -> covers ix' (TPtr i)).
      { intros ix' C1 C2 j d' A Hj. remember (TPtr i) as t eqn:Et. remember (TPtr j) as u eqn:Eu. destruct A as [t|t u Hn A]; subst.
        - injection Eu as <-. assert (d' = d) as -> by congruence. exact C2.
        - cbn [base_of] in A. rewrite Hd in A. exact (C1 j d' A Hj). }
      destruct (lookup (def_name d) ix) as [k|] eqn:L.
      + destruct (IH (def_base d) b f ix all P' ltac:(lia) I W') as [ix' [all' [E [I' [C' [M' Mo]]]]]]. exists ix', all'. split; [exact E|]. split; [exact I'|].
        split; [apply Cov; [exact C'|apply M'; congruence]|]. split; assumption.
      + assert (I' : indexed ((def_name d, List.length all) :: ix) (all ++ [TPtr i])).
        { apply indexed_add; [exact I|exact (nth_lt _ _ _ Hd)|cbn [type_name]; rewrite Hd; reflexivity|exact L|]. intros j [= <-]. apply W. constructor. }
        destruct (IH (def_base d) b f _ _ P' ltac:(lia) I' W') as [ix' [all' [E [I'' [C' [M' [mo Mo]]]]]]]. exists ix', all'. split; [exact E|]. split; [exact I''|].
        split; [apply Cov; [exact C'|apply M'; rewrite lookup_cons, (proj2 (xname_eqb_eq _ _) eq_refl); discriminate]|].
        split; [intros n Hn; apply M', more_lookup, Hn|]. exists (TPtr i :: mo). rewrite Mo, <- app_assoc. reflexivity.
  Qed.
  Lemma base_path t : known st t -> base_of st t = TNil \/ exists p b, path st (base_of st t) p b /\ List.length p < S (List.length st).
  Proof using Hroot.
    destruct t as [|b|n|i]; cbn [known base_of]; intros K; try contradiction; [left; reflexivity|]. right. destruct (nth_error st i) as [d|] eqn:E; [|apply nth_error_None in E; lia].
    destruct (ptr_path i d E) as [p [b P]]. destruct (path_ptr _ _ _ _ P) as [d' [m [E' [_ Q]]]]. assert (d' = d) as -> by congruence. exists m, b. split; [exact Q|]. pose proof (path_short _ _ _ _ Q). lia.
  Qed.
  Lemma all_bases : forall l2 ix all, (forall t, In t l2 -> In t l) -> indexed ix all -> (forall t, In t l2 -> In t all) ->
    exists ix' all', foldr (fun s v => add_bases (S (List.length st)) st (base_of st v) s) (ix, all) l2 = Ret (ix', all') /\ indexed ix' all' /\
      (forall t, In t l2 -> covers ix' t) /\ (forall n, lookup n ix <> None -> lookup n ix' <> None) /\ exists more, all' = (all ++ more)%list.
  Proof using Hroot Hknown.
    clear Hapart Hnd.
    induction l2 as [|t l2 IH]; intros ix all Hl I A.
    - exists ix, all. split; [reflexivity|]. split; [exact I|]. split; [intros ? []|]. split; [auto|exists []; rewrite app_nil_r; reflexivity].
    - cbn [foldr]. assert (Ht : In t l) by (apply Hl; left; reflexivity).
      assert (S1 : exists ix' all', add_bases (S (List.length st)) st (base_of st t) (ix, all) = Ret (ix', all') /\ indexed ix' all' /\ covers ix' (base_of st t) /\
        (forall n, lookup n ix <> None -> lookup n ix' <> None) /\ exists more, all' = (all ++ more)%list).
      { destruct (base_path t (Hknown t Ht)) as [E|[p [b [P F]]]].
        - rewrite E, add_bases_nil. exists ix, all. split; [reflexivity|]. split; [exact I|]. split; [intros i d X; inversion X; cbn [base_of] in *; congruence|]. split; [auto|exists []; rewrite app_nil_r; reflexivity].
        - apply (bases_ok p _ b); [exact P|exact F|exact I|]. intros i X. exists t. split; [exact Ht|]. apply an_base; [|exact X]. intros Y. rewrite Y in P. inversion P. }
      destruct S1 as [ix1 [all1 [E1 [I1 [C1 [M1 [mo1 Mo1]]]]]]]. rewrite E1. cbn [andthen].
      destruct (IH ix1 all1) as [ix2 [all2 [E2 [I2 [C2 [M2 [mo2 Mo2]]]]]]]; [intros u Hu; apply Hl; right; exact Hu|exact I1|intros u Hu; rewrite Mo1; apply in_or_app; left; apply A; right; exact Hu|].
      exists ix2, all2. split; [exact E2|]. split; [exact I2|]. split; [|split; [intros n Hn; apply M2, M1, Hn|exists (mo1 ++ mo2)%list; rewrite Mo2, Mo1, app_assoc; reflexivity]].
      intros u [<-|Hu]; [|exact (C2 u Hu)]. intros i d X Hd. remember (TPtr i) as v eqn:Ev. destruct X as [t|t v Hn X]; subst.
      + destruct I as [_ [_ [_ [I4 _]]]]. apply M2, M1. apply (I4 (TPtr i)); [apply A; left; reflexivity|]. cbn [type_name]. rewrite Hd. reflexivity.
      + apply M2. exact (C1 i d X Hd).
  Qed.

  (* ---------- the graph ---------- *)
  Lemma edges_ok ix all : indexed ix all -> (forall i d, wanted st l i -> nth_error st i = Some d -> lookup (def_name d) ix <> None) ->
    exists es, edges st ix all = Ret es /\ forall a b, In (a, b) es <-> exists i j ka kb, nth_error all ka = Some (TPtr i) /\ nth_error all kb = Some (TPtr j) /\
      derives st i j /\ a = Z.of_nat ka /\ b = Z.of_nat kb.
  Proof using Hroot Hapart.
    clear Hknown Hnd.
    intros [I1 [I2 [I3 [I4 I5]]]] Cov.
    assert (D : forall t b, complex_base st t = Some b -> exists i j, t = TPtr i /\ b = TPtr j /\ derives st i j).
    { intros t b H. destruct t as [| | |i]; cbn [complex_base] in H; try discriminate. destruct (get_c st i) as [c|] eqn:E; [|discriminate]. apply get_c_nth in E.
      destruct (is_complex st (ct_base c)) eqn:X; [|discriminate]. injection H as <-. destruct (ct_base c) as [| | |j] eqn:Eb; cbn [is_complex] in X; try discriminate. exists i, j.
      split; [reflexivity|]. split; [reflexivity|]. exists c. split; [exact E|]. split; [exact Eb|]. destruct (nth_error st j) as [[c'|]|] eqn:Ej; try discriminate. exists c'. exact Ej. }
    assert (D' : forall i j, derives st i j -> complex_base st (TPtr i) = Some (TPtr j)).
    { intros i j [c [H1 [H2 [c' H3]]]]. cbn [complex_base]. apply get_c_nth in H1. rewrite H1, H2. cbn [is_complex]. rewrite H3. reflexivity. }
    assert (G : forall l2 l1 es, all = (l1 ++ l2)%list ->
      (forall a b, In (a, b) es <-> exists i j ka kb, ka < List.length l1 /\ nth_error all ka = Some (TPtr i) /\ nth_error all kb = Some (TPtr j) /\ derives st i j /\ a = Z.of_nat ka /\ b = Z.of_nat kb) ->
      exists es', foldr (fun es p => match complex_base st (snd p) with
                     | Some b => match type_name st b with
                                 | Some n => match lookup n ix with Some j => Ret (es ++ [(Z.of_nat (fst p), Z.of_nat j)])%list | None => Panic end
                                 | None => Panic end
                     | None => Ret es end) es (combine (seq (List.length l1) (List.length l2)) l2) = Ret es' /\
      (forall a b, In (a, b) es' <-> exists i j ka kb, ka < List.length all /\ nth_error all ka = Some (TPtr i) /\ nth_error all kb = Some (TPtr j) /\ derives st i j /\ a = Z.of_nat ka /\ b = Z.of_nat kb)).
    { induction l2 as [|t l2 IH]; intros l1 es E H.
      - exists es. split; [reflexivity|]. rewrite E, app_nil_r in *. exact H.
      - cbn [List.length seq combine foldr snd fst].
        assert (Nt : nth_error all (List.length l1) = Some t) by (rewrite E, nth_error_app2, Nat.sub_diag by lia; reflexivity).
        assert (IH' : forall es1, (forall a b, In (a, b) es1 <-> exists i j ka kb, ka < S (List.length l1) /\ nth_error all ka = Some (TPtr i) /\ nth_error all kb = Some (TPtr j) /\ derives st i j /\ a = Z.of_nat ka /\ b = Z.of_nat kb) ->
          exists es', foldr (fun es p => match complex_base st (snd p) with
                     | Some b => match type_name st b with
                                 | Some n => match lookup n ix with Some j => Ret (es ++ [(Z.of_nat (fst p), Z.of_nat j)])%list | None => Panic end
                                 | None => Panic end
                     | None => Ret es end) es1 (combine (seq (S (List.length l1)) (List.length l2)) l2) = Ret es' /\
          (forall a b, In (a, b) es' <-> exists i j ka kb, ka < List.length all /\ nth_error all ka = Some (TPtr i) /\ nth_error all kb = Some (TPtr j) /\ derives st i j /\ a = Z.of_nat ka /\ b = Z.of_nat kb)).
        { intros es1. specialize (IH (l1 ++ [t])%list es1). rewrite app_length in IH. cbn [List.length] in IH. replace (List.length l1 + 1) with (S (List.length l1)) in IH by lia. apply IH. rewrite <- app_assoc. exact E. }
        clear IH. destruct (complex_base st t) as [b|] eqn:Eb.
        + destruct (D t b Eb) as [i [j [-> [-> Hd]]]]. destruct Hd as [c [H1 [H2 [c' H3]]]]. cbn [type_name]. rewrite H3. cbn [option_map].
          assert (Wj : wanted st l j).
          { destruct (I5 i) as [u [U1 U2]]; [eapply nth_error_In; exact Nt|]. exists u. split; [exact U1|]. eapply an_trans; [exact U2|]. apply an_base; cbn [base_of]; rewrite H1; cbn [def_base]; rewrite H2; [discriminate|constructor]. }
          destruct (lookup (def_name (DC c')) ix) as [k|] eqn:L; [|exfalso; exact (Cov j _ Wj H3 L)]. cbn [andthen].
          destruct (I3 _ _ L) as [u [U1 U2]]. assert (u = TPtr j) as -> by (apply (same_name j (DC c')); [exact H3|apply I2; eapply nth_error_In; exact U1|exact U2]).
          apply IH'. intros a b. rewrite in_app_iff, H. split.
          * intros [[i' [j' [ka [kb [L1 R]]]]]|[X|[]]]; [exists i', j', ka, kb; split; [lia|exact R]|]. injection X as <- <-. exists i, j, (List.length l1), k. split; [lia|]. split; [exact Nt|]. split; [exact U1|].
            split; [exists c; split; [exact H1|split; [exact H2|exists c'; exact H3]]|]. auto.
          * intros [i' [j' [ka [kb [L1 [R1 [R2 [R3 [-> ->]]]]]]]]]. destruct (Nat.eq_dec ka (List.length l1)) as [->|N]; [|left; exists i', j', ka, kb; split; [lia|auto]].
            right. left. assert (i' = i) as -> by congruence. destruct R3 as [c0 [Q1 [Q2 _]]]. assert (j' = j) as -> by congruence.
            assert (kb = k) as ->; [|reflexivity]. eapply (proj1 (NoDup_nth_error all) I1); [apply nth_error_Some; congruence|congruence].
        + cbn [andthen]. apply IH'. intros a b. rewrite H. split; intros [i' [j' [ka [kb [L1 [R1 [R2 [R3 R4]]]]]]]]; exists i', j', ka, kb; (split; [|auto]); [lia|].
          destruct (Nat.eq_dec ka (List.length l1)) as [->|N]; [|lia]. exfalso. rewrite Nt in R1. injection R1 as ->. rewrite (D' _ _ R3) in Eb. discriminate. }
    destruct (G all [] [] eq_refl) as [es [E H]]; [intros a b; split; [intros []|intros [i [j [ka [kb [X _]]]]]; cbn in X; lia]|].
    exists es. split; [exact E|]. intros a b. rewrite H. split; intros [i [j [ka [kb R]]]]; exists i, j, ka, kb; [tauto|]. split; [apply nth_error_Some; destruct R; congruence|exact R].
  Qed.

  (* ---------- the walk ---------- *)
  Lemma derives_dec i : (exists j, derives st i j) \/ (forall j, ~ derives st i j).
  Proof using Type.
    clear Hroot Hapart Hknown Hnd.
    destruct (nth_error st i) as [[c|s]|] eqn:E.
    - destruct (ct_base c) as [| | |j] eqn:Eb.
      1,2,3: right; intros j [c' [H1 [H2 _]]]; assert (c' = c) as -> by congruence; congruence.
      destruct (nth_error st j) as [[c'|s']|] eqn:Ej; [left; exists j, c; split; [exact E|split; [exact Eb|exists c'; exact Ej]]| |].
      1,2: right; intros k [c2 [H1 [H2 [c3 H3]]]]; assert (c2 = c) as -> by congruence; assert (k = j) as -> by congruence; congruence.
    - right. intros j [c [H _]]. congruence.
    - right. intros j [c [H _]]. congruence.
  Qed.
  Variable ix : list (xname * nat).
  Variable all : list ty.
  Hypothesis HI : indexed ix all.
  Hypothesis Hcov : forall i d, wanted st l i -> nth_error st i = Some d -> lookup (def_name d) ix <> None.
  Lemma place i d : wanted st l i -> nth_error st i = Some d -> exists k, nth_error all k = Some (TPtr i).
  Proof using Hapart HI Hcov.
    clear Hroot Hknown Hnd. intros W H. pose proof (Hcov i d W H) as L. destruct (lookup (def_name d) ix) as [k|] eqn:E; [|congruence].
    destruct HI as [I1 [I2 [I3 _]]]. destruct (I3 _ _ E) as [u [U1 U2]]. exists k. rewrite U1. f_equal. apply (same_name i d); [exact H|apply I2; eapply nth_error_In; exact U1|exact U2].
  Qed.
  Lemma wanted_base i j : wanted st l i -> derives st i j -> wanted st l j.
  Proof using Type.
    intros [u [U1 U2]] [c [H1 [H2 _]]]. exists u. split; [exact U1|]. eapply an_trans; [exact U2|]. apply an_base; cbn [base_of]; rewrite H1; cbn [def_base]; rewrite H2; [discriminate|constructor].
  Qed.
  Definition hit (done : list Z) (i : nat) : Prop := (exists k, In (Z.of_nat k) done /\ nth_error all k = Some (TPtr i)) /\ exists j, derives st i j.
  Definition sofar (done : list Z) (cur : store) : Prop := List.length cur = List.length st /\ forall i d, nth_error st i = Some d ->
    (hit done i -> exists c es ats, d = DC c /\ inherits st i es ats /\ nth_error cur i = Some (DC (with_fields c es ats))) /\ (~ hit done i -> nth_error cur i = Some d).
  Lemma hit_dec done i : hit done i \/ ~ hit done i.
  Proof using Hapart HI Hcov.
    destruct (derives_dec i) as [D|D]; [|right; intros [_ [j Hj]]; exact (D j Hj)].
    destruct (in_dec ty_dec (TPtr i) all) as [A|A]; [|right; intros [[k [_ Hk]] _]; apply A; eapply nth_error_In; exact Hk].
    destruct (In_nth_error _ _ A) as [k Hk]. destruct (in_dec Z.eq_dec (Z.of_nat k) done) as [B|B]; [left; split; [exists k; auto|exact D]|].
    right. intros [[k' [H1 H2]] _]. apply B. replace k with k'; [exact H1|]. destruct HI as [I1 _]. eapply (proj1 (NoDup_nth_error all) I1); [apply nth_error_Some; congruence|congruence].
  Qed.
  Lemma filter_same {A} (name : A -> xname) (own m : list A) : filter (fun e => negb (mem_name (name e) (map name own))) m = others name own m.
  Proof using Type.
    clear. unfold others. apply filter_ext. intros a. f_equal. unfold mem_name. induction own as [|x own IH]; [reflexivity|]. cbn [map existsb]. rewrite IH. f_equal.
    destruct (xname_eqb (name a) (name x)) eqn:E; symmetry; [apply xname_eqb_eq in E; apply xname_eqb_eq; congruence|].
    destruct (xname_eqb (name x) (name a)) eqn:E'; [|reflexivity]. apply xname_eqb_eq in E'. rewrite E', (proj2 (xname_eqb_eq _ _) eq_refl) in E. discriminate.
  Qed.
  Lemma walk_step done v cur i k : sofar done cur -> v = Z.of_nat k -> nth_error all k = Some (TPtr i) -> ~ In v done -> complex_at st i ->
    (forall j, derives st i j -> exists k', In (Z.of_nat k') done /\ nth_error all k' = Some (TPtr j)) ->
    exists cur', expand_one cur (TPtr i) = Ret cur' /\ sofar (done ++ [v]) cur'.
  Proof using Hroot Hapart HI Hcov.
    intros [L S] -> Hk Nd [c Hc] Hdone.
    assert (U : forall k', nth_error all k' = Some (TPtr i) -> k' = k). { intros k' H. destruct HI as [I1 _]. eapply (proj1 (NoDup_nth_error all) I1); [apply nth_error_Some; congruence|congruence]. }
    assert (Nh : ~ hit done i). { intros [[k' [H1 H2]] _]. apply Nd. rewrite <- (U k' H2). exact H1. }
    assert (Ci : nth_error cur i = Some (DC c)) by exact (proj2 (S i _ Hc) Nh).
    assert (Hmore : forall m, m <> i -> hit (done ++ [Z.of_nat k]) m <-> hit done m).
    { intros m Nm. split; intros [[k' [H1 H2]] H3]; (split; [|exact H3]); exists k'; (split; [|exact H2]).
      - apply in_app_or in H1 as [H1|[H1|[]]]; [exact H1|]. apply Nat2Z.inj in H1 as <-. congruence.
      - apply in_or_app. left. exact H1. }
    destruct (derives_dec i) as [[j D]|D].
    - pose proof D as [c' [H1 [H2 [cj H3]]]]. assert (c' = c) as -> by congruence. clear H1.
      assert (B : exists es ats cb, inherits st j es ats /\ nth_error cur j = Some (DC cb) /\ ct_elems cb = es /\ ct_attrs cb = ats).
      { destruct (Hdone j D) as [kj [K1 K2]]. destruct (derives_dec j) as [Dj|Dj].
        - destruct (proj1 (S j _ H3)) as [c1 [es [ats [E1 [E2 E3]]]]]; [split; [exists kj; auto|exact Dj]|]. exists es, ats, (with_fields c1 es ats). repeat split; auto.
        - exists (ct_elems cj), (ct_attrs cj), cj. split; [constructor; assumption|]. split; [|auto]. apply (proj2 (S j _ H3)). intros [_ [m Hm]]. exact (Dj m Hm). }
      destruct B as [es [ats [cb [B1 [B2 [B3 B4]]]]]].
      cbn [expand_one]. rewrite (proj2 (get_c_nth cur i c) Ci), H2, (proj2 (get_c_nth cur j cb) B2). unfold merged_fields. rewrite !filter_same, B3, B4.
      eexists. split; [reflexivity|]. unfold put_c. split; [rewrite set_nth_length; exact L|]. intros m d Hm. rewrite (put_nth _ _ _ _ m Ci). destruct (Nat.eqb m i) eqn:N.
      + apply Nat.eqb_eq in N as ->. assert (d = DC c) as -> by congruence. split.
        * intros _. do 3 eexists. split; [reflexivity|]. split; [|reflexivity]. eapply inh_derived; eassumption.
        * intros X. exfalso. apply X. split; [exists k; split; [apply in_or_app; right; left; reflexivity|exact Hk]|exists j; exact D].
      + apply Nat.eqb_neq in N. rewrite (Hmore m N). exact (S m d Hm).
    - exists cur. split.
      + cbn [expand_one]. rewrite (proj2 (get_c_nth cur i c) Ci). destruct (ct_base c) as [| | |j] eqn:Eb; try reflexivity. destruct (get_c cur j) as [cb|] eqn:Ej; [|reflexivity]. exfalso. apply get_c_nth in Ej.
        destruct (nth_error st j) as [d|] eqn:E; [|apply nth_error_None in E; rewrite <- L in E; apply nth_error_None in E; congruence].
        assert (exists c', d = DC c') as [c' ->]. { destruct (hit_dec done j) as [H|H]; [destruct (proj1 (S j d E) H) as [c' [_ [_ [X _]]]]; eauto|]. rewrite (proj2 (S j d E) H) in Ej. injection Ej as ->. eauto. }
        apply (D j). exists c. split; [exact Hc|]. split; [exact Eb|exists c'; exact E].
      + split; [exact L|]. intros m d Hm. destruct (Nat.eq_dec m i) as [->|N]; [|rewrite (Hmore m N); exact (S m d Hm)]. split; [intros [_ [j Hj]]; exfalso; exact (D j Hj)|].
        intros _. exact (proj2 (S i d Hm) Nh).
  Qed.
  Lemma walk es order : (forall a b, In (a, b) es <-> exists i j ka kb, nth_error all ka = Some (TPtr i) /\ nth_error all kb = Some (TPtr j) /\ derives st i j /\ a = Z.of_nat ka /\ b = Z.of_nat kb) ->
    flatten (build es) = Some order -> NoDup order -> (forall v, In v order <-> vertex es v) ->
    exists cur, foldr (fun st i => match nth_error all (Z.to_nat i) with Some t => expand_one st t | None => Panic end) st order = Ret cur /\ sofar order cur.
  Proof using Hroot Hapart HI Hcov.
    intros He Fl Nd Hv.
    assert (Hreach : forall a b, reach es a b -> forall i j, nth_error all (Z.to_nat a) = Some (TPtr i) -> nth_error all (Z.to_nat b) = Some (TPtr j) -> rank_of st j < rank_of st i).
    { induction 1 as [a b E|a b e E R IH]; intros i j Hi Hj; apply He in E as [i' [j' [ka [kb [E1 [E2 [E3 [-> ->]]]]]]]]; rewrite Nat2Z.id in *.
      - assert (i' = i) as -> by congruence. assert (j' = j) as -> by congruence. exact (derives_rank _ _ E3).
      - assert (i' = i) as -> by congruence. pose proof (derives_rank _ _ E3). pose proof (IH _ _ E2 Hj). lia. }
    assert (G : forall rest done cur, order = (done ++ rest)%list -> sofar done cur ->
      exists cur', foldr (fun st i => match nth_error all (Z.to_nat i) with Some t => expand_one st t | None => Panic end) cur rest = Ret cur' /\ sofar order cur').
    { induction rest as [|v rest IH]; intros done cur E Sf; [exists cur; split; [reflexivity|rewrite E, app_nil_r; exact Sf]|]. cbn [foldr].
      assert (Vv : vertex es v) by (apply Hv; rewrite E; apply in_elt).
      assert (Hvi : exists k i, v = Z.of_nat k /\ nth_error all k = Some (TPtr i) /\ complex_at st i).
      { destruct Vv as [w [Hw|Hw]]; apply He in Hw as [i [j [ka [kb [E1 [E2 [E3 [-> ->]]]]]]]].
        - exists ka, i. split; [reflexivity|]. split; [exact E1|]. destruct E3 as [c [X _]]. exists c. exact X.
        - exists kb, j. split; [reflexivity|]. split; [exact E2|]. destruct E3 as [c [_ [_ X]]]. exact X. }
      destruct Hvi as [k [i [Ev [Hk Ci]]]]. cbn beta. assert (Z.to_nat v = k) as Ek by (rewrite Ev; apply Nat2Z.id). rewrite Ek, Hk.
      assert (Nv : ~ In v done). { intros X. rewrite E in Nd. apply NoDup_remove_2 in Nd. apply Nd. apply in_or_app. left. exact X. }
      destruct (walk_step done v cur i k Sf Ev Hk Nv Ci) as [cur' [E1 S1]].
      { intros j D. assert (W : wanted st l j) by (apply (wanted_base i); [destruct HI as [_ [_ [_ [_ I5]]]]; apply I5; eapply nth_error_In; exact Hk|exact D]).
        assert (exists d, nth_error st j = Some d) as [d Hd] by (destruct D as [c [_ [_ [c' X]]]]; eauto). destruct (place j d W Hd) as [kj Hkj].
        assert (Ed : edge es v (Z.of_nat kj)) by (apply He; exists i, j, k, kj; auto). exists kj. split; [|exact Hkj].
        destruct (flatten_topo es order v (Z.of_nat kj) Fl Ed) as [[l1 [l2 [l3 Eo]]]|R].
        - assert (X : done = (l1 ++ Z.of_nat kj :: l2)%list).
          { clear - Nd E Eo. revert done Nd E. rewrite Eo. clear Eo. intros done Nd E. revert done E Nd. generalize (Z.of_nat kj) as w. intros w done E Nd.
            replace (l1 ++ w :: l2 ++ v :: l3)%list with ((l1 ++ w :: l2) ++ v :: l3)%list in * by (rewrite <- app_assoc; reflexivity).
            revert done E. induction (l1 ++ w :: l2)%list as [|x m IHm]; intros done E.
            - destruct done as [|y done]; [reflexivity|]. exfalso. cbn [app] in *. injection E as -> E. inversion Nd; subst. apply H1. apply in_elt.
            - destruct done as [|y done]; cbn [app] in *; injection E as -> E; [exfalso; inversion Nd; subst; apply H1; apply in_elt|]. f_equal. apply IHm; [inversion Nd; assumption|exact E]. }
          rewrite X. apply in_elt.
        - exfalso. pose proof (derives_rank _ _ D). assert (rank_of st i < rank_of st j); [|lia]. apply (Hreach _ _ R); [rewrite Nat2Z.id; exact Hkj|rewrite Ev, Nat2Z.id; exact Hk]. }
      rewrite E1. cbn [andthen]. apply (IH (done ++ [v])%list); [rewrite <- app_assoc; exact E|exact S1]. }
    apply (G order []); [reflexivity|]. split; [reflexivity|]. intros i d H. split; [intros [[k [[] _]] _]|auto].
  Qed.
End Expand.

Lemma expand_all st l : rooted st -> apart st -> NoDup l -> (forall t, In t l -> known st t) -> exists st', expand_types st l = Ret st' /\ List.length st' = List.length st /\
  (forall i j c, nth_error st i = Some (DC c) -> wanted st l i -> derives st i j ->
     exists es ats, inherits st i es ats /\ nth_error st' i = Some (DC (with_fields c es ats))) /\
  (forall i, ~ wanted st l i \/ (forall j, ~ derives st i j) -> nth_error st' i = nth_error st i) /\
  (forall i d, nth_error st i = Some d -> nth_error st' i = Some d \/ exists c j es ats, d = DC c /\ derives st i j /\ wanted st l i /\ inherits st i es ats /\ nth_error st' i = Some (DC (with_fields c es ats))).
Proof.
  intros R A N K. unfold expand_types. destruct (index_ok st l K N) as [ix [E0 I0]]. rewrite E0. cbn [andthen].
  destruct (all_bases st R l K l ix l (fun t H => H) I0 (fun t H => H)) as [ix' [all [E1 [I1 [C1 _]]]]]. rewrite E1. cbn [andthen].
  assert (Cov : forall i d, wanted st l i -> nth_error st i = Some d -> lookup (def_name d) ix' <> None). { intros i d [t [T1 T2]] H. exact (C1 t T1 i d T2 H). }
  destruct (edges_ok st R A l ix' all I1 Cov) as [es [E2 He]]. rewrite E2. cbn [andthen]. destruct (flatten_once es) as [tr [Fl [Nd Hv]]]. rewrite Fl.
  destruct (walk st R A l ix' all I1 Cov es tr He Fl Nd Hv) as [st' [E3 [L S]]]. exists st'. split; [exact E3|]. split; [exact L|].
  assert (Hw : forall i, hit st all tr i -> wanted st l i) by (intros i [[k [_ K2]] _]; destruct I1 as [_ [_ [_ [_ I5]]]]; apply I5; eapply nth_error_In; exact K2).
  split; [|split].
  - intros i j c Hc W D. destruct (place st A l ix' all I1 Cov i _ W Hc) as [k Hk].
    assert (exists d, nth_error st j = Some d) as [d Hd] by (destruct D as [c1 [_ [_ [c' X]]]]; eauto). destruct (place st A l ix' all I1 Cov j _ (wanted_base st l i j W D) Hd) as [kj Hkj].
    destruct (proj1 (S i _ Hc)) as [c' [es' [ats [Ec [X Y]]]]].
    + split; [|exists j; exact D]. exists k. split; [|exact Hk]. apply Hv. exists (Z.of_nat kj). left. apply He. exists i, j, k, kj. auto.
    + injection Ec as <-. eauto.
  - intros i H. destruct (nth_error st i) as [d|] eqn:E; [|apply nth_error_None; apply nth_error_None in E; lia]. apply (proj2 (S i d E)). intros [[k [K1 K2]] [j Hj]].
    destruct H as [H|H]; [|exact (H j Hj)]. apply H. destruct I1 as [_ [_ [_ [_ I5]]]]. apply I5. eapply nth_error_In. exact K2.
  - intros i d H. destruct (hit_dec st A l ix' all I1 Cov tr i) as [X|X]; [right|left; exact (proj2 (S i d H) X)].
    destruct (proj1 (S i d H) X) as [c [es' [ats [E4 [E5 E6]]]]]. destruct X as [X [j Hj]]. exists c, j, es', ats. split; [exact E4|]. split; [exact Hj|]. split; [apply Hw; split; [exact X|exists j; exact Hj]|]. auto.
Qed.
Theorem expand_main st l : rooted st -> apart st -> NoDup l -> (forall t, In t l -> known st t) -> exists st', expand_types st l = Ret st' /\ List.length st' = List.length st /\
  (forall i j c, nth_error st i = Some (DC c) -> wanted st l i -> derives st i j ->
     exists es ats, inherits st i es ats /\ nth_error st' i = Some (DC (with_fields c es ats))) /\
  (forall i, ~ wanted st l i \/ (forall j, ~ derives st i j) -> nth_error st' i = nth_error st i).
Proof. intros R A N K. destruct (expand_all st l R A N K) as [st' [H1 [H2 [H3 [H4 _]]]]]. exists st'. auto. Qed.
