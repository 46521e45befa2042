(* Declarations in the generated file; missing namespaces. *)
From Coq Require Import Sorted.
From Verif Require Import Base SortLib ScopeModel TreeModel EqualModel Utf8 Decimal BuiltinModel CodecModel XsdModel TypesModel TypesProofs GraphModel GenModel SgModel SgStruct SgProofs SgNames.
Local Open Scope string_scope.

Definition le_str (a b : string) : Prop := s_leb a b = true.
Definition sorts_strings (sort : list string -> list string) : Prop := forall l, Permutation l (sort l) /\ Sorted le_str (sort l).
Lemma le_str_trans : forall x y z, le_str x y -> le_str y z -> le_str x z.
Proof. intros x y z. apply s_leb_trans. Qed.
(* sorted lists with the same elements are equal *)
Lemma sorted_unique : forall l m, StronglySorted le_str l -> StronglySorted le_str m -> Permutation l m -> l = m.
Proof.
  induction l as [|a l IH]; intros m Hl Hm P; [apply Permutation_nil in P; auto|]. destruct m as [|b m]; [apply Permutation_sym, Permutation_nil in P; discriminate|].
  apply StronglySorted_inv in Hl as [Hl Fl]. apply StronglySorted_inv in Hm as [Hm Fm]. rewrite Forall_forall in Fl, Fm.
  assert (E : a = b).
  { apply s_leb_antisym.
    - assert (I : In b (a :: l)) by (apply (Permutation_in b (Permutation_sym P)); left; reflexivity). destruct I as [->|I]; [apply s_leb_refl|exact (Fl b I)].
    - assert (I : In a (b :: m)) by (apply (Permutation_in a P); left; reflexivity). destruct I as [->|I]; [apply s_leb_refl|exact (Fm a I)]. }
  subst b. f_equal. apply IH; [exact Hl|exact Hm|]. exact (Permutation_cons_inv P).
Qed.
Lemma sort_same sort sort' l m : sorts_strings sort -> sorts_strings sort' -> Permutation l m -> sort l = sort' m.
Proof.
  intros S S' P. destruct (S l) as [P1 S1]. destruct (S' m) as [P2 S2]. apply sorted_unique; try (apply Sorted_StronglySorted; [exact le_str_trans|assumption]).
  exact (Permutation_trans (Permutation_sym P1) (Permutation_trans P P2)).
Qed.
Section Decl.
  Context {S : Type}.
  Lemma gen_ast_fst sort (decls : list (string * S)) : sorts_strings sort -> map fst (gen_ast sort decls) = sort (map fst decls).
  Proof.
    intros Hs. unfold gen_ast. destruct (Hs (map fst decls)) as [P _].
    assert (X : forall n, In n (sort (map fst decls)) -> sget n decls <> None).
    { intros n Hn. apply (Permutation_in n (Permutation_sym P)) in Hn. clear P. induction decls as [|[k v] m IH]; [destruct Hn|]. cbn [sget map fst] in *.
      destruct (String.eqb k n) eqn:E; [discriminate|]. destruct Hn as [->|Hn]; [rewrite String.eqb_refl in E; discriminate|exact (IH Hn)]. }
    revert X. generalize (sort (map fst decls)). intros l. induction l as [|n l IH]; intros X; [reflexivity|]. cbn [flat_map]. rewrite map_app, IH by (intros k Hk; apply X; right; exact Hk).
    specialize (X n (or_introl eq_refl)). destruct (sget n decls); [reflexivity|congruence].
  Qed.
  Lemma gen_ast_in sort (decls : list (string * S)) : sorts_strings sort -> forall n s, In (n, s) (gen_ast sort decls) <-> sget n decls = Some s.
  Proof.
    intros Hs n s. unfold gen_ast. rewrite in_flat_map. destruct (Hs (map fst decls)) as [P _]. split.
    - intros [k [_ Hk]]. destruct (sget k decls) as [v|] eqn:E; [|destruct Hk]. destruct Hk as [Hk|[]]. congruence.
    - intros H. exists n. split; [|rewrite H; left; reflexivity]. apply (Permutation_in n P). apply sget_in in H. apply (in_map fst) in H. exact H.
  Qed.
  (* the value under a name is the last one declared *)
  Lemma declare_get (l : list (string * S)) : forall m n, sget n (declare m l) = match find_last (fun p => String.eqb (fst p) n) l with Some p => Some (snd p) | None => sget n m end.
  Proof.
    induction l as [|[k v] l IH]; intros m n; [reflexivity|]. unfold declare. cbn [fold_left fst snd]. fold (declare (sset k v m) l). rewrite IH. cbn [find_last fst snd].
    destruct (find_last (fun p => String.eqb (fst p) n) l); [reflexivity|]. rewrite sget_sset. destruct (String.eqb k n); reflexivity.
  Qed.
  Lemma declare_nodup (l : list (string * S)) : forall m, NoDup (map fst m) -> NoDup (map fst (declare m l)).
  Proof. induction l as [|[k v] l IH]; intros m H; [exact H|]. unfold declare. cbn [fold_left fst snd]. apply IH, sset_nodup, H. Qed.
  Lemma declared_ast sort (l : list (string * S)) : sorts_strings sort ->
    NoDup (map fst (gen_ast sort (declare [] l))) /\ Sorted le_str (map fst (gen_ast sort (declare [] l))) /\
    (forall n, In n (map fst (gen_ast sort (declare [] l))) <-> In n (map fst l)) /\
    (forall n s, In (n, s) (gen_ast sort (declare [] l)) <-> exists l1 l2, l = (l1 ++ (n, s) :: l2)%list /\ ~ In n (map fst l2)).
  Proof.
    intros Hs. rewrite (gen_ast_fst sort _ Hs). destruct (Hs (map fst (declare [] l))) as [P So].
    assert (G : forall n s, In (n, s) (gen_ast sort (declare [] l)) <-> exists l1 l2, l = (l1 ++ (n, s) :: l2)%list /\ ~ In n (map fst l2)).
    { intros n s. rewrite (gen_ast_in sort _ Hs), declare_get. split.
      - destruct (find_last _ l) as [p|] eqn:E; [|discriminate]. intros [= <-]. apply find_last_some in E as [l1 [l2 [-> [Hp Hl]]]]. apply String.eqb_eq in Hp. destruct p as [k s]. cbn [fst snd] in *. subst k.
        exists l1, l2. split; [reflexivity|]. intros Hi. apply in_map_iff in Hi as [q [Hq Hi]]. specialize (Hl q Hi). cbn beta in Hl. rewrite Hq, String.eqb_refl in Hl. discriminate.
      - intros [l1 [l2 [-> Hn]]]. rewrite find_last_app. cbn [find_last fst]. rewrite String.eqb_refl.
        destruct (find_last _ l2) as [p|] eqn:E; [|reflexivity]. exfalso. apply find_last_some in E as [a [b [-> [Hp _]]]]. apply String.eqb_eq in Hp. apply Hn. rewrite map_app. apply in_or_app. right. left. exact Hp. }
    split; [|split; [exact So|split; [|exact G]]].
    - apply (Permutation_NoDup P). apply declare_nodup. constructor.
    - intros n. split.
      + intros Hi. apply (Permutation_in n (Permutation_sym P)) in Hi. apply in_map_iff in Hi as [[k s] [Hk Hi]]. cbn [fst] in Hk. subst k.
        apply sget_nodup_in in Hi; [|apply declare_nodup; constructor]. apply (gen_ast_in sort _ Hs) in Hi. apply G in Hi as [l1 [l2 [-> _]]]. rewrite map_app. apply in_or_app. right. left. reflexivity.
      + intros Hi. assert (X : exists l1 s l2, l = (l1 ++ (n, s) :: l2)%list /\ ~ In n (map fst l2)).
        { clear -Hi. induction l as [|[k v] l IH]; [destruct Hi|]. cbn [map fst] in Hi. destruct (in_dec string_dec n (map fst l)) as [I|I].
          - destruct (IH I) as [l1 [s [l2 [-> H]]]]. exists ((k, v) :: l1), s, l2. auto.
          - destruct Hi as [->|Hi]; [|contradiction]. exists [], v, l. auto. }
        destruct X as [l1 [s [l2 [H1 H2]]]]. rewrite <- (gen_ast_fst sort _ Hs). apply in_map_iff. exists (n, s). split; [reflexivity|]. apply G. exists l1, l2. auto.
  Qed.
  Lemma flat_map_ext_in {A B} (f g : A -> list B) l : (forall a, In a l -> f a = g a) -> flat_map f l = flat_map g l.
  Proof. induction l as [|a l IH]; intros H; [reflexivity|]. cbn [flat_map]. rewrite (H a (or_introl eq_refl)), IH; [reflexivity|]. intros b Hb. apply H. right. exact Hb. Qed.
  Lemma declared_order sort sort' (l l' : list (string * S)) : sorts_strings sort -> sorts_strings sort' -> NoDup (map fst l) -> Permutation l l' ->
    gen_ast sort (declare [] l) = gen_ast sort' (declare [] l').
  Proof.
    intros Hs Hs' N P. assert (N' : NoDup (map fst l')) by (apply (Permutation_NoDup (Permutation_map fst P)); exact N).
    assert (G : forall l : list (string * S), NoDup (map fst l) -> forall n s, sget n (declare [] l) = Some s <-> In (n, s) l).
    { clear. intros l N n s. rewrite declare_get. split.
      - destruct (find_last _ l) as [p|] eqn:E; [|discriminate]. intros [= <-]. apply find_last_some in E as [l1 [l2 [-> [Hp _]]]]. apply String.eqb_eq in Hp. destruct p. cbn in *. subst. apply in_or_app. right. left. reflexivity.
      - intros Hi. apply in_split in Hi as [l1 [l2 ->]]. rewrite find_last_app. cbn [find_last fst]. rewrite String.eqb_refl. rewrite map_app in N. apply NoDup_remove_2 in N.
        destruct (find_last _ l2) as [p|] eqn:E; [|reflexivity]. exfalso. apply find_last_some in E as [a [b [-> [Hp _]]]]. apply String.eqb_eq in Hp. apply N. apply in_or_app. right.
        apply in_map_iff. exists p. split; [exact Hp|]. apply in_or_app. right. left. reflexivity. }
    assert (E : forall n, sget n (declare [] l) = sget n (declare [] l')).
    { intros n. destruct (sget n (declare [] l)) as [s|] eqn:X.
      - symmetry. apply (G l' N'). apply (Permutation_in _ P). apply (G l N). exact X.
      - destruct (sget n (declare [] l')) as [s|] eqn:Y; [|reflexivity]. apply (G l' N') in Y. apply (Permutation_in _ (Permutation_sym P)) in Y. apply (G l N) in Y. congruence. }
    assert (K : Permutation (map fst (declare [] l)) (map fst (declare [] l'))).
    { apply NoDup_Permutation; try (apply declare_nodup; constructor). intros n. rewrite !in_map_iff. split; intros [[k s] [Hk Hi]]; cbn in Hk; subst k.
      - apply sget_nodup_in in Hi; [|apply declare_nodup; constructor]. rewrite E in Hi. apply sget_in in Hi. exists (n, s). auto.
      - apply sget_nodup_in in Hi; [|apply declare_nodup; constructor]. rewrite <- E in Hi. apply sget_in in Hi. exists (n, s). auto. }
    unfold gen_ast. rewrite (sort_same sort sort' _ _ Hs Hs' K). apply flat_map_ext_in. intros n _. rewrite E. reflexivity.
  Qed.
End Decl.

(* ---------- namespaces ---------- *)
Lemma filter_len {A} (f : A -> bool) l : List.length (filter f l) <= List.length l.
Proof. induction l as [|a l IH]; cbn; [lia|]. destruct (f a); cbn; lia. Qed.
Lemma primaries_in ns deps d : In d (primaries ns deps) <-> In d deps /\ In d ns.
Proof. unfold primaries. rewrite filter_In, mem_str_in. reflexivity. Qed.
Lemma found_all ns deps : NoDup deps -> forall p, check_namespaces ns deps = inr p -> NoDup ns -> forall n, In n ns -> In n deps.
Proof.
  unfold check_namespaces. intros D p. destruct (Nat.ltb _ _) eqn:L; [discriminate|]. apply Nat.ltb_ge in L. intros _ N n Hn.
  assert (I : incl (primaries ns deps) ns) by (intros x Hx; apply primaries_in in Hx; apply Hx).
  assert (NP : NoDup (primaries ns deps)) by (apply NoDup_filter; exact D).
  pose proof (NoDup_length_incl NP L I) as J. apply J in Hn. apply primaries_in in Hn. apply Hn.
Qed.
Lemma missing_reported ns deps m : check_namespaces ns deps = inl m -> NoDup ns -> m <> [] /\ forall n, In n m <-> In n ns /\ ~ In n deps.
Proof.
  unfold check_namespaces. destruct (Nat.ltb _ _) eqn:L; [|discriminate]. apply Nat.ltb_lt in L. intros [= <-] N.
  assert (M : forall n, In n (filter (fun n => negb (mem_str n (primaries ns deps))) ns) <-> In n ns /\ ~ In n deps).
  { intros n. rewrite filter_In, Bool.negb_true_iff, mem_str_out, primaries_in. tauto. }
  split; [|exact M]. intros E.
  assert (I : incl ns (primaries ns deps)).
  { intros n Hn. destruct (in_dec string_dec n (primaries ns deps)) as [H|H]; [exact H|]. exfalso.
    assert (X : In n (filter (fun n => negb (mem_str n (primaries ns deps))) ns)) by (apply filter_In; split; [exact Hn|]; apply Bool.negb_true_iff, mem_str_out, H).
    rewrite E in X. destruct X. }
  pose proof (NoDup_incl_length N I). lia.
Qed.
Lemma found_primaries ns deps p : check_namespaces ns deps = inr p -> p = filter (fun d => named_in ns d) deps.
Proof.
  unfold check_namespaces. destruct (Nat.ltb _ _); [discriminate|]. intros [= <-]. unfold primaries. apply filter_ext. intros d. apply named_mem.
Qed.
