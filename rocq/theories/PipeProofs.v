(* From documents to types that code can be generated from. *)
From Coq Require Import Permutation.
From Verif Require Import Base SortLib ScopeModel TreeModel EqualModel BuiltinModel BuiltinProofs CodecModel XsdModel XsdProofs TypesModel TypesSpec TypesProofs TypesMixed TypesParse TypesFinal TypesOrder GenModel SgModel SgStruct SgFlatSpec SgExpandSpec SgExpandExamples SliceModel SgGen SgGenSpec SgGenProofs PipeModel PipeSpec BindProofs SgFlatten SgGenName SgOrderSpec SgOrderReach SgOrderCode SgGenReach SgDecl.
Local Open Scope string_scope.

Lemma nth_lt {A} (l : list A) i x : nth_error l i = Some x -> i < List.length l.
Proof. intros H. apply nth_error_Some. rewrite H. discriminate. Qed.

(* ---------- where the declarations go ---------- *)
Lemma nodup_app {A} (a b : list A) : NoDup a -> NoDup b -> (forall x, In x a -> ~ In x b) -> NoDup (a ++ b)%list.
Proof.
  intros Ha Hb. induction Ha as [|x a H Ha IH]; intros D; [exact Hb|]. cbn [app]. constructor.
  - intros Hx. apply in_app_or in Hx as [Hx|Hx]; [exact (H Hx)|exact (D x (or_introl eq_refl) Hx)].
  - apply IH. intros y Hy. apply D. right. exact Hy.
Qed.
Definition placed (k : nat) (l : list (xname * def)) : types := map (fun p => (fst (snd p), TPtr (fst p))) (combine (seq k (List.length l)) l).
Lemma placed_app k a b : placed k (a ++ b)%list = (placed k a ++ placed (k + List.length a) b)%list.
Proof.
  unfold placed. rewrite app_length, seq_app.
  assert (C : forall {A B} (a a' : list A) (b b' : list B), List.length a = List.length b -> combine (a ++ a')%list (b ++ b')%list = (combine a b ++ combine a' b')%list).
  { intros A B. induction a0 as [|x a0 IHa]; intros a' [|y b0] b' H; try discriminate; [reflexivity|]. cbn [app combine]. rewrite IHa; [reflexivity|]. cbn [List.length] in H. congruence. }
  rewrite C by (rewrite seq_length; reflexivity). rewrite map_app. reflexivity.
Qed.
Lemma mset_fresh {V} k (v : V) m : ~ In k (map fst m) -> mset k v m = (m ++ [(k, v)])%list.
Proof.
  induction m as [|[k' v'] m IH]; intros H; [reflexivity|]. cbn [mset app map fst In] in *. destruct (xname_eqb k' k) eqn:E; [apply xname_eqb_eq in E; destruct H; left; exact E|]. rewrite IH; [reflexivity|]. intros X. apply H. right. exact X.
Qed.
Lemma alloc_fresh : forall l st m, NoDup (map fst m ++ map fst l)%list -> alloc st m l = ((st ++ map snd l)%list, (m ++ placed (List.length st) l)%list).
Proof.
  induction l as [|[n d] l IH]; intros st m N; cbn [alloc]; [cbn [placed map]; rewrite !app_nil_r; reflexivity|].
  cbn [map fst] in N. assert (F : ~ In n (map fst m)). { intros H. apply NoDup_remove_2 in N. apply N, in_or_app. left. exact H. }
  rewrite mset_fresh by exact F. rewrite IH.
  - rewrite app_length. cbn [List.length]. unfold placed. cbn [List.length seq combine map fst snd]. rewrite Nat.add_1_r, <- !app_assoc. reflexivity.
  - rewrite map_app. cbn [map fst]. rewrite <- app_assoc. exact N.
Qed.
Lemma sset_fresh {V} k (v : V) m : ~ In k (map fst m) -> sset k v m = (m ++ [(k, v)])%list.
Proof.
  induction m as [|[k' v'] m IH]; intros H; [reflexivity|]. cbn [sset app map fst In] in *. destruct (String.eqb k' k) eqn:E; [apply String.eqb_eq in E; destruct H; left; exact E|]. rewrite IH; [reflexivity|]. intros X. apply H. right. exact X.
Qed.
Lemma alloc_all_fresh : forall l st parsed, NoDup (map fst parsed ++ map rd_tns l)%list -> (forall r, In r l -> NoDup (map fst (rd_types r))) ->
  exists parsed', alloc_all st parsed l = ((st ++ map snd (flat_map rd_types l))%list, parsed') /\
    (forall ns own, In (ns, own) parsed -> In (ns, own) parsed') /\
    (forall l1 r l2, l = (l1 ++ r :: l2)%list -> In (rd_tns r, placed (List.length st + List.length (flat_map rd_types l1)) (rd_types r)) parsed') /\
    forall n t, In (n, t) (flat_map snd parsed') <-> In (n, t) (flat_map snd parsed) \/ In (n, t) (placed (List.length st) (flat_map rd_types l)).
Proof.
  induction l as [|r l IH]; intros st parsed N U; cbn [alloc_all].
  - exists parsed. cbn [flat_map map]. rewrite app_nil_r. split; [reflexivity|]. split; [auto|]. split; [intros l1 r l2 H; destruct l1; discriminate|]. intros n t. unfold placed. cbn [List.length seq combine map In]. tauto.
  - rewrite (alloc_fresh (rd_types r) st []) by exact (U r (or_introl eq_refl)). cbn [map app] in *. assert (F : ~ In (rd_tns r) (map fst parsed)). { intros H. apply NoDup_remove_2 in N. apply N, in_or_app. left. exact H. }
    rewrite sset_fresh by exact F. destruct (IH (st ++ map snd (rd_types r))%list (parsed ++ [(rd_tns r, placed (List.length st) (rd_types r))])%list) as (p' & E & K & P & Q).
    { rewrite map_app. cbn [map fst]. rewrite <- app_assoc. exact N. }
    { intros r' H. apply U. right. exact H. }
    exists p'. rewrite E. cbn [flat_map]. rewrite map_app, app_assoc. split; [reflexivity|]. split; [intros ns own H; apply K, in_or_app; left; exact H|]. split.
    + intros [|r1 l1] r2 l2 Hl; cbn [app] in Hl.
      * injection Hl as <- <-. cbn [flat_map List.length]. rewrite Nat.add_0_r. apply K, in_or_app. right. left. reflexivity.
      * injection Hl as <- Hl. specialize (P l1 r2 l2 Hl). rewrite app_length, map_length in P. cbn [flat_map]. rewrite app_length, Nat.add_assoc. exact P.
    + intros n t. rewrite Q. rewrite flat_map_app, in_app_iff. cbn [flat_map snd]. rewrite app_nil_r, placed_app, in_app_iff, app_length, map_length. tauto.
Qed.
Lemma in_placed k l n t : In (n, t) (placed k l) <-> exists i d, t = TPtr (k + i) /\ nth_error l i = Some (n, d).
Proof.
  unfold placed. rewrite in_map_iff. split.
  - intros ([i [m d]] & E & H). cbn [fst snd] in E. injection E as <- <-. apply In_nth_error in H as [j Hj].
    assert (Q : forall (l : list (xname * def)) k j x, nth_error (combine (seq k (List.length l)) l) j = Some x -> fst x = k + j /\ nth_error l j = Some (snd x)).
    { clear. induction l as [|a l IH]; intros k j x H; [destruct j; discriminate|]. destruct j as [|j]; cbn [List.length seq combine nth_error] in H; [injection H as <-; cbn [fst snd nth_error]; split; [lia|reflexivity]|].
      apply IH in H as [H1 H2]. split; [lia|exact H2]. }
    apply Q in Hj as [H1 H2]. cbn [fst snd] in *. exists j, d. split; [congruence|exact H2].
  - intros (i & d & -> & H). exists (k + i, (n, d)). split; [reflexivity|].
    revert k i H. induction l as [|a l IH]; intros k i H; [destruct i; discriminate|]. cbn [List.length seq combine]. destruct i as [|i]; cbn [nth_error] in H; [injection H as ->; left; f_equal; lia|].
    right. specialize (IH (S k) i H). replace (k + S i) with (S k + i) by lia. exact IH.
Qed.

Lemma aliases_in g : forall als own own', foldo (add_alias g) own als = Some own' -> forall k t, In (k, t) own' -> In (k, t) own \/ exists a o, In a als /\ lookup_type g o (snd a) = Some t.
Proof.
  induction als as [|a als IH]; intros own own' H k t Ht; cbn [foldo] in H; [injection H as <-; left; exact Ht|]. destruct (add_alias g own a) as [o1|] eqn:E; [|discriminate]. apply add_alias_spec in E as (_ & _ & C & _).
  destruct (IH o1 own' H k t Ht) as [H1|(a' & o & H1 & H2)]; [|right; exists a', o; split; [right; exact H1|exact H2]]. destruct (C k t H1) as [H2|H2]; [left; exact H2|right; exists a, own; split; [left; reflexivity|exact H2]].
Qed.
Lemma finish_maps g ord : forall l' k st parsed st' parsed', finish g ord k l' (st, parsed) = Ok (st', parsed') -> forall ns own' n t, sget ns parsed' = Some own' -> In (n, t) own' ->
  (exists own, sget ns parsed = Some own /\ In (n, t) own) \/ exists r a o, In r l' /\ rd_tns r = ns /\ In a (rd_aliases r) /\ lookup_type g o (snd a) = Some t.
Proof.
  induction l' as [|r l' IH]; intros k st parsed st' parsed' H ns own' n t Hs Ht; cbn [finish] in H; [injection H as <- <-; left; exists own'; auto|].
  destruct (finish_one g (ord k) r (st, parsed)) as [[st1 p1]| |] eqn:E; try discriminate. destruct (IH (S k) st1 p1 st' parsed' H ns own' n t Hs Ht) as [(o1 & H1 & H2)|(r' & a & o & H1 & H2)]; [|right; exists r', a, o; split; [right; exact H1|exact H2]].
  cbn [finish_one] in E. destruct (sget (rd_tns r) parsed) as [own|] eqn:Eo; [|discriminate]. destruct (resolve_types _ _ st) as [st2|]; [|discriminate]. destruct (foldo (add_alias g) own (rd_aliases r)) as [own2|] eqn:E2; [|discriminate].
  destruct (propagate_all _ st2) as [st3|]; [|discriminate]. injection E as <- <-. rewrite sget_sset in H1. destruct (String.eqb (rd_tns r) ns) eqn:X; [|left; exists o1; auto]. apply String.eqb_eq in X. injection H1 as <-.
  destruct (aliases_in g _ _ _ E2 n t H2) as [H3|(a & o & H3 & H4)]; [left; exists own; rewrite <- X; auto|]. right. exists r, a, o. split; [left; reflexivity|]. auto.
Qed.

Section Documents.
  Variable h : xname -> nat.
  Variable l : list rd.
  Hypothesis D : documents h l.
  Let st0 := fst (initial l).
  Definition decls : list (xname * def) := flat_map rd_types l.
  Lemma declares_in n d : declares l n d <-> In (n, d) decls.
  Proof. unfold declares, decls. rewrite in_flat_map. reflexivity. Qed.
  Lemma initial_placed : st0 = map snd decls /\ (forall n t, In (n, t) (entries l) <-> In (n, t) (placed 0 decls)) /\
    forall l1 r l2, l = (l1 ++ r :: l2)%list -> sget (rd_tns r) (snd (initial l)) = Some (placed (List.length (flat_map rd_types l1)) (rd_types r)).
  Proof.
    destruct (alloc_all_fresh l [] [] (dc_spaces _ _ D) (dc_once _ _ D)) as (p' & E & _ & P & Q). cbn [app List.length Nat.add flat_map] in *.
    pose proof (keys_nodup l) as K. unfold st0, entries, initial in *. rewrite E in *. cbn [fst snd] in *. split; [reflexivity|]. split; [intros n t; rewrite Q; cbn [In]; tauto|]. intros l1 r l2 Hl. apply sget_nodup_in; [exact K|exact (P l1 r l2 Hl)].
  Qed.
  Lemma initial_nth i d : nth_error st0 i = Some d <-> exists n, nth_error decls i = Some (n, d).
  Proof.
    destruct initial_placed as (-> & _). rewrite nth_error_map. destruct (nth_error decls i) as [[n e]|]; cbn [option_map snd]; split.
    - intros H. exists n. congruence.
    - intros (m & H). congruence.
    - discriminate.
    - intros (m & H). discriminate.
  Qed.
  Lemma entry_nth i n : In (n, TPtr i) (entries l) <-> exists d, nth_error decls i = Some (n, d).
  Proof.
    destruct initial_placed as (_ & E & _). rewrite E, in_placed. split.
    - intros (j & d & H & Hj). cbn [Nat.add] in H. injection H as ->. exists d. exact Hj.
    - intros (d & H). exists i, d. auto.
  Qed.
  Lemma decl_keyed n d : In (n, d) decls -> def_name d = n.
  Proof. rewrite <- declares_in. intros (r & H1 & H2). exact (proj1 (dc_keyed _ _ D r n d H1 H2)). Qed.
  Lemma decls_nodup : NoDup (map fst decls).
  Proof.
    unfold decls. assert (G : forall m, incl m l -> NoDup (map rd_tns m) -> NoDup (map fst (flat_map rd_types m))).
    { induction m as [|r m IH]; intros I N; [constructor|]. cbn [flat_map map] in *. inversion N as [|x y N1 N2]. rewrite map_app. apply nodup_app.
      - apply (dc_once _ _ D), I. left. reflexivity.
      - apply IH; auto. intros x0 Hx. apply I. right. exact Hx.
      - intros n H1 H2. apply in_map_iff in H1 as ([k d] & E1 & H1). apply in_map_iff in H2 as ([k' d'] & E2 & H2). cbn [fst] in *. subst k k'. apply in_flat_map in H2 as (r' & Hr & H2).
        pose proof (proj2 (dc_keyed _ _ D r n d (I r (or_introl eq_refl)) H1)) as S1. pose proof (proj2 (dc_keyed _ _ D r' n d' (I r' (or_intror Hr)) H2)) as S2. apply N1. rewrite <- S1, S2. apply in_map. exact Hr. }
    apply (G l (incl_refl l) (dc_spaces _ _ D)).
  Qed.
  Lemma decl_once n d e : declares l n d -> declares l n e -> d = e.
  Proof. rewrite !declares_in. intros H1 H2. exact (nodup_fst _ n d e decls_nodup H1 H2). Qed.
  Lemma decl_index i j n d e : nth_error decls i = Some (n, d) -> nth_error decls j = Some (n, e) -> i = j.
  Proof.
    intros H1 H2. apply (proj1 (NoDup_nth_error (map fst decls)) decls_nodup); [rewrite map_length; exact (nth_lt _ _ _ H1)|]. rewrite !nth_error_map, H1, H2. reflexivity.
  Qed.
  Lemma not_builtin n d : declares l n d -> parse_builtin n = None.
  Proof.
    intros (r & Hr & Hi). destruct (parse_builtin n) as [b|] eqn:E; [|reflexivity]. exfalso. unfold parse_builtin in E. apply find_some in E as [_ E]. apply xname_eqb_eq in E.
    pose proof (proj2 (dc_keyed _ _ D r n d Hr Hi)) as S. destruct (dc_own _ _ D r Hr) as [O1 O2]. rewrite <- E in S. destruct (builtin_space b) as [X|X]; rewrite S in X; [exact (O1 X)|exact (O2 X)].
  Qed.

  Variable ord : nat -> list (xname * ty) -> list (xname * ty).
  Hypothesis O : any_order ord.
  Variables (st : store) (parsed : list (string * types)).
  Hypothesis E : parse_rds ord l = Ok (st, parsed).
  Lemma st_len : List.length st = List.length decls.
  Proof. rewrite (proj1 (parse_resolved l ord st parsed O E)). destruct initial_placed as (E0 & _). unfold st0 in E0. rewrite E0, map_length. reflexivity. Qed.
  Lemma declared_target n i d t : nth_error decls i = Some (n, d) -> target l parsed n t <-> t = TPtr i.
  Proof.
    intros Hi. assert (Dn : declares l n d) by (apply declares_in; exact (nth_error_In _ _ Hi)). assert (C : called l n (TPtr i)).
    { split; [exists n; apply entry_nth; eauto|]. cbn [type_name]. fold st0. rewrite (proj2 (initial_nth i d) (ex_intro _ n Hi)). cbn [option_map]. f_equal. apply decl_keyed. exact (nth_error_In _ _ Hi). }
    unfold target. rewrite (not_builtin n d Dn). split.
    - intros [H|(H & _)]; [exact (keyed_unique l (dc_keyed _ _ D) n t (TPtr i) H C)|destruct (H _ C)].
    - intros ->. left. exact C.
  Qed.
  (* the types of the result and what they were declared as *)
  Lemma st_nth i d : nth_error st i = Some d -> exists n d0, nth_error decls i = Some (n, d0) /\ def_name d = n /\ resolved (target l parsed) d0 d.
  Proof.
    intros H. pose proof (nth_lt _ _ _ H) as L. rewrite st_len in L. destruct (nth_error decls i) as [[n d0]|] eqn:Ei; [|apply nth_error_None in Ei; lia]. exists n, d0. split; [reflexivity|].
    destruct (proj1 (proj2 (parse_resolved l ord st parsed O E)) n i) as (e0 & e & H0 & H1 & Re & _); [apply entry_nth; eauto|]. assert (e = d) as -> by congruence.
    assert (e0 = d0) as -> by (apply initial_nth in H0 as (m & H0); congruence). split; [|exact Re]. rewrite <- (decl_keyed n d0 (nth_error_In _ _ Ei)). destruct d0, d; cbn [resolved] in Re; try contradiction; cbn [def_name]; [apply Re|]. destruct Re as (_ & _ & ->). reflexivity.
  Qed.
  Lemma decl_nth i n d0 : nth_error decls i = Some (n, d0) -> exists d, nth_error st i = Some d /\ def_name d = n /\ resolved (target l parsed) d0 d.
  Proof.
    intros H. pose proof (nth_lt _ _ _ H) as L. rewrite <- st_len in L. destruct (nth_error st i) as [d|] eqn:Ei; [|apply nth_error_None in Ei; lia]. exists d. split; [reflexivity|]. destruct (st_nth i d Ei) as (m & e & H1 & H2 & H3). assert (X : (m, e) = (n, d0)) by congruence. injection X as -> ->. auto.
  Qed.
  (* a reference and what became of it *)
  Definition became (u0 u : ty) : Prop := match u0 with TB b => u = TB b | TLink m => exists j d, u = TPtr j /\ nth_error decls j = Some (m, d) | _ => False end.
  Lemma uses_refs d u : In u (uses d) -> In u (refs d).
  Proof. destruct d; cbn [uses refs]; [auto|]. intros [<-|[]]. left. reflexivity. Qed.
  Lemma became_points n d0 u0 u : declares l n d0 -> In u0 (uses d0) -> points (target l parsed) u0 u <-> became u0 u.
  Proof.
    intros Dn Hu. destruct u0 as [|b|m|j]; cbn [became].
    - destruct (dc_based _ _ D n d0 Dn Hu).
    - split; [intros P; inversion P; reflexivity|intros ->; constructor].
    - destruct (dc_known _ _ D n d0 m Dn (uses_refs d0 _ Hu)) as (e & He). apply declares_in, In_nth_error in He as (j & Hj). split.
      + intros P. inversion P as [x y P'| | |]. subst. exists j, e. split; [apply (declared_target m j e u Hj); exact P'|exact Hj].
      + intros (k & d & -> & Hk). constructor. apply (declared_target m k d (TPtr k) Hk). reflexivity.
    - destruct Dn as (r & Hr & Hi). exfalso. exact (dc_raw _ _ D r n d0 Hr Hi j (uses_refs d0 _ Hu)).
  Qed.
  Lemma resolved_uses P d0 d u : resolved P d0 d -> In u (uses d) -> exists u0, In u0 (uses d0) /\ points P u0 u.
  Proof.
    destruct d0 as [c0|s0], d as [c|s]; cbn [resolved]; try contradiction.
    - intros (B & Es & As & _) [<-|Hu]; [exists (ct_base c0); split; [left; reflexivity|exact B]|]. apply in_app_or in Hu as [Hu|Hu]; apply in_map_iff in Hu as (x & <- & Hx).
      + destruct (forall2_in_r _ _ _ Es _ Hx) as (e & He & P1 & _). exists (el_type e). split; [right; apply in_or_app; left; apply in_map; exact He|exact P1].
      + destruct (forall2_in_r _ _ _ As _ Hx) as (a & Ha & P1 & _). exists (at_type a). split; [right; apply in_or_app; right; apply in_map; exact Ha|exact P1].
    - intros (B & _) [<-|[]]. exists (sd_base s0). split; [left; reflexivity|exact B].
  Qed.
  Lemma st_uses i d u : nth_error st i = Some d -> In u (uses d) -> exists n d0 u0, nth_error decls i = Some (n, d0) /\ In u0 (uses d0) /\ became u0 u.
  Proof.
    intros H Hu. destruct (st_nth i d H) as (n & d0 & Hi & _ & Re). destruct (resolved_uses _ _ _ u Re Hu) as (u0 & H0 & P). exists n, d0, u0. split; [exact Hi|]. split; [exact H0|].
    apply (became_points n d0 u0 u); auto. apply declares_in. exact (nth_error_In _ _ Hi).
  Qed.
  Lemma base_uses d : In (def_base d) (uses d).
  Proof. destruct d; left; reflexivity. Qed.
  Lemma st_base i d : nth_error st i = Some d -> exists n d0, nth_error decls i = Some (n, d0) /\ became (def_base d0) (def_base d).
  Proof.
    intros H. destruct (st_nth i d H) as (n & d0 & Hi & _ & Re). exists n, d0. split; [exact Hi|]. apply (became_points n d0 _ _); [apply declares_in; exact (nth_error_In _ _ Hi)|apply base_uses|].
    destruct d0, d; cbn [resolved] in Re; try contradiction; cbn [def_base]; apply Re.
  Qed.
  (* ---------- what gen needs ---------- *)
  Definition rank (i : nat) : nat := match nth_error decls i with Some (n, _) => h n | None => 0 end.
  Lemma st_ranked : ranked rank st.
  Proof.
    intros i d j H Hu. destruct (st_uses i d _ H Hu) as (n & d0 & u0 & Hi & H0 & B). unfold rank. rewrite Hi. destruct u0 as [|b|m|k]; cbn [became] in B; try contradiction; try discriminate. destruct B as (k & e & X & Hk). injection X as <-. rewrite Hk.
    apply (dc_rank _ _ D n d0 m); [apply declares_in; exact (nth_error_In _ _ Hi)|exact H0].
  Qed.
  Lemma st_rooted : forall k i d, nth_error st i = Some d -> rank i < k -> exists b, ancestor st (TPtr i) (TB b).
  Proof.
    induction k as [|k IH]; intros i d H L; [lia|]. destruct (st_base i d H) as (n & d0 & Hi & B).
    assert (Eb : base_of st (TPtr i) = def_base d) by (cbn [base_of]; rewrite H; reflexivity). pose proof (base_uses d0) as U0. destruct (def_base d0) as [|b|m|j] eqn:E0; cbn [became] in B; try contradiction.
    - exists b. apply an_base; rewrite Eb, B; [discriminate|constructor].
    - destruct B as (j & e & Ej & Hj). destruct (decl_nth j m e Hj) as (dj & Hdj & _). destruct (IH j dj Hdj) as (b & A).
      + pose proof (st_ranked i d j H) as R. rewrite <- Ej in R. specialize (R (base_uses d)). lia.
      + exists b. apply an_base; rewrite Eb, Ej; [discriminate|exact A].
  Qed.
  Lemma st_complete : complete st.
  Proof.
    intros i d H. split; [exact (st_rooted (S (rank i)) i d H (Nat.lt_succ_diag_r _))|]. intros u Hu. destruct (st_uses i d u H Hu) as (n & d0 & u0 & Hi & H0 & B). destruct u0; cbn [became] in B; try contradiction; [subst u; exact I|].
    destruct B as (j & e & -> & Hj). cbn [known]. rewrite st_len. exact (nth_lt _ _ _ Hj).
  Qed.
  Lemma st_apart : apart st.
  Proof.
    intros i d t H Hn. destruct (st_nth i d H) as (n & d0 & Hi & En & _). destruct t as [|b|m|j]; auto.
    - cbn [type_name] in Hn. injection Hn as Hn. assert (Dn : declares l n d0) by (apply declares_in; exact (nth_error_In _ _ Hi)). destruct Dn as (r & Hr & Hx). pose proof (proj2 (dc_keyed _ _ D r n d0 Hr Hx)) as S. destruct (dc_own _ _ D r Hr) as [O1 O2].
      rewrite En in Hn. rewrite <- Hn in S. destruct (builtin_space b) as [X|X]; rewrite S in X; [exact (O1 X)|exact (O2 X)].
    - cbn [type_name] in Hn. destruct (nth_error st j) as [e|] eqn:Ej; [|discriminate]. cbn [option_map] in Hn. injection Hn as Hn. destruct (st_nth j e Ej) as (m & e0 & Hj & Em & _). assert (m = n) as -> by congruence. exact (decl_index j i n e0 d0 Hj Hi).
  Qed.
  Hypothesis Hh : forall n, h n <= N.to_nat 1000.
  Lemma rank_bound i : rank i <= N.to_nat 1000.
  Proof. unfold rank. destruct (nth_error decls i) as [[n d]|]; [apply Hh|lia]. Qed.
  Lemma st_chain : forall k i, i < List.length st -> rank i <= k -> exists c, chain st (TPtr i) c /\ c <= S k.
  Proof.
    induction k as [|k IH]; intros i L R; (destruct (nth_error st i) as [d|] eqn:H; [|apply nth_error_None in H; lia]); assert (Eb : base_of st (TPtr i) = def_base d) by (cbn [base_of]; rewrite H; reflexivity);
      pose proof (proj2 (st_complete i d H) _ (base_uses d)) as K; destruct (def_base d) as [|b|m|j] eqn:E0; cbn [known] in K; try contradiction.
    - exists 1. split; [|lia]. apply ch_step; rewrite Eb; [discriminate|constructor; reflexivity].
    - pose proof (st_ranked i d j H) as Q. rewrite <- E0 in Q. specialize (Q (base_uses d)). lia.
    - exists 1. split; [|lia]. apply ch_step; rewrite Eb; [discriminate|constructor; reflexivity].
    - pose proof (st_ranked i d j H) as Q. rewrite <- E0 in Q. specialize (Q (base_uses d)). destruct (IH j K) as (c & C & Lc); [lia|]. exists (S c). split; [|lia]. apply ch_step; rewrite Eb; [discriminate|exact C].
  Qed.
  Lemma st_shallow : shallow st (entries l).
  Proof.
    intros n t H. destruct (entry_ptr l n t H) as (i & -> & L). rewrite <- (proj1 (parse_resolved l ord st parsed O E)) in L. destruct (st_chain (N.to_nat 1000) i L (rank_bound i)) as (c & C & Lc). exists c. split; [exact C|]. unfold TypesModel.max_depth. lia.
  Qed.
  Lemma st_mixed : mixed_down st.
  Proof.
    intros i c j b H Hm Hb Hj. left. pose proof (parse_mixed l (dc_raw _ _ D) ord O st parsed E st_shallow) as M.
    destruct (st_nth i _ H) as (n & d0 & Hi & _ & Re). destruct (st_nth j _ Hj) as (m & e0 & Hdj & _ & Re'). destruct d0 as [c0|s0]; [|destruct Re]. destruct e0 as [b0|s0]; [|destruct Re'].
    assert (Mi : mixed_rule (fst (initial l)) st i) by (apply (M n i); [apply entry_nth; eauto|exists c; auto]).
    assert (Q : mixed_rule (fst (initial l)) st j).
    { inversion Mi as [i1 c1 H1 H2|i1 c1 H1 H2 H3|i1 c1 j1 c2 H1 H2 H3 H4 H5|i1 c1 j1 s1 H1 H2 H3]; subst i1.
      - assert (c1 = c0) as -> by (apply initial_nth in H1 as (x & H1); congruence).
        destruct (st_base i _ H) as (x & y & Hx & B). assert (X : (x, y) = (n, DC c0)) by congruence. injection X as -> ->. cbn [def_base] in B. rewrite Hb in B. destruct (ct_base c0) as [|bb|mm|jj] eqn:E0; cbn [became] in B; try contradiction; try discriminate.
        destruct B as (k & e & Ek & Hk). injection Ek as <-. assert (X : (mm, e) = (m, DC b0)) by congruence. injection X as -> ->.
        apply (mr_declared _ _ j b0); [apply initial_nth; eauto|]. apply (dc_mixed _ _ D n c0 m b0); auto; apply declares_in; eapply nth_error_In; eauto.
      - congruence.
      - assert (j1 = j) as -> by congruence. exact H5.
      - assert (j1 = j) as -> by congruence. congruence. }
    apply (M m j) in Q; [|apply entry_nth; eauto]. destruct Q as (b1 & Hb1 & Mb). congruence.
  Qed.
  Lemma st_leads : forall t b, ancestor st t (TB b) -> forall u, became u t -> leads l u b.
  Proof.
    intros t b A. remember (TB b) as v eqn:Ev. induction A as [t|t v Hn A IH]; intros u B; subst.
    - destruct u as [|b'|m|j]; cbn [became] in B; try contradiction; [injection B as <-; constructor|]. destruct B as (j & d & X & _). discriminate.
    - destruct t as [| | |i]; try (destruct (Hn eq_refl)). destruct u as [|b'|m|k]; cbn [became] in B; try contradiction; try discriminate. destruct B as (j & d0 & X & Hj). injection X as <-.
      destruct (decl_nth i m d0 Hj) as (d & Hd & _). apply (ld_type l m d0 b); [apply declares_in; exact (nth_error_In _ _ Hj)|]. apply IH; [reflexivity|]. cbn [base_of]. rewrite Hd. destruct (st_base i d Hd) as (x & y & Hx & Bx). congruence.
  Qed.
  Lemma leads_st : forall u b, leads l u b -> forall t, became u t -> ancestor st t (TB b).
  Proof.
    induction 1 as [b|n d0 b Dn H IH]; intros t B; cbn [became] in B; [subst t; constructor|]. destruct B as (j & e & -> & Hj). assert (e = d0) as -> by (apply (decl_once n); [apply declares_in; exact (nth_error_In _ _ Hj)|exact Dn]).
    destruct (decl_nth j n d0 Hj) as (d & Hd & _). destruct (st_base j d Hd) as (x & y & Hx & Bx). assert (X : (x, y) = (n, d0)) by congruence. injection X as -> ->. specialize (IH _ Bx).
    apply an_base; cbn [base_of]; rewrite Hd; [|exact IH]. intros Z. rewrite Z in IH. inversion IH as [|x y Hn _]; subst; apply Hn; reflexivity.
  Qed.
  Lemma st_translated : all_translated st.
  Proof.
    assert (Q : forall u b, leads l u b -> (exists n d, declares l n d /\ In u (uses d)) -> translated b).
    { induction 1 as [b|n d0 b Dn H IH]; intros (m & d & Dm & Hu); [exact (dc_builtins _ _ D m d b Dm Hu)|]. apply IH. exists n, d0. split; [exact Dn|apply base_uses]. }
    intros i d u b H Hu A. destruct (st_uses i d u H Hu) as (n & d0 & u0 & Hi & H0 & B). apply (Q u0 b); [exact (st_leads u b A u0 B)|]. exists n, d0. split; [apply declares_in; exact (nth_error_In _ _ Hi)|exact H0].
  Qed.
  Lemma st_lists : lists_supported st.
  Proof.
    intros i s b H Ls A. destruct (st_nth i _ H) as (n & d0 & Hi & _ & Re). destruct d0 as [c0|s0]; [destruct Re|]. assert (Dn : declares l n (DS s0)) by (apply declares_in; exact (nth_error_In _ _ Hi)).
    assert (Ls0 : sd_list s0 = true) by (destruct Re as (_ & _ & Es); rewrite Es in Ls; exact Ls). apply (dc_lists _ _ D n s0 b Dn Ls0).
    assert (L : leads l (TLink n) b) by (apply (st_leads (TPtr i) b A); exists i, (DS s0); auto). inversion L as [|x y z D1 L1]; subst. rewrite (decl_once n _ _ D1 Dn) in L1. exact L1.
  Qed.
  Theorem st_generable : generable rank st.
  Proof. exact (mkGenerable rank st st_complete st_apart st_ranked st_mixed st_translated st_lists). Qed.
  (* ---------- the schemas ---------- *)
  Definition member (r : rd) (k : xname) (t : ty) : Prop :=
    (exists i d, t = TPtr i /\ nth_error decls i = Some (k, d) /\ In (k, d) (rd_types r)) \/
    exists a, In a (rd_aliases r) /\ ((exists b, t = TB b /\ parse_builtin (snd a) = Some b /\ translated b) \/ exists i d, t = TPtr i /\ nth_error decls i = Some (snd a, d)).
  Lemma own_map r : In r l -> exists own, sget (rd_tns r) parsed = Some own /\ (forall n d, In (n, d) (rd_types r) -> exists i, In (n, TPtr i) own /\ nth_error decls i = Some (n, d)) /\ forall k t, In (k, t) own -> member r k t.
  Proof.
    intros Hr. destruct (in_split _ _ Hr) as (l1 & l2 & El). destruct initial_placed as (_ & _ & Pl). specialize (Pl l1 r l2 El).
    assert (Nd : forall i x, nth_error (rd_types r) i = Some x -> nth_error decls (List.length (flat_map rd_types l1) + i) = Some x).
    { intros i x Hx. unfold decls. rewrite El, flat_map_app. cbn [flat_map]. rewrite nth_error_app2 by lia. rewrite nth_error_app1; [|pose proof (nth_lt _ _ _ Hx); lia]. replace (_ + i - _) with i by lia. exact Hx. }
    destruct (inv_grow _ _ _ (parse_inv ord l st parsed O E) _ _ Pl) as (own & Ho & _ & Inc). exists own. split; [exact Ho|]. split.
    - intros n d H. apply In_nth_error in H as (i & Hi). exists (List.length (flat_map rd_types l1) + i). split; [|exact (Nd _ _ Hi)]. apply Inc, in_placed. exists i, d. auto.
    - intros k t Ht. unfold parse_rds in E. pose proof E as E'. fold (initial l) in E'. rewrite (surjective_pairing (initial l)) in E'. destruct (finish_maps _ _ _ _ _ _ _ _ E' _ _ _ _ Ho Ht) as [(o & H1 & H2)|(r' & a & o & H1 & H2 & H3 & H4)].
      + rewrite Pl in H1. injection H1 as <-. apply in_placed in H2 as (i & d & -> & Hi). left. exists (List.length (flat_map rd_types l1) + i), d. split; [reflexivity|]. split; [exact (Nd _ _ Hi)|exact (nth_error_In _ _ Hi)].
      + assert (r' = r) as -> by exact (map_nodup_inj rd_tns l r' r (dc_spaces _ _ D) H1 Hr H2). right. exists a. split; [exact H3|]. destruct (dc_elements _ _ D r a Hr H3) as [(b & B1 & B2)|(e & He)].
        * left. exists b. unfold lookup_type in H4. rewrite B1 in H4. injection H4 as <-. auto.
        * right. pose proof He as He'. apply declares_in, In_nth_error in He' as (i & Hi). exists i, e. split; [|exact Hi]. unfold lookup_type in H4. rewrite (not_builtin _ _ He) in H4.
          assert (C : called l (snd a) (TPtr i)).
          { split; [exists (snd a); apply entry_nth; eauto|]. cbn [type_name]. fold st0. rewrite (proj2 (initial_nth i e) (ex_intro _ (snd a) Hi)). cbn [option_map]. f_equal. apply decl_keyed. exact (nth_error_In _ _ Hi). }
          fold (entries l) in H4. change (all_entries (snd (initial l))) with (entries l) in H4. destruct (lookup (snd a) _) as [u|] eqn:Eg in H4; [|destruct (g_total l ord O _ _ C Eg)]. injection H4 as ->. exact (keyed_unique l (dc_keyed _ _ D) _ _ _ (g_called l ord O _ _ Eg) C).
  Qed.
  Variables (ord' : string -> list (xname * ty) -> list (xname * ty)) (namespaces targets : list string).
  Hypothesis O' : forall s m, Permutation m (ord' s m).
  Let ns := used_namespaces namespaces targets.
  Hypothesis Nn : NoDup ns.
  Hypothesis In_ : incl ns (map rd_tns l).
  Lemma mem_str_in n m : mem_str n m = true <-> In n m.
  Proof. unfold mem_str. rewrite existsb_exists. split; [intros (x & H & X); apply String.eqb_eq in X; congruence|intros H; exists n; split; [exact H|apply String.eqb_refl]]. Qed.
  Lemma chosen_from types : In types (chosen_types ord' namespaces targets l parsed) -> exists r own, In r l /\ In (rd_tns r) ns /\ sget (rd_tns r) parsed = Some own /\ types = map snd (ord' (rd_tns r) own).
  Proof.
    unfold chosen_types, chosen_schemas. intros H. apply in_map_iff in H as (d & <- & H). apply filter_In in H as [H M]. apply mem_str_in in M. fold ns in M. unfold deps in H. apply in_app_or in H as [H|[<-|[]]].
    - apply in_map_iff in H as (r & <- & Hr). cbn [fst snd] in *. destruct (own_map r Hr) as (own & Ho & _). exists r, own. rewrite Ho. auto.
    - cbn [fst] in M. apply In_, in_map_iff in M as (r & Er & Hr). destruct (dc_own _ _ D r Hr) as [X _]. destruct (X Er).
  Qed.
  Lemma chosen_has r own : In r l -> In (rd_tns r) ns -> sget (rd_tns r) parsed = Some own -> In (map snd (ord' (rd_tns r) own)) (chosen_types ord' namespaces targets l parsed).
  Proof.
    intros Hr Hn Ho. unfold chosen_types, chosen_schemas. apply in_map_iff. exists (rd_tns r, own). split; [reflexivity|]. apply filter_In. split; [|apply mem_str_in; exact Hn].
    unfold deps. apply in_or_app. left. apply in_map_iff. exists r. rewrite Ho. auto.
  Qed.
  Lemma chosen_member types t : In types (chosen_types ord' namespaces targets l parsed) -> In t types -> exists r k, In r l /\ In (rd_tns r) ns /\ member r k t.
  Proof.
    intros H Ht. destruct (chosen_from types H) as (r & own & Hr & Hn & Ho & ->). apply in_map_iff in Ht as ([k u] & <- & Hk). cbn [snd]. exists r, k. split; [exact Hr|]. split; [exact Hn|].
    destruct (own_map r Hr) as (own' & Ho' & _ & M). assert (own' = own) as -> by congruence. apply M. exact (Permutation_in _ (Permutation_sym (O' _ _)) Hk).
  Qed.
  Lemma chosen_known types t : In types (chosen_types ord' namespaces targets l parsed) -> In t types -> known st t.
  Proof.
    intros H Ht. destruct (chosen_member types t H Ht) as (r & k & _ & _ & [(i & d & -> & Hi & _)|(a & _ & [(b & -> & _)|(i & d & -> & Hi)])]); cbn [known]; auto; rewrite st_len; exact (nth_lt _ _ _ Hi).
  Qed.
  Lemma chosen_translated types b : In types (chosen_types ord' namespaces targets l parsed) -> In (TB b) types -> translated b.
  Proof.
    intros H Ht. destruct (chosen_member types _ H Ht) as (r & k & _ & _ & [(i & d & X & _)|(a & _ & [(b' & X & _ & T)|(i & d & X & _)])]); try discriminate. injection X as <-. exact T.
  Qed.
  Lemma enough : Nat.ltb (List.length (chosen_schemas namespaces targets l parsed)) (List.length (used_namespaces namespaces targets)) = false.
  Proof.
    apply Nat.ltb_ge. fold ns. rewrite <- (map_length fst). apply NoDup_incl_length; [exact Nn|]. intros n Hn. pose proof (In_ n Hn) as H. apply in_map_iff in H as (r & <- & Hr).
    destruct (own_map r Hr) as (own & Ho & _). apply in_map_iff. exists (rd_tns r, own). split; [reflexivity|]. unfold chosen_schemas. apply filter_In. split; [|apply mem_str_in; exact Hn]. unfold deps. apply in_or_app. left. apply in_map_iff. exists r. rewrite Ho. auto.
  Qed.
  Variables (public : xname -> string) (fa : option (attribute -> bool)) (fe : option (element -> bool)) (ft : option (xname -> bool)) (allow : option (list xname)) (helpers : list Z) (slices : bool).
  Hypothesis Hn : forall b, non_trivial b = true -> memb b helpers = true.
  Hypothesis Hfa : forall a t, filtered fa (retype_at a t) = filtered fa a.
  Lemma reached_generated t : reached ft allow st (chosen_types ord' namespaces targets l parsed) t -> forall j, t = TPtr j -> exists n d, nth_error decls j = Some (n, d) /\ generated ft allow ns l n.
  Proof.
    induction 1 as [types t n Hs Ht En Pn|i d u _ IH Ei Hu]; intros j ->.
    - destruct (chosen_member types _ Hs Ht) as (r & k & Hr & Hns & M). assert (Q : exists d, nth_error decls j = Some (n, d)).
      { cbn [type_name] in En. destruct (nth_error st j) as [d|] eqn:Ej; [|discriminate]. injection En as <-. destruct (st_nth j d Ej) as (m & d0 & Hj & -> & _). eauto. }
      destruct Q as (d & Hj). exists n, d. split; [exact Hj|]. destruct M as [(i & e & X & Hi & He)|(a & Ha & [(b & X & _)|(i & e & X & Hi)])]; try discriminate; injection X as <-.
      + assert (k = n) as -> by congruence. exact (gd_type _ _ _ _ r n e Hr Hns He Pn).
      + assert (En' : snd a = n) by congruence. rewrite <- En' in *. exact (gd_element _ _ _ _ r a Hr Hns Ha Pn).
    - destruct (IH i eq_refl) as (n & d0 & Hi & Gn). destruct (st_uses i d _ Ei Hu) as (n' & d0' & u0 & Hi' & H0 & B). assert (X : (n', d0') = (n, d0)) by congruence. injection X as -> ->.
      destruct u0 as [|b|m|k]; cbn [became] in B; try contradiction; try discriminate. destruct B as (k & e & X & Hk). injection X as <-. exists m, e. split; [exact Hk|]. apply (gd_used _ _ _ _ n d0 m Gn); [apply declares_in; exact (nth_error_In _ _ Hi)|exact H0].
  Qed.
  Lemma structured_st : forall u, structured l u -> forall t, became u t -> ancestor st t (TB 0) /\ forall k s, nth_error st k = Some (DS s) -> ~ ancestor st t (TPtr k).
  Proof.
    induction 1 as [|n c Dn H IH]; intros t B; cbn [became] in B.
    - subst t. split; [constructor|]. intros k s _ A. inversion A as [|x y Z _]; subst. apply Z. reflexivity.
    - destruct B as (j & e & -> & Hj). assert (e = DC c) as -> by (apply (decl_once n); [apply declares_in; exact (nth_error_In _ _ Hj)|exact Dn]). destruct (decl_nth j n _ Hj) as (d & Hd & _ & Re). destruct d as [c'|s']; [|destruct Re].
      destruct (st_base j _ Hd) as (x & y & Hx & Bx). assert (X : (x, y) = (n, DC c)) by congruence. injection X as -> ->. cbn [def_base] in Bx. destruct (IH _ Bx) as [A N].
      assert (Eb : base_of st (TPtr j) = ct_base c') by (cbn [base_of]; rewrite Hd; reflexivity). split.
      + apply an_base; rewrite Eb; [|exact A]. intros Z. rewrite Z in A. inversion A as [|x y W _]; subst; apply W; reflexivity.
      + intros k s Hk Ak. inversion Ak as [|x y _ A']; subst; [congruence|]. rewrite Eb in A'. exact (N k s Hk A').
  Qed.
  Lemma own_stays n d i : nth_error decls i = Some (n, d) -> own_declaration fa l d -> stays fa st (TPtr i).
  Proof.
    intros Hi Od. destruct (decl_nth i n d Hi) as (d' & Hd & _ & Re). cbn [stays]. rewrite Hd. assert (Dn : declares l n d) by (apply declares_in; exact (nth_error_In _ _ Hi)). destruct d as [c0|s0], d' as [c|s]; cbn [resolved] in Re; try contradiction; cbn [own_declaration] in Od.
    - destruct Od as [(a & Ha & Fa)|St].
      + left. destruct Re as (_ & _ & As & _). destruct (forall2_in_l _ _ _ As a Ha) as (a' & Ha' & _ & Ea). exists a'. split; [exact Ha'|]. rewrite Ea, Hfa. exact Fa.
      + right. apply (structured_st (TLink n)); [exact (sr_type l n c0 Dn St)|]. exists i, (DC c0). auto.
    - intros b A (P1 & P2 & P3 & P4 & P5 & P6 & P7). destruct Re as (_ & Un & Es). rewrite Es in P1, P4, P5, P6, P7. cbn [sd_list sd_enum sd_pattern sd_maxlen sd_minlen] in *.
      assert (U0 : sd_union s0 = []). { rewrite P2 in Un. inversion Un. reflexivity. } destruct Od as [Od|[Od|[Od|[Od|[Od|[Od|(b' & L & Nt)]]]]]]; try congruence.
      assert (A' : ancestor st (TPtr i) (TB b')) by (apply (leads_st (TLink n)); [exact (ld_type l n (DS s0) b' Dn L)|exists i, (DS s0); auto]).
      rewrite (root_unique st _ _ _ A A') in P3. congruence.
  Qed.
  Theorem pipe_code : exists c, gen_code public fa fe ft allow helpers slices ord ord' namespaces targets l = Ret (Coded c) /\ closed_code (co_decls c) /\
    (forall r n d, In r l -> In (rd_tns r) ns -> In (n, d) (rd_types r) -> picked ft allow n -> own_declaration fa l d -> In (public n) (map fst (co_decls c))) /\
    (forall x, In x (map fst (co_decls c)) -> (exists n d, generated ft allow ns l n /\ declares l n d /\ x = public n) \/ exists b, non_trivial b = true /\ x = helper_name b).
  Proof.
    pose proof st_generable as G. destruct (gen_closed public fa fe ft allow helpers rank slices st (chosen_types ord' namespaces targets l parsed) Hn Hfa G rank_bound chosen_known) as (c & Ec & Cl).
    destruct (name_stays public fa fe ft allow helpers Hn rank slices st (chosen_types ord' namespaces targets l parsed) Hfa G rank_bound chosen_known) as (c1 & Ec1 & St). assert (c1 = c) as -> by congruence.
    destruct (gen_only public fa fe ft allow helpers rank slices st (chosen_types ord' namespaces targets l parsed) Hn Hfa G rank_bound chosen_known) as (c2 & Ec2 & On). assert (c2 = c) as -> by congruence.
    exists c. unfold gen_code. rewrite E, enough, Ec. split; [reflexivity|]. split; [exact Cl|]. split.
    - intros r n d Hr Hns Hd Pn Od. destruct (own_map r Hr) as (own & Ho & Ty & _). destruct (Ty n d Hd) as (i & Hi & Hdi). apply (St [] _ (TPtr i) n (chosen_has r own Hr Hns Ho)); [|cbn [type_name]|exact Pn|exact (own_stays n d i Hdi Od)].
      + change (TPtr i) with (snd (n, TPtr i)). apply in_map. exact (Permutation_in _ (O' _ _) Hi).
      + destruct (decl_nth i n d Hdi) as (d' & Hd' & En & _). rewrite Hd'. cbn [option_map]. congruence.
    - intros x Hx. destruct (On x Hx) as [(j & n & Rj & Nj & ->)|B]; [left|right; exact B]. destruct (reached_generated _ Rj j eq_refl) as (m & d & Hj & Gm). destruct (decl_nth j m d Hj) as (d' & Hd' & En & _). cbn [type_name] in Nj. rewrite Hd' in Nj. cbn [option_map] in Nj.
      assert (m = n) as -> by congruence. exists n, d. split; [exact Gm|]. split; [apply declares_in; exact (nth_error_In _ _ Hj)|reflexivity].
  Qed.
  (* ---------- the order ---------- *)
  Hypothesis Od : orderly public fa ft allow ns l.
  Lemma st_complex i c n d0 : nth_error st i = Some (DC c) -> nth_error decls i = Some (n, d0) -> exists c0, d0 = DC c0 /\ declares l n (DC c0) /\ resolved (target l parsed) (DC c0) (DC c) /\ became (ct_base c0) (ct_base c).
  Proof.
    intros H Hi. destruct (st_base i _ H) as (m & e & Hm & B). destruct (st_nth i _ H) as (m' & e' & Hm' & _ & Re). assert (X : (m, e) = (n, d0)) by congruence. injection X as -> ->. assert (X : (m', e') = (n, d0)) by congruence. injection X as -> ->.
    destruct d0 as [c0|s0]; [|destruct Re]. exists c0. split; [reflexivity|]. split; [apply declares_in; exact (nth_error_In _ _ Hi)|]. auto.
  Qed.
  Lemma attributeless_back c0 c : resolved (target l parsed) (DC c0) (DC c) -> no_attributes fa c -> attributeless fa c0.
  Proof. intros (_ & _ & As & _) N a Ha. destruct (forall2_in_l _ _ _ As a Ha) as (a' & Ha' & _ & Ea). specialize (N a' Ha'). rewrite Ea, Hfa in N. exact N. Qed.
  Lemma textual_back u0 u : became u0 u -> is_text st u -> textual l u0.
  Proof.
    intros B T. destruct u0 as [|b|m|k]; cbn [became textual] in *; try contradiction; [subst u; exact T|]. destruct B as (j & e & -> & Hj). cbn [is_text is_simple] in T. destruct (decl_nth j m e Hj) as (d & Hd & _ & Re). rewrite Hd in T. destruct d as [c|s]; [discriminate|].
    destruct e as [c0|s0]; [destruct Re|]. exists s0. apply declares_in. exact (nth_error_In _ _ Hj).
  Qed.
  Lemma st_steady : steady fa st.
  Proof.
    constructor.
    - intros i s j H Hb. destruct (st_base i _ H) as (n & d0 & Hi & B). destruct (st_nth i _ H) as (m' & e' & Hm' & _ & Re). assert (X : (m', e') = (n, d0)) by congruence. injection X as -> ->. destruct d0 as [c0|s0]; [destruct Re|]. cbn [def_base] in B. rewrite Hb in B.
      destruct (sd_base s0) as [|b|m|k] eqn:E0; cbn [became] in B; try contradiction; try discriminate. destruct B as (k & e & X & Hk). injection X as <-. destruct (od_simple _ _ _ _ _ _ Od n s0 m e) as (s' & ->); auto; [apply declares_in; exact (nth_error_In _ _ Hi)|apply declares_in; exact (nth_error_In _ _ Hk)|].
      destruct (decl_nth j m _ Hk) as (d & Hd & _ & Rd). cbn [is_simple]. rewrite Hd. destruct d; [destruct Rd|reflexivity].
    - intros i s H (P1 & P2 & P3 & P4 & P5 & P6 & P7) A. destruct (st_nth i _ H) as (n & e & Hi & _ & Re). destruct e as [c0|s0]; [destruct Re|]. assert (Dn : declares l n (DS s0)) by (apply declares_in; exact (nth_error_In _ _ Hi)).
      assert (L : leads l (TLink n) 0) by (apply (st_leads (TPtr i) 0 A); exists i, (DS s0); auto). inversion L as [|x y z D1 L1]; subst. rewrite (decl_once n _ _ D1 Dn) in L1. destruct Re as (_ & Un & Es). rewrite Es in P1, P4, P5, P6, P7. cbn [sd_list sd_enum sd_pattern sd_maxlen sd_minlen] in *.
      apply (od_any _ _ _ _ _ _ Od n s0 Dn); [|exact L1]. split; [exact P1|]. split; [rewrite P2 in Un; inversion Un; reflexivity|]. auto.
    - intros i c j b H Nc Eb Hj Nb T. destruct (st_nth i _ H) as (n & d0 & Hi & _). destruct (st_nth j _ Hj) as (m & e0 & Hm & _). destruct (st_complex i c n d0 H Hi) as (c0 & -> & Dc & Rc & Bc). destruct (st_complex j b m e0 Hj Hm) as (b0 & -> & Db & Rb & Bb).
      rewrite Eb in Bc. destruct (ct_base c0) as [|bb|mm|kk] eqn:E0; cbn [became] in Bc; try contradiction; try discriminate. destruct Bc as (k & e & X & Hk). injection X as <-. assert (X : (mm, e) = (m, DC b0)) by congruence. injection X as -> ->.
      apply (od_text _ _ _ _ _ _ Od n c0 m b0); auto; [exact (attributeless_back c0 c Rc Nc)|exact (attributeless_back b0 b Rb Nb)|exact (textual_back _ _ Bb T)].
  Qed.
  Lemma st_wild : wild_named st.
  Proof.
    intros i c e H He. destruct (st_nth i _ H) as (n & d0 & Hi & _). destruct (st_complex i c n d0 H Hi) as (c0 & -> & Dc & (_ & Es & _) & _). destruct (forall2_in_r _ _ _ Es e He) as (e0 & He0 & _ & Ee). rewrite Ee. cbn [retype_el el_wild el_name]. exact (od_wild _ _ _ _ _ _ Od n c0 e0 Dc He0).
  Qed.
  Lemma st_names : names_apart public ft allow st (chosen_types ord' namespaces targets l parsed).
  Proof.
    intros i j n m Ri Rj Ni Nj En. destruct (reached_generated _ Ri i eq_refl) as (n' & d & Hi & Gi). destruct (reached_generated _ Rj j eq_refl) as (m' & e & Hj & Gj). cbn [type_name] in Ni, Nj.
    destruct (decl_nth i n' d Hi) as (d' & Hd' & Ed & _). destruct (decl_nth j m' e Hj) as (e' & He' & Ee & _). rewrite Hd' in Ni. rewrite He' in Nj. cbn [option_map] in Ni, Nj. assert (n' = n) as -> by congruence. assert (m' = m) as -> by congruence.
    assert (n = m) as -> by (apply (od_names _ _ _ _ _ _ Od n m d e); auto; apply declares_in; eapply nth_error_In; eauto). exact (decl_index i j m d e Hi Hj).
  Qed.
  Theorem pipe_order ord2 ord2' : any_order ord2 -> (forall s m, Permutation m (ord2' s m)) ->
    exists c c', gen_code public fa fe ft allow helpers slices ord ord' namespaces targets l = Ret (Coded c) /\ gen_code public fa fe ft allow helpers slices ord2 ord2' namespaces targets l = Ret (Coded c') /\
      forall sort sort', sorts_strings sort -> sorts_strings sort' -> gen_ast sort' (co_decls c') = gen_ast sort (co_decls c).
  Proof.
    intros O2 O2'. pose proof (parse_order l (dc_raw _ _ D) (keyed_unique l (dc_keyed _ _ D)) ord ord2 O O2 (st, parsed) E st_shallow) as E2.
    destruct (code_any_order public fa fe ft allow helpers rank slices st (chosen_types ord' namespaces targets l parsed) (chosen_types ord2' namespaces targets l parsed) Hn Hfa rank_bound st_generable st_steady st_wild st_names chosen_known chosen_translated) as (c & c' & Ec & Ec' & _ & _ & S).
    - unfold chosen_types. induction (chosen_schemas namespaces targets l parsed) as [|d m IH]; cbn [map]; [constructor|]. apply Forall2_cons; [|exact IH]. intros t. rewrite !in_map_iff. split; intros (x & <- & Hx); exists x; (split; [reflexivity|]).
      + exact (Permutation_in _ (O2' _ _) (Permutation_in _ (Permutation_sym (O' _ _)) Hx)).
      + exact (Permutation_in _ (O' _ _) (Permutation_in _ (Permutation_sym (O2' _ _)) Hx)).
    - exists c, c'. unfold gen_code. rewrite E, E2, enough, Ec, Ec'. auto.
  Qed.
End Documents.
