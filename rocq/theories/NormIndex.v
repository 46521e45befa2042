(* The index of a set of schemas, and the order in which references are resolved. *)
From Verif Require Import Base GraphModel GraphSpec GraphProofs ScopeModel TreeModel TreeSpec TreeProofs BuiltinModel XsdModel XsdProofs NormModel NormMem NormOps NormPath NormSpec NormUnpack NormUnpackAll NormRefSpec.
From Coq Require Import Sorted.
Local Open Scope string_scope.

Notation everything := (fun _ : elem => true).
Lemma subs_eq e : subs e = e :: flat_map subs (e_children e).
Proof. destruct e. reflexivity. Qed.

(* ---------- pointers and elements, in document order ---------- *)
Definition cell (h : heap) (q : ptr) (d : elem) : Prop := exists y, load h q = Some y /\ rep h d y.
(* and the children of each entry come right after it *)
Definition laid_out (h : heap) (L : list ptr) (S : list elem) : Prop :=
  Forall2 (cell h) L S /\
  forall i q d y j, nth_error L i = Some q -> nth_error S i = Some d -> load h q = Some y -> j < n_len y ->
    exists i', i < i' < i + List.length (subs d) /\ nth_error L i' = Some (n_arr y, j).
Lemma laid_out_nil h : laid_out h [] [].
Proof. split; [constructor|]. intros [|i]; discriminate. Qed.
Lemma laid_out_app h L1 S1 L2 S2 : laid_out h L1 S1 -> laid_out h L2 S2 -> laid_out h (L1 ++ L2) (S1 ++ S2).
Proof.
  intros (A1 & A2) (B1 & B2). split; [apply Forall2_app; auto|]. pose proof (Forall2_len _ _ _ A1) as HL. intros i q d y j E1 E2 L Hj.
  destruct (Nat.lt_ge_cases i (List.length L1)) as [Hi|Hi].
  - rewrite nth_error_app1 in E1, E2 by lia. destruct (A2 i q d y j E1 E2 L Hj) as (i' & Hi' & E'). exists i'. split; auto. rewrite nth_error_app1; auto. apply nth_error_Some. congruence.
  - rewrite nth_error_app2 in E1, E2 by lia. rewrite <- HL in E2. destruct (B2 _ q d y j E1 E2 L Hj) as (i' & Hi' & E'). exists (List.length L1 + i'). split; [lia|].
    rewrite nth_error_app2 by lia. replace (List.length L1 + i' - List.length L1) with i' by lia. auto.
Qed.
Lemma hits_laid_out h : forall e p x, load h p = Some x -> rep h e x -> laid_out h (hits everything h e p x) (subs e).
Proof.
  induction e as [n a s c ks IH] using elem_ind'. intros p x L R. rewrite hits_eq, subs_eq. cbn [app e_children].
  assert (G : forall l m b i, Forall2 (rep h) l m -> (forall k, In k l -> In k ks) -> (forall j y, nth_error m j = Some y -> load h (b, i + j) = Some y) ->
    laid_out h (hits_kids everything h b l m i) (flat_map subs l) /\ (forall j, j < List.length m -> exists i', i' < List.length (flat_map subs l) /\ nth_error (hits_kids everything h b l m i) i' = Some (b, i + j))).
  { induction l as [|k l IHl]; intros m b i B Sub F; inversion B as [|? y ? m' Rk B' E1 E2]; subst; cbn [hits_kids flat_map].
    - split; [apply laid_out_nil|]. intros j Hj. cbn [List.length] in Hj. lia.
    - assert (Lk : load h (b, i) = Some y) by (specialize (F 0 y eq_refl); rewrite Nat.add_0_r in F; exact F).
      pose proof (IH k (Sub k (or_introl eq_refl)) (b, i) y Lk Rk) as Hk. destruct (IHl m' b (S i) B' (fun k' H => Sub k' (or_intror H))) as (G1 & G2). { intros j z Ej. rewrite Nat.add_succ_comm. apply F. exact Ej. }
      split; [apply laid_out_app; auto|]. pose proof (Forall2_len _ _ _ (proj1 Hk)) as Hl. intros [|j] Hj.
      + exists 0. rewrite Nat.add_0_r. rewrite hits_eq, app_length, (subs_eq k). cbn [List.length app nth_error]. split; [lia|auto].
      + cbn [List.length] in Hj. destruct (G2 j ltac:(lia)) as (i' & Hi' & E'). exists (List.length (subs k) + i'). rewrite app_length. split; [lia|]. rewrite <- Hl, nth_error_app2 by lia.
        replace (_ + i' - _) with i' by lia. rewrite E'. do 2 f_equal. lia. }
  pose proof R as R'. apply rep_eq in R'. destruct R' as (_ & _ & _ & _ & K & B). cbn [e_children] in B.
  destruct (G ks (kids h x) (n_arr x) 0 B (fun k H => H) (fun j y E => kids_at h x j y K E)) as ((G1 & G2) & G3). split; [constructor; auto; exists x; auto|].
  intros [|i] q d y j E1 E2 Ly Hj; cbn [nth_error] in *.
  - injection E1 as <-. injection E2 as <-. assert (y = x) by congruence. subst y. destruct (G3 j) as (i' & Hi' & E'); [rewrite (kids_length h x K); auto|]. exists (S i'). rewrite subs_eq. cbn [List.length e_children]. split; [lia|]. exact E'.
  - destruct (G2 i q d y j E1 E2 Ly Hj) as (i' & Hi' & E'). exists (S i'). split; [lia|auto].
Qed.
Lemma root_laid_out h e x : rep h e x -> laid_out h (hits_kids everything h (n_arr x) (e_children e) (kids h x) 0) (flat_map subs (e_children e)) /\
  forall j, j < n_len x -> In (n_arr x, j) (hits_kids everything h (n_arr x) (e_children e) (kids h x) 0).
Proof.
  intros R. pose proof R as R'. apply rep_eq in R'. destruct R' as (_ & _ & _ & _ & K & B).
  assert (G : forall l m b i, Forall2 (rep h) l m -> (forall j y, nth_error m j = Some y -> load h (b, i + j) = Some y) ->
    laid_out h (hits_kids everything h b l m i) (flat_map subs l) /\ (forall j, j < List.length m -> In (b, i + j) (hits_kids everything h b l m i))).
  { induction l as [|k l IHl]; intros m b i B' F; inversion B' as [|? y ? m' Rk B'' E1 E2]; subst; cbn [hits_kids flat_map].
    - split; [apply laid_out_nil|]. intros j Hj. cbn [List.length] in Hj. lia.
    - assert (Lk : load h (b, i) = Some y) by (specialize (F 0 y eq_refl); rewrite Nat.add_0_r in F; exact F).
      destruct (IHl m' b (S i) B'') as (G1 & G2). { intros j z Ej. rewrite Nat.add_succ_comm. apply F. exact Ej. }
      split; [apply laid_out_app; auto; apply hits_laid_out; auto|]. intros [|j] Hj; apply in_or_app.
      + left. rewrite Nat.add_0_r, hits_eq. left. auto.
      + right. rewrite <- Nat.add_succ_comm. apply G2. cbn [List.length] in Hj. lia. }
  destruct (G _ _ (n_arr x) 0 B (fun j y E => kids_at h x j y K E)) as (G1 & G2). split; auto. intros j Hj. apply (G2 j). rewrite (kids_length h x K). auto.
Qed.

(* ---------- the index ---------- *)
Definition last_at {A} (E : list (option (xname * xname) * A)) k t := exists d, nth_error E t = Some (Some k, d) /\ forall t' d', t < t' -> nth_error E t' <> Some (Some k, d').
Definition indexed (h : heap) (E : list (option (xname * xname) * elem)) (st : list ptr * list (key * nat)) : Prop :=
  Forall2 (fun q ke => cell h q (snd ke)) (fst st) E /\ forall k t, key_get k (snd st) = Some t <-> last_at E k t.
Lemma key_eqb_eq a b : key_eqb a b = true <-> a = b.
Proof. unfold key_eqb. rewrite andb_true_iff, !xname_eqb_eq. destruct a, b. cbn [fst snd]. split; [intros [-> ->]; auto|]. intros E. injection E as -> ->. auto. Qed.
Lemma last_at_snoc {A} (E : list (option (xname * xname) * A)) ke k t :
  last_at (E ++ [ke]) k t <-> (fst ke = Some k /\ t = List.length E) \/ (fst ke <> Some k /\ last_at E k t).
Proof.
  split.
  - intros (d & H1 & H2). destruct (Nat.lt_ge_cases t (List.length E)) as [Ht|Ht].
    + right. rewrite nth_error_app1 in H1 by auto. split.
      * intros Hk. apply (H2 (List.length E) (snd ke) Ht). rewrite nth_error_app2, Nat.sub_diag by auto. cbn [nth_error]. destruct ke; cbn [fst snd] in *; congruence.
      * exists d. split; auto. intros t' d' Hlt E'. apply (H2 t' d' Hlt). rewrite nth_error_app1; auto. apply nth_error_Some. congruence.
    + rewrite nth_error_app2 in H1 by auto. destruct (t - List.length E) as [|n] eqn:D; [|destruct n; discriminate]. cbn [nth_error] in H1. left. split; [injection H1 as ->; auto|lia].
  - intros [(H1 & ->)|(H1 & d & H2 & H3)].
    + exists (snd ke). split; [rewrite nth_error_app2, Nat.sub_diag by auto; cbn [nth_error]; destruct ke; cbn [fst snd] in *; congruence|].
      intros t' d' Hlt E'. assert (t' < List.length (E ++ [ke])) by (apply nth_error_Some; congruence). rewrite app_length in H. cbn [List.length] in H. lia.
    + exists d. assert (t < List.length E) by (apply nth_error_Some; congruence). split; [rewrite nth_error_app1; auto|].
      intros t' d' Hlt E'. destruct (Nat.lt_ge_cases t' (List.length E)) as [Ht|Ht]; [rewrite nth_error_app1 in E' by auto; exact (H3 t' d' Hlt E')|].
      rewrite nth_error_app2 in E' by auto. destruct (t' - List.length E) as [|n]; [|destruct n; discriminate]. cbn [nth_error] in E'. injection E' as ->. apply H1. auto.
Qed.
Lemma index_one_ok h tns E st q d : indexed h E st -> cell h q d -> indexed h (E ++ [(key_of tns d, d)]) (index_one h tns st q).
Proof.
  intros (I1 & I2) (y & L & R). destruct st as [els m]. cbn [fst snd] in *. unfold index_one. rewrite L. rewrite (rep_attr h d y "name" R). pose proof (Forall2_len _ _ _ I1) as HL.
  pose proof R as R'. apply rep_eq in R'. destruct R' as (Rn & Rs & _). rewrite Rs, Rn. split; cbn [fst snd]; [apply Forall2_app; auto; constructor; auto; exists y; auto|].
  intros k t. rewrite last_at_snoc, <- I2. cbn [fst]. unfold key_of. destruct (String.eqb (attr d "" "name") "").
  - split; [intros H; right; split; auto; discriminate|]. intros [[H _]|[_ H]]; [discriminate|auto].
  - cbn [key_get]. destruct (key_eqb (resolve_default (e_scope d) (attr d "" "name") tns, e_name d) k) eqn:Ek.
    + apply key_eqb_eq in Ek. subst k. rewrite <- HL. split; [intros H; injection H as <-; auto|]. intros [[_ ->]|[H _]]; [auto|congruence].
    + split; [intros H; right; split; auto; intros X; assert (Hk : (resolve_default (e_scope d) (attr d "" "name") tns, e_name d) = k) by congruence; rewrite (proj2 (key_eqb_eq _ _) Hk) in Ek; discriminate|].
      intros [[H _]|[_ H]]; auto. assert (Hk : (resolve_default (e_scope d) (attr d "" "name") tns, e_name d) = k) by congruence. rewrite (proj2 (key_eqb_eq _ _) Hk) in Ek. discriminate.
Qed.
Lemma index_each h tns : forall L S E st, Forall2 (cell h) L S -> indexed h E st -> indexed h (E ++ map (fun d => (key_of tns d, d)) S) (each (index_one h tns) st L).
Proof.
  intros L S E st B. revert E st. induction B as [|q d L S C B IH]; intros E st I; cbn [each map]; [rewrite app_nil_r; auto|].
  change ((key_of tns d, d) :: map (fun d => (key_of tns d, d)) S) with ([(key_of tns d, d)] ++ map (fun d => (key_of tns d, d)) S)%list. rewrite app_assoc. apply IH. apply index_one_ok; auto.
Qed.
Lemma index_each_els h tns : forall L st, fst (each (index_one h tns) st L) = (fst st ++ L)%list.
Proof.
  induction L as [|q L IH]; intros st; cbn [each]; [rewrite app_nil_r; auto|]. rewrite IH. destruct st as [els m]. unfold index_one. destruct (load h q); cbn [fst]; rewrite <- app_assoc; reflexivity.
Qed.
(* everything below the roots *)
Fixpoint all_below (h : heap) (roots : list ptr) (es : list elem) : list ptr :=
  match roots, es with
  | r :: roots', e :: es' => match load h r with
      | Some x => (hits_kids everything h (n_arr x) (e_children e) (kids h x) 0 ++ all_below h roots' es')%list
      | None => []
      end
  | _, _ => []
  end.
Lemma index_ok h fuel : forall roots es E st, Forall2 (shows h) roots es -> Forall (fun e => height e <= fuel) es -> indexed h E st ->
  exists m, index_schema fuel h roots st = Some ((fst st ++ all_below h roots es)%list, m) /\ indexed h (E ++ entries es) ((fst st ++ all_below h roots es)%list, m).
Proof.
  intros roots es E st B. revert E st. induction B as [|r e roots es (x & L & R) B IH]; intros E st Hf I; cbn [index_schema all_below entries flat_map].
  - rewrite !app_nil_r. exists (snd st). destruct st. split; auto.
  - inversion Hf; subst. rewrite L, (search_heap_hits (fun _ _ => true) everything h (fun _ _ _ => eq_refl) e fuel r x L R) by auto.
    destruct (root_laid_out h e x R) as ((C & _) & _). rewrite (rep_attr h e x _ R).
    pose proof (index_each h (attr e "" "targetNamespace") _ _ E st C I) as I2. destruct (IH _ _ H2 I2) as (m & E1 & E2). rewrite index_each_els in E1, E2.
    exists m. rewrite <- app_assoc in E1. split; [exact E1|]. unfold entries in E2. repeat rewrite <- app_assoc in E2. exact E2.
Qed.
Lemma all_below_laid_out h roots es : Forall2 (shows h) roots es -> laid_out h (all_below h roots es) (map snd (entries es)).
Proof.
  induction 1 as [|r e roots es (x & L & R) B IH]; cbn [all_below entries flat_map map]; [apply laid_out_nil|]. rewrite L, map_app. apply laid_out_app; auto.
  rewrite map_map. cbn [snd]. rewrite map_id. apply (root_laid_out h e x R).
Qed.

(* ---------- the order of the references ---------- *)
Section Order.
  Variable E : list (Z * Z).
  Hypothesis shallow : forall t d, edge E t d -> forall d', ~ edge E d d'.
  Definition source (v : Z) : Prop := exists d, edge E v d.
  Definition sourceb (v : Z) : bool := existsb (fun e => Z.eqb (fst e) v) E.
  Lemma sourceb_iff v : sourceb v = true <-> source v.
  Proof. unfold sourceb, source, edge. rewrite existsb_exists. split; [intros ([a b] & H1 & H2); apply Z.eqb_eq in H2; cbn [fst] in H2; subst; eauto|]. intros (d & H). exists (v, d). split; auto. apply Z.eqb_refl. Qed.
  Variable nodes : list (Z * list Z).
  Hypothesis nodes_ok : forall t d, In d (node_get nodes t) <-> edge E t d.
  (* dependencies have none themselves: they add nothing but themselves *)
  Lemma flat_leaves : forall fuel ts vis vis' tr, (forall t, In t ts -> ~ source t) -> flat fuel nodes ts vis = Some (vis', tr) ->
    (forall v, In v tr -> ~ source v) /\ (forall v, source v -> In v vis' <-> In v vis).
  Proof.
    induction fuel as [|f IH]; intros ts vis vis' tr Hs H; cbn [flat] in H; [discriminate|]. destruct ts as [|t rest]; [injection H as <- <-; split; [intros v []|tauto]|].
    destruct (negb (memZ t vis)); [|eapply IH; [|exact H]; intros u Hu; apply Hs; right; auto].
    destruct (flat f nodes (node_get nodes t) (t :: vis)) as [[vis1 tr1]|] eqn:E1; [|discriminate]. destruct (flat f nodes rest vis1) as [[vis2 tr2]|] eqn:E2; [|discriminate]. injection H as <- <-.
    assert (Hn : ~ source t) by (apply Hs; left; auto).
    destruct (IH _ _ _ _ (fun d Hd => False_ind _ (Hn (ex_intro _ d (proj1 (nodes_ok t d) Hd)))) E1) as (A1 & A2).
    destruct (IH _ _ _ _ (fun d Hd => Hs d (or_intror Hd)) E2) as (B1 & B2). split.
    - intros v Hv. apply in_app_or in Hv. destruct Hv as [Hv|[<-|Hv]]; auto.
    - intros v Sv. rewrite B2, A2 by auto. split; [intros [->|]; [contradiction|auto]|right; auto].
  Qed.
  Lemma flat_sources : forall fuel ts vis vis' tr, NoDup ts -> (forall t, In t ts -> source t) -> (forall t, In t ts -> ~ In t vis) -> flat fuel nodes ts vis = Some (vis', tr) ->
    filter sourceb tr = ts.
  Proof.
    induction fuel as [|f IH]; intros ts vis vis' tr N Hs Hv H; cbn [flat] in H; [discriminate|]. destruct ts as [|t rest]; [injection H as <- <-; auto|].
    assert (M : memZ t vis = false) by (apply memZ_nin; apply Hv; left; auto). rewrite M in H. cbn [negb] in H.
    destruct (flat f nodes (node_get nodes t) (t :: vis)) as [[vis1 tr1]|] eqn:E1; [|discriminate]. destruct (flat f nodes rest vis1) as [[vis2 tr2]|] eqn:E2; [|discriminate]. injection H as <- <-.
    assert (Hl : forall d, In d (node_get nodes t) -> ~ source d) by (intros d Hd (d' & Hd'); apply nodes_ok in Hd; exact (shallow t d Hd d' Hd')).
    destruct (flat_leaves _ _ _ _ _ Hl E1) as (A1 & A2). inversion N as [|? ? N1 N2]; subst. rewrite filter_app. cbn [filter]. rewrite (proj2 (sourceb_iff t)) by (apply Hs; left; auto).
    assert (F1 : filter sourceb tr1 = []). { clear -A1. induction tr1 as [|v tr IHt]; auto. cbn [filter]. destruct (sourceb v) eqn:Ev; [apply sourceb_iff in Ev; exfalso; exact (A1 v (or_introl eq_refl) Ev)|]. apply IHt. intros u Hu. apply A1. right. auto. }
    rewrite F1. cbn [app]. f_equal. eapply IH; eauto.
    - intros u Hu. apply Hs. right. auto.
    - intros u Hu Hin. apply (A2 u) in Hin; [|apply Hs; right; auto]. destruct Hin as [<-|Hin]; [contradiction|]. apply (Hv u); [right|]; auto.
  Qed.
End Order.
Lemma flatten_sources E : (forall t d, edge E t d -> forall d', ~ edge E d d') -> exists tr, flatten (build E) = Some tr /\ StronglySorted Z.lt (filter (sourceb E) tr) /\ (forall v, source E v -> In v tr).
Proof.
  intros Sh. pose proof (ginv_build E) as [G1 G2 G3 G4]. destruct (flatten_once E) as (tr & F & _ & V). exists tr. split; auto. split; [|intros v (d & Hd); apply V; exists d; auto].
  unfold flatten in F. destruct (flat _ _ _ _) as [[vis tr']|] eqn:E1; [|discriminate]. injection F as ->.
  rewrite (flat_sources E Sh _ G4 _ _ _ _ _ (ssorted_NoDup _ G1)) with (3 := E1); auto. intros t Ht. apply G2. auto.
Qed.
