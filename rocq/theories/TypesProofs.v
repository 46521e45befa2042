From Coq Require Import Permutation.
From Verif Require Import Base ScopeModel TreeModel BuiltinModel XsdModel XsdProofs TypesModel TypesSpec.
Local Open Scope string_scope.

(* ---------- maps ---------- *)
Lemma lookup_mset {V} (n k : xname) (v : V) : forall m, lookup n (mset k v m) = if xname_eqb k n then Some v else lookup n m.
Proof.
  induction m as [|[k' v'] m IH]; cbn [mset lookup]; auto.
  destruct (xname_eqb k' k) eqn:E; cbn [lookup].
  - apply xname_eqb_eq in E as ->. destruct (xname_eqb k n); auto.
  - rewrite IH. destruct (xname_eqb k' n) eqn:E1; auto. destruct (xname_eqb k n) eqn:E2; auto.
    apply xname_eqb_eq in E1, E2. subst. rewrite (proj2 (xname_eqb_eq _ _) eq_refl) in E. discriminate.
Qed.
Lemma in_mset {V} (k : xname) (v : V) : forall m x, In x (mset k v m) -> x = (k, v) \/ In x m.
Proof.
  induction m as [|[k' v'] m IH]; cbn [mset]; intros x H.
  - destruct H as [<-|[]]; auto.
  - destruct (xname_eqb k' k); cbn [In] in *; destruct H as [<-|H]; auto. apply IH in H as [->|H]; auto.
Qed.
Lemma in_mset_new {V} (k : xname) (v : V) : forall m, In (k, v) (mset k v m).
Proof. induction m as [|[k' v'] m IH]; cbn [mset]; [left; auto|]. destruct (xname_eqb k' k); [left; auto|right; auto]. Qed.
Lemma in_mset_old {V} (k : xname) (v : V) : forall m x, In x m -> fst x <> k -> In x (mset k v m).
Proof.
  induction m as [|[k' v'] m IH]; cbn [mset]; intros x H N; [destruct H|]. destruct H as [<-|H].
  - cbn [fst] in N. destruct (xname_eqb k' k) eqn:E; [apply xname_eqb_eq in E; contradiction|]. left; auto.
  - destruct (xname_eqb k' k); right; auto.
Qed.
Lemma lookup_in {V} (n : xname) (m : list (xname * V)) v : lookup n m = Some v -> In (n, v) m.
Proof.
  induction m as [|[k' v'] m IH]; cbn [lookup]; [discriminate|]. destruct (xname_eqb k' n) eqn:E.
  - apply xname_eqb_eq in E as ->. intros H. injection H as ->. left; auto.
  - intros H. right; auto.
Qed.
Lemma lookup_none {V} (n : xname) (m : list (xname * V)) : lookup n m = None <-> forall v, ~ In (n, v) m.
Proof.
  induction m as [|[k' v'] m IH]; cbn [lookup]; [split; auto|]. destruct (xname_eqb k' n) eqn:E.
  - apply xname_eqb_eq in E as ->. split; [discriminate|]. intros H. destruct (H v'). left; auto.
  - rewrite IH. split; intros H v; specialize (H v); cbn [In] in *.
    + intros [K|K]; auto. injection K as -> ->. rewrite (proj2 (xname_eqb_eq _ _) eq_refl) in E. discriminate.
    + auto.
Qed.
Lemma in_mset_absent {V} (k : xname) (v : V) m x : lookup k m = None -> In x m -> In x (mset k v m).
Proof.
  intros H Hx. apply in_mset_old; auto. intros <-. rewrite lookup_none in H. destruct x as [a b]. apply (H b). auto.
Qed.
Lemma sget_sset {V} (n k : string) (v : V) : forall m, sget n (sset k v m) = if String.eqb k n then Some v else sget n m.
Proof.
  induction m as [|[k' v'] m IH]; cbn [sset sget]; auto.
  destruct (String.eqb k' k) eqn:E; cbn [sget].
  - apply String.eqb_eq in E as ->. destruct (String.eqb k n); auto.
  - rewrite IH. destruct (String.eqb k' n) eqn:E1; auto. destruct (String.eqb k n) eqn:E2; auto.
    apply String.eqb_eq in E1, E2. subst. rewrite String.eqb_refl in E. discriminate.
Qed.
Lemma in_sset {V} (k : string) (v : V) : forall m x, In x (sset k v m) -> x = (k, v) \/ In x m.
Proof.
  induction m as [|[k' v'] m IH]; cbn [sset]; intros x H.
  - destruct H as [<-|[]]; auto.
  - destruct (String.eqb k' k); cbn [In] in *; destruct H as [<-|H]; auto. apply IH in H as [->|H]; auto.
Qed.
Lemma sget_in {V} (n : string) (m : list (string * V)) v : sget n m = Some v -> In (n, v) m.
Proof.
  induction m as [|[k' v'] m IH]; cbn [sget]; [discriminate|]. destruct (String.eqb k' n) eqn:E.
  - apply String.eqb_eq in E as ->. intros H. injection H as ->. left; auto.
  - intros H. right; auto.
Qed.
Lemma sset_keys {V} (k : string) (v : V) m : sget k m <> None -> map fst (sset k v m) = map fst m.
Proof.
  induction m as [|[k' v'] m IH]; cbn [sset sget]; [congruence|]. destruct (String.eqb k' k) eqn:E.
  - apply String.eqb_eq in E as ->. auto.
  - intros H. cbn [map fst]. rewrite IH; auto.
Qed.
Lemma sset_nodup {V} (k : string) (v : V) m : NoDup (map fst m) -> NoDup (map fst (sset k v m)).
Proof.
  intros H. destruct (sget k m) eqn:E; [rewrite sset_keys; congruence|].
  assert (map fst (sset k v m) = (map fst m ++ [k])%list /\ ~ In k (map fst m)) as [-> N].
  { clear H. revert E. induction m as [|[k' v'] m IH]; cbn [sset sget map fst app]; [auto|]. destruct (String.eqb k' k) eqn:E'; [discriminate|].
    intros E. destruct (IH E) as [H1 H2]. cbn [map fst]. rewrite H1. split; auto. intros [->|K]; auto. rewrite String.eqb_refl in E'. discriminate. }
  apply nodup_snoc; auto.
Qed.
Lemma sget_nodup_in {V} (n : string) (m : list (string * V)) v : NoDup (map fst m) -> In (n, v) m -> sget n m = Some v.
Proof.
  induction m as [|[k' v'] m IH]; cbn [sget map fst]; intros N H; [destruct H|]. destruct H as [H|H].
  - injection H as -> ->. rewrite String.eqb_refl. auto.
  - inversion N; subst. destruct (String.eqb k' n) eqn:E; auto. apply String.eqb_eq in E as ->.
    destruct H2. change n with (fst (n, v)). apply in_map. auto.
Qed.

(* ---------- alloc ---------- *)
Lemma alloc_spec : forall l st m st' m', alloc st m l = (st', m') ->
  st' = (st ++ map snd l)%list /\
  (forall n t, In (n, t) m' -> In (n, t) m \/ exists i d, t = TPtr (List.length st + i) /\ nth_error l i = Some (n, d)) /\
  (forall n, lookup n m <> None -> lookup n m' <> None).
Proof.
  induction l as [|[n d] l IH]; intros st m st' m' H; cbn [alloc] in H.
  - injection H as <- <-. rewrite app_nil_r. split; auto.
  - apply IH in H as (-> & H2 & H3). split; [|split].
    + rewrite <- app_assoc. reflexivity.
    + intros k t Hk. apply H2 in Hk as [Hk|(i & d' & -> & Hi)].
      * apply in_mset in Hk as [Hk|Hk]; auto. injection Hk as -> ->. right. exists 0, d. rewrite Nat.add_0_r. auto.
      * right. exists (S i), d'. rewrite app_length. cbn [List.length nth_error]. split; auto. f_equal. lia.
    + intros k Hk. apply H3. rewrite lookup_mset. destruct (xname_eqb n k); congruence.
Qed.
Lemma alloc_last l st m st' m' n i d : alloc st m l = (st', m') -> nth_error l i = Some (n, d) ->
  (forall j e, i < j -> nth_error l j = Some e -> fst e <> n) -> lookup n m' = Some (TPtr (List.length st + i)).
Proof.
  revert st m i. induction l as [|[k d'] l IH]; intros st m i H Hi N; [destruct i; discriminate|]. cbn [alloc] in H. destruct i as [|i].
  - cbn [nth_error] in Hi. injection Hi as -> ->. rewrite Nat.add_0_r.
    assert (G : forall l st m, (forall j e, nth_error l j = Some e -> fst e <> n) -> forall st' m', alloc st m l = (st', m') -> lookup n m' = lookup n m).
    { clear. induction l as [|[k d'] l IH]; intros st m N st' m' H; cbn [alloc] in H; [congruence|].
      apply IH in H; [|intros j e He; apply (N (S j)); auto]. rewrite H, lookup_mset.
      destruct (xname_eqb k n) eqn:E; auto. apply xname_eqb_eq in E. destruct (N 0 (k, d') eq_refl E). }
    erewrite G; [|intros j e He; apply (N (S j)); [lia|exact He]|exact H]. rewrite lookup_mset, (proj2 (xname_eqb_eq _ _) eq_refl). reflexivity.
  - cbn [nth_error] in Hi. erewrite IH; [|exact H|exact Hi|intros j e Hj He; apply (N (S j)); [lia|auto]].
    rewrite app_length. cbn [List.length]. f_equal. f_equal. lia.
Qed.

Definition wf_entries (st : store) (es : list (xname * ty)) : Prop := forall n t, In (n, t) es -> exists i, t = TPtr i /\ i < List.length st.
Lemma alloc_all_spec : forall l st parsed st' parsed', alloc_all st parsed l = (st', parsed') ->
  (exists ext, st' = (st ++ ext)%list /\ (forall d, In d ext <-> exists r n, In r l /\ In (n, d) (rd_types r))) /\
  (forall ns own, In (ns, own) parsed' -> In (ns, own) parsed \/ exists r, In r l /\ ns = rd_tns r) /\
  (forall r, In r l -> sget (rd_tns r) parsed' <> None) /\ (forall ns, sget ns parsed <> None -> sget ns parsed' <> None) /\
  (NoDup (map fst parsed) -> NoDup (map fst parsed')) /\
  ((forall ns own, In (ns, own) parsed -> wf_entries st own) -> forall ns own, In (ns, own) parsed' -> wf_entries st' own).
Proof.
  induction l as [|r l IH]; intros st parsed st' parsed' H; cbn [alloc_all] in H.
  - injection H as <- <-. split; [exists []; rewrite app_nil_r; split; auto; intros d; split; [intros []|intros (r & n & [] & _)]|].
    split; [auto|]. split; [intros r []|]. auto.
  - destruct (alloc st [] (rd_types r)) as [st1 m] eqn:E. apply alloc_spec in E as (-> & Em & _).
    apply IH in H as ((ext & -> & Hext) & H2 & H3 & H4 & H5 & H6). split; [|split; [|split; [|split; [|split]]]].
    + exists (map snd (rd_types r) ++ ext)%list. rewrite app_assoc. split; auto. intros d. rewrite in_app_iff, Hext, in_map_iff. split.
      * intros [([n x] & Hx & Hi)|(r' & n & Hr & Hi)]; [exists r, n; cbn in Hx; subst x; split; auto; left; auto|exists r', n; split; auto; right; auto].
      * intros (r' & n & [->|Hr] & Hi); [left; exists (n, d); auto|right; exists r', n; auto].
    + intros ns own Hi. apply H2 in Hi as [Hi|(r' & Hr & ->)]; [|right; exists r'; split; auto; right; auto].
      apply in_sset in Hi as [Hi|Hi]; auto. injection Hi as -> ->. right. exists r. split; auto. left; auto.
    + intros r' [->|Hr]; [|auto]. apply H4. rewrite sget_sset, String.eqb_refl. discriminate.
    + intros ns Hn. apply H4. rewrite sget_sset. destruct (String.eqb _ _); congruence.
    + intros N. apply H5. apply sset_nodup. auto.
    + intros W ns own Hi. eapply H6; [|exact Hi]. intros ns' own' Hi'. apply in_sset in Hi' as [Hi'|Hi'].
      * injection Hi' as -> ->. intros n t Ht. apply Em in Ht as [[]|(i & d & -> & Hd)]. eexists. split; [reflexivity|].
        rewrite app_length, map_length. assert (i < List.length (rd_types r)) by (apply nth_error_Some; congruence). lia.
      * intros n t Ht. destruct (W _ _ Hi' n t Ht) as (i & -> & Hlt). exists i. split; auto. rewrite app_length. lia.
Qed.

Lemma initial_wf l : forall n t, In (n, t) (entries l) -> exists i, t = TPtr i /\ i < List.length (fst (initial l)).
Proof.
  unfold entries, initial. destruct (alloc_all [] [] l) as [st parsed] eqn:E. cbn [fst snd].
  apply alloc_all_spec in E as (_ & _ & _ & _ & _ & H). intros n t Hi. apply in_flat_map in Hi as ([ns own] & Ho & Ht).
  eapply H; eauto. intros ns' own' [].
Qed.

(* ---------- index ---------- *)
Lemma index_spec st : forall es n t, lookup n (index_types st es) = Some t -> (exists k, In (k, t) es) /\ type_name st t = Some n.
Proof.
  intros es. unfold index_types. induction es as [|[k t] es IH] using rev_ind; intros n u H; [discriminate|].
  rewrite fold_left_app in H. cbn [fold_left snd] in H. destruct (type_name st t) as [m|] eqn:E.
  - rewrite lookup_mset in H. destruct (xname_eqb m n) eqn:X.
    + apply xname_eqb_eq in X as ->. injection H as <-. split; auto. exists k. apply in_app_iff. right; left; auto.
    + apply IH in H as ((k' & Hk) & Hn). split; auto. exists k'. apply in_app_iff. auto.
  - apply IH in H as ((k' & Hk) & Hn). split; auto. exists k'. apply in_app_iff. auto.
Qed.
Lemma index_total st : forall es n k t, In (k, t) es -> type_name st t = Some n -> lookup n (index_types st es) <> None.
Proof.
  intros es. unfold index_types. induction es as [|[k t] es IH] using rev_ind; intros n k' u H Hn; [destruct H|].
  rewrite fold_left_app. cbn [fold_left snd]. apply in_app_iff in H as [H|[H|[]]].
  - specialize (IH _ _ _ H Hn). destruct (type_name st t) as [m|]; auto. rewrite lookup_mset. destruct (xname_eqb m n); congruence.
  - injection H as -> ->. rewrite Hn, lookup_mset, (proj2 (xname_eqb_eq _ _) eq_refl). discriminate.
Qed.

(* ---------- resolving one definition ---------- *)
Definition nolink (t : ty) : Prop := forall n, t <> TLink n.
Definition good_look (look : xname -> option ty) : Prop := forall n t, look n = Some t -> nolink t /\ t <> TNil.
Lemma resolve_ty_spec look t t' : good_look look -> resolve_ty look t = Some t' -> points (fun n u => look n = Some u) t t' /\ nolink t'.
Proof.
  intros G. unfold resolve_ty. destruct t; intros H; try (injection H as <-; split; [constructor|intros n; discriminate]).
  split; [constructor; auto|]. apply G in H. tauto.
Qed.
Lemma resolve_ty_nolink look t : nolink t -> resolve_ty look t = Some t.
Proof. intros H. destruct t; auto. destruct (H n eq_refl). Qed.

Lemma forall2_in_r {A B} (R : A -> B -> Prop) l m : Forall2 R l m -> forall b, In b m -> exists a, In a l /\ R a b.
Proof. induction 1 as [|a b l m H F IH]; intros x []; [subst; exists a; split; auto; left; auto|]. destruct (IH _ H0) as (y & Hy & Hr). exists y. split; auto. right; auto. Qed.
Lemma forall2_in_l {A B} (R : A -> B -> Prop) l m : Forall2 R l m -> forall a, In a l -> exists b, In b m /\ R a b.
Proof. induction 1 as [|a b l m H F IH]; intros x []; [subst; exists b; split; auto; left; auto|]. destruct (IH _ H0) as (y & Hy & Hr). exists y. split; auto. right; auto. Qed.
Lemma forall2_impl {A B} (R S : A -> B -> Prop) l m : (forall a b, R a b -> S a b) -> Forall2 R l m -> Forall2 S l m.
Proof. intros H. induction 1; constructor; auto. Qed.

Lemma resolve_def_spec look d d' : good_look look -> resolve_def look d = Some d' -> resolved (fun n u => look n = Some u) d d' /\ linkfree d'.
Proof.
  intros G. destruct d as [c|s]; cbn [resolve_def].
  - destruct (resolve_ty look (ct_base c)) as [b|] eqn:Eb; [|discriminate].
    destruct (mapo _ (ct_elems c)) as [es|] eqn:Ee; [|discriminate]. destruct (mapo _ (ct_attrs c)) as [ats|] eqn:Ea; [|discriminate].
    intros H. injection H as <-. apply mapo_forall2 in Ee, Ea. apply resolve_ty_spec in Eb as [Pb Nb]; auto.
    assert (Fe : Forall2 (fun e e' => (points (fun n u => look n = Some u) (el_type e) (el_type e') /\ e' = retype_el e (el_type e')) /\ nolink (el_type e')) (ct_elems c) es).
    { eapply forall2_impl; [|exact Ee]. intros e e' H. cbv beta in H. destruct (resolve_ty look (el_type e)) as [t|] eqn:Et; [|discriminate].
      injection H as <-. apply resolve_ty_spec in Et as [Pt Nt]; auto. }
    assert (Fa : Forall2 (fun a a' => (points (fun n u => look n = Some u) (at_type a) (at_type a') /\ a' = retype_at a (at_type a')) /\ nolink (at_type a')) (ct_attrs c) ats).
    { eapply forall2_impl; [|exact Ea]. intros e e' H. cbv beta in H. destruct (resolve_ty look (at_type e)) as [t|] eqn:Et; [|discriminate].
      injection H as <-. apply resolve_ty_spec in Et as [Pt Nt]; auto. }
    split.
    + cbn [resolved ct_base ct_elems ct_attrs ct_name ct_doc ct_anon ct_abstract ct_extends]. split; auto.
      split; [eapply forall2_impl; [|exact Fe]; intros x y [H _]; exact H|]. split; [eapply forall2_impl; [|exact Fa]; intros x y [H _]; exact H|]. auto 6.
    + intros n H. cbn [refs ct_base ct_elems ct_attrs] in H. destruct H as [H|H]; [apply (Nb _ H)|].
      apply in_app_iff in H as [H|H]; apply in_map_iff in H as (x & Hx & Hi).
      * destruct (forall2_in_r _ _ _ Fe _ Hi) as (y & _ & _ & Hn). apply (Hn _ Hx).
      * destruct (forall2_in_r _ _ _ Fa _ Hi) as (y & _ & _ & Hn). apply (Hn _ Hx).
  - destruct (resolve_ty look (sd_base s)) as [b|] eqn:Eb; [|discriminate].
    destruct (mapo _ (sd_union s)) as [un|] eqn:Ee; [|discriminate].
    intros H. injection H as <-. apply mapo_forall2 in Ee. apply resolve_ty_spec in Eb as [Pb Nb]; auto.
    assert (Fe : Forall2 (fun e e' => points (fun n u => look n = Some u) e e' /\ nolink e') (sd_union s) un).
    { eapply forall2_impl; [|exact Ee]. intros e e' H. apply resolve_ty_spec in H; auto. }
    split.
    + cbn [resolved sd_base sd_union]. split; auto. split; auto. eapply forall2_impl; [|exact Fe]. intros a b' [H _]. exact H.
    + intros n H. cbn [refs sd_base sd_union] in H. destruct H as [H|H]; [apply (Nb _ H)|].
      destruct (forall2_in_r _ _ _ Fe _ H) as (y & _ & _ & Hn). apply (Hn _ eq_refl).
Qed.
Lemma mapo_id {A} (f : A -> option A) l : (forall a, In a l -> f a = Some a) -> mapo f l = Some l.
Proof.
  induction l as [|a l IH]; intros H; cbn [mapo]; auto. rewrite (H a (or_introl eq_refl)), IH; auto. intros x Hx. apply H. right; auto.
Qed.
Lemma resolve_def_linkfree look d : linkfree d -> resolve_def look d = Some d.
Proof.
  intros L. destruct d as [c|s]; cbn [resolve_def].
  - rewrite resolve_ty_nolink by (intros n E; apply (L n); left; auto).
    rewrite mapo_id. 2:{ intros e He. rewrite resolve_ty_nolink; [destruct e; reflexivity|]. intros n E. apply (L n). right. apply in_app_iff. left. rewrite <- E. apply in_map. auto. }
    rewrite mapo_id. 2:{ intros e He. rewrite resolve_ty_nolink; [destruct e; reflexivity|]. intros n E. apply (L n). right. apply in_app_iff. right. rewrite <- E. apply in_map. auto. }
    destruct c. reflexivity.
  - rewrite resolve_ty_nolink by (intros n E; apply (L n); left; auto).
    rewrite mapo_id. 2:{ intros e He. apply resolve_ty_nolink. intros n ->. apply (L n). right. auto. }
    destruct s. reflexivity.
Qed.
Lemma mapo_none {A B} (f : A -> option B) l : mapo f l = None -> exists a, In a l /\ f a = None.
Proof.
  induction l as [|a l IH]; cbn [mapo]; [discriminate|]. destruct (f a) eqn:E; [|intros _; exists a; split; [left|]; auto].
  destruct (mapo f l); [discriminate|]. intros _. destruct (IH eq_refl) as (x & Hx & Hf). exists x. split; [right|]; auto.
Qed.
Lemma resolve_def_none look d : resolve_def look d = None -> exists n, In (TLink n) (refs d) /\ look n = None.
Proof.
  assert (G : forall t, resolve_ty look t = None -> exists n, t = TLink n /\ look n = None) by (intros []; try discriminate; cbn [resolve_ty]; eauto).
  destruct d as [c|s]; cbn [resolve_def refs].
  - destruct (resolve_ty look (ct_base c)) as [b|] eqn:Eb; [|intros _; apply G in Eb as (n & -> & H); exists n; split; [left|]; auto].
    destruct (mapo _ (ct_elems c)) as [es|] eqn:Ee.
    + destruct (mapo _ (ct_attrs c)) as [ats|] eqn:Ea; [discriminate|]. intros _. apply mapo_none in Ea as (a & Ha & H).
      destruct (resolve_ty look (at_type a)) eqn:E; [discriminate|]. apply G in E as (n & E & Hn). exists n. split; auto. right. apply in_app_iff. right.
      rewrite <- E. apply in_map. auto.
    + intros _. apply mapo_none in Ee as (a & Ha & H). destruct (resolve_ty look (el_type a)) eqn:E; [discriminate|].
      apply G in E as (n & E & Hn). exists n. split; auto. right. apply in_app_iff. left. rewrite <- E. apply in_map. auto.
  - destruct (resolve_ty look (sd_base s)) as [b|] eqn:Eb; [|intros _; apply G in Eb as (n & -> & H); exists n; split; [left|]; auto].
    destruct (mapo _ (sd_union s)) as [es|] eqn:Ee; [discriminate|]. intros _. apply mapo_none in Ee as (a & Ha & H). apply G in H as (n & -> & Hn).
    exists n. split; auto. right. auto.
Qed.

(* ---------- resolving the types of a schema ---------- *)
Definition ty_dec (a b : ty) : {a = b} + {a <> b}.
Proof. decide equality; [apply Z.eq_dec| |apply Nat.eq_dec]. decide equality; apply string_dec. Defined.
Lemma resolve_types_spec look : good_look look -> forall es st st', resolve_types look es st = Some st' ->
  List.length st' = List.length st /\
  forall i d, nth_error st i = Some d -> exists d', nth_error st' i = Some d' /\
    ((exists n, In (n, TPtr i) es) -> resolve_def look d = Some d') /\ ((forall n, ~ In (n, TPtr i) es) -> d' = d).
Proof.
  intros G es. unfold resolve_types. induction es as [|[n t] es IH] using rev_ind; intros st st' H.
  - injection H as <-. split; auto. intros i d Hd. exists d. split; auto. split; auto. intros (n & []).
  - rewrite foldo_app in H. destruct (foldo _ st es) as [st1|] eqn:E1; [|discriminate]. apply IH in E1 as [L1 H1].
    cbn [foldo] in H. destruct (resolve_entry look st1 (n, t)) as [st2|] eqn:E2; [|discriminate]. injection H as ->.
    unfold resolve_entry in E2. cbn [snd] in E2. destruct t as [|b|m|k].
    1,2,3: injection E2 as <-; split; auto; intros i d Hd; destruct (H1 i d Hd) as (d' & Hd' & A & B); exists d'; split; auto; split;
      [intros (n' & Hi); apply in_app_iff in Hi as [Hi|[Hi|[]]]; [eauto|discriminate Hi]|intros N; apply B; intros n' Hi; apply (N n'); apply in_app_iff; auto].
    destruct (nth_error st1 k) as [dk|] eqn:Ek.
    + destruct (resolve_def look dk) as [dk'|] eqn:Er; [|discriminate]. cbn [option_map] in E2. injection E2 as <-.
      split; [rewrite set_nth_length; auto|]. intros i d Hd. destruct (H1 i d Hd) as (d' & Hd' & A & B).
      rewrite nth_error_set_nth by (apply nth_error_Some; congruence). destruct (Nat.eqb i k) eqn:Eik.
      * apply Nat.eqb_eq in Eik as ->. rewrite Hd' in Ek. injection Ek as ->. exists dk'. split; auto. split.
        -- intros _. destruct (Exists_dec (fun e : xname * ty => snd e = TPtr k) es (fun e => ty_dec (snd e) (TPtr k))) as [Ex|Ne].
           ++ apply Exists_exists in Ex as ([m u] & Hm & Hu). cbn in Hu. subst u. rewrite (A (ex_intro _ m Hm)).
                 pose proof (resolve_def_spec _ _ _ G (A (ex_intro _ m Hm))) as [_ L]. rewrite (resolve_def_linkfree look dk L) in Er. congruence.
           ++ rewrite (B ltac:(intros m Hm; apply Ne; apply Exists_exists; exists (m, TPtr k); auto)) in Er. auto.
        -- intros N. destruct (N n). apply in_app_iff. right; left; auto.
      * apply Nat.eqb_neq in Eik. exists d'. split; auto. split.
        -- intros (n' & Hi). apply in_app_iff in Hi as [Hi|[Hi|[]]]; [eauto|]. injection Hi as _ Hi. congruence.
        -- intros N. apply B. intros n' Hi. apply (N n'). apply in_app_iff. auto.
    + injection E2 as <-. split; auto. intros i d Hd. destruct (H1 i d Hd) as (d' & Hd' & A & B). exists d'. split; auto. split.
      * intros (n' & Hi). apply in_app_iff in Hi as [Hi|[Hi|[]]]; [eauto|]. injection Hi as _ ->. congruence.
      * intros N. apply B. intros n' Hi. apply (N n'). apply in_app_iff. auto.
Qed.
Lemma resolve_types_none look : good_look look -> forall es st, resolve_types look es st = None ->
  exists n i d m, In (n, TPtr i) es /\ nth_error st i = Some d /\ In (TLink m) (refs d) /\ look m = None.
Proof.
  intros G es. induction es as [|[n t] es IH] using rev_ind; intros st H; [discriminate|].
  unfold resolve_types in H. rewrite foldo_app in H. fold (resolve_types look es st) in H. destruct (resolve_types look es st) as [st1|] eqn:E1.
  - apply resolve_types_spec in E1 as [L1 H1]; auto. cbn [foldo] in H. destruct (resolve_entry look st1 (n, t)) as [st2|] eqn:E2; [discriminate|].
    unfold resolve_entry in E2. cbn [snd] in E2. destruct t as [|b|m|k]; try discriminate. destruct (nth_error st1 k) as [dk|] eqn:Ek; [|discriminate].
    destruct (resolve_def look dk) as [dk'|] eqn:Er; [discriminate|].
    assert (exists d, nth_error st k = Some d) as [d Hd].
    { destruct (nth_error st k) eqn:X; eauto. apply nth_error_None in X. assert (k < List.length st1) by (apply nth_error_Some; congruence). lia. }
    destruct (H1 k d Hd) as (d' & Hd' & A & B). rewrite Hd' in Ek. injection Ek as ->.
    destruct (Exists_dec (fun e : xname * ty => snd e = TPtr k) es (fun e => ty_dec (snd e) (TPtr k))) as [Ex|Ne].
    + apply Exists_exists in Ex as ([m u] & Hm & Hu). cbn in Hu. subst u.
      pose proof (resolve_def_spec _ _ _ G (A (ex_intro _ m Hm))) as [_ L]. rewrite (resolve_def_linkfree look dk L) in Er. discriminate.
    + rewrite (B ltac:(intros m Hm; apply Ne; apply Exists_exists; exists (m, TPtr k); auto)) in Er.
      apply resolve_def_none in Er as (m & Hm & Lm). exists n, k, d, m. split; [apply in_app_iff; right; left; auto|]. auto.
  - destruct (IH st E1) as (n' & i & d & m & Hi & Hr). exists n', i, d, m. split; auto. apply in_app_iff. auto.
Qed.
