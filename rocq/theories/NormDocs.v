(* Normalize from the documents on: the schemas are found in them, and stand in memory of their own. *)
From Verif Require Import Base ScopeModel TreeModel TreeSpec TreeProofs GraphModel BuiltinModel XsdModel XsdProofs NormModel NormMem NormAttr NormOps NormPath NormSpec NormBuild NormKeep NormStart.
Local Open Scope string_scope.

(* xsd/parse.go:101-105: the document itself, if it is a schema, or the schemas in it *)
Definition roots_of (fuel : nat) (h : heap) (p : ptr) : option (list ptr) :=
  match load h p with
  | Some x => if is_elem "schema" x then Some [p] else search_heap fuel h (fun _ x => is_elem "schema" x) p
  | None => None
  end.
(* xsd/parse.go:92-128, from the parsed documents on: the memory and the roots *)
Definition normalize_docs (grow agrow : nat -> nat -> nat) (cap_of acap_of : nat -> nat) (fuel : nat) (docs : list elem) : res (heap * list ptr) :=
  let (h, ps) := build_roots cap_of acap_of docs [] in
  match mapo (roots_of fuel h) ps with
  | Some rs => bind (normalize grow agrow fuel (concat rs) h) (fun h' => Done (h', concat rs))
  | None => Runs
  end.

(* ---------- specification ---------- *)
Definition is_schema (e : elem) : bool := xname_eqb (e_name e) (xs "schema").
Definition schemas_of (e : elem) : list elem := if is_schema e then [e] else search_func_elems is_schema e.
(* schemas are not in schemas *)
Definition lone (g : elem -> bool) (e : elem) : Prop := g e = true -> search_func_elems g e = [].
Definition separate (e : elem) : Prop := is_schema e = false -> forall q d, sub e q = Some d -> lone is_schema d.

(* ---------- pointers found in trees ---------- *)
Definition Found (h : heap) (ps : list ptr) (ds : list elem) (Fp : list nat) (P : ptr -> Prop) : Prop :=
  exists ys, Forall2 (fun p x => load h p = Some x) ps ys /\ Forall2 (rep h) ds ys /\ NoDup ps /\ NoDup (foots h ds ys) /\ incl (foots h ds ys) Fp /\
    (forall q, In q ps -> ~ In (fst q) (foots h ds ys)) /\ forall q, In q ps -> P q \/ In (fst q) Fp.
Lemma foots_app h : forall ds ys ds' ys', List.length ds = List.length ys -> foots h (ds ++ ds') (ys ++ ys') = (foots h ds ys ++ foots h ds' ys')%list.
Proof. induction ds as [|d ds IH]; intros [|y ys] ds' ys' H; try discriminate; cbn [app foots]; auto. rewrite IH by (cbn in H; lia). rewrite app_assoc. reflexivity. Qed.
Lemma found_nil h Fp P : Found h [] [] Fp P.
Proof. exists []. split; [constructor|]. split; [constructor|]. split; [constructor|]. split; [constructor|]. split; [intros a []|]. split; intros q []. Qed.
Lemma found_more h ps ds Fp P Fp' (P' : ptr -> Prop) : Found h ps ds Fp P -> incl Fp Fp' -> (forall q, P q -> P' q \/ In (fst q) Fp') -> Found h ps ds Fp' P'.
Proof.
  intros (ys & A1 & A2 & A3 & A4 & A5 & A6 & A7) Hi HP. exists ys. do 4 (split; [auto|]). split; [intros a Ha; auto|]. split; [auto|]. intros q Hq. destruct (A7 q Hq); auto.
Qed.
Lemma found_app h ps ds Fp P ps' ds' Fp' P' : Found h ps ds Fp P -> Found h ps' ds' Fp' P' -> (forall a, In a Fp -> ~ In a Fp') -> (forall q, P q -> P' q -> False) ->
  (forall q, P q -> ~ In (fst q) Fp') -> (forall q, P' q -> ~ In (fst q) Fp) -> Found h (ps ++ ps') (ds ++ ds') (Fp ++ Fp') (fun q => P q \/ P' q).
Proof.
  intros (ys & A1 & A2 & A3 & A4 & A5 & A6 & A7) (zs & B1 & B2 & B3 & B4 & B5 & B6 & B7) D1 D2 D3 D4. exists (ys ++ zs)%list. split; [apply Forall2_app; auto|]. split; [apply Forall2_app; auto|].
  rewrite foots_app by (eapply Forall2_len; eauto). split; [|split; [|split; [|split]]].
  - apply nodup_app; auto. intros q Hq Hq'. destruct (A7 q Hq) as [H|H], (B7 q Hq') as [H'|H']; [exact (D2 q H H')|exact (D3 q H H')|exact (D4 q H' H)|exact (D1 _ H H')].
  - apply nodup_app; auto. intros a Ha Hb. exact (D1 a (A5 a Ha) (B5 a Hb)).
  - intros a Ha. apply in_app_or in Ha. apply in_or_app. destruct Ha; auto.
  - intros q Hq Ha. apply in_app_or in Hq, Ha. destruct Hq as [Hq|Hq], Ha as [Ha|Ha].
    + exact (A6 q Hq Ha).
    + destruct (A7 q Hq) as [H|H]; [exact (D3 q H (B5 _ Ha))|exact (D1 _ H (B5 _ Ha))].
    + destruct (B7 q Hq) as [H|H]; [exact (D4 q H (A5 _ Ha))|exact (D1 _ (A5 _ Ha) H)].
    + exact (B6 q Hq Ha).
  - intros q Hq. apply in_app_or in Hq. rewrite in_app_iff. destruct Hq as [Hq|Hq]; [destruct (A7 q Hq)|destruct (B7 q Hq)]; auto.
Qed.
Lemma found_one h e p x : good h e p x -> Found h [p] [e] (foot h e x) (fun q => q = p).
Proof.
  intros (L & R & N & Np). exists [x]. cbn [foots]. rewrite app_nil_r. split; [constructor; [auto|constructor]|]. split; [constructor; [auto|constructor]|]. split; [constructor; [intros []|constructor]|].
  split; [auto|]. split; [intros a Ha; auto|]. split; intros q [<- |[]]; auto.
Qed.
Lemma found_kids g h b : forall ks ys i, Forall2 (rep h) ks ys -> NoDup (foots h ks ys) -> ~ In b (foots h ks ys) -> (forall j, j < List.length ys -> load h (b, i + j) = nth_error ys j) ->
  (forall k, In k ks -> forall p x, good h k p x -> Found h (hits g h k p x) (search_elems g k) (foot h k x) (fun q => q = p)) ->
  Found h (hits_kids g h b ks ys i) (flat_map (search_elems g) ks) (foots h ks ys) (fun q => fst q = b /\ i <= snd q).
Proof.
  intros ks ys i B. revert i. induction B as [|k y ks ys Hk B IH]; intros i N Nb Ld Hf; cbn [hits_kids flat_map foots]; [apply found_nil|]. cbn [foots] in N, Nb. destruct (nodup_app_inv _ _ N) as (N1 & N2 & N3).
  rewrite in_app_iff in Nb. assert (Ly : load h (b, i) = Some y) by (specialize (Ld 0); rewrite Nat.add_0_r in Ld; apply Ld; cbn; lia).
  assert (G : good h k (b, i) y) by (split; [auto|split; [auto|split; [auto|cbn [fst]; tauto]]]).
  specialize (IH (S i) N2). destruct IH as (zs & IH); [tauto| |intros k' Hk'; apply Hf; right; auto|].
  { intros j Hj. specialize (Ld (S j)). rewrite Nat.add_succ_r in Ld. apply Ld. cbn. lia. }
  assert (F2 : Found h (hits_kids g h b ks ys (S i)) (flat_map (search_elems g) ks) (foots h ks ys) (fun q => fst q = b /\ S i <= snd q)) by (exists zs; exact IH).
  pose proof (Hf k (or_introl eq_refl) _ _ G) as F1. eapply found_more; [apply (found_app _ _ _ _ _ _ _ _ _ F1 F2)|apply incl_refl|].
  - auto.
  - intros q -> [_ H]. cbn [snd] in H. lia.
  - intros q ->. cbn [fst]. tauto.
  - intros q [-> _]. tauto.
  - intros q [-> |[H1 H2]]; left; cbn [fst snd]; auto. split; [auto|lia].
Qed.
Lemma hits_none g h : forall e p x, rep h e x -> search_elems g e = [] -> hits g h e p x = [].
Proof.
  induction e as [n a s c ks IH] using elem_ind'. intros p x R H. rewrite search_elems_eq in H. rewrite hits_eq. cbn [e_children] in H. destruct (g _); [discriminate|]. cbn [app] in *.
  apply rep_eq in R. destruct R as (_ & _ & _ & _ & _ & B). unfold search_func_elems in H. cbn [e_children] in *. generalize 0. induction B as [|k y ks ys Hk B IHB]; intros i; cbn [hits_kids flat_map] in *; auto.
  apply app_eq_nil in H. destruct H as [H1 H2]. rewrite IH by (auto; left; auto). cbn [app]. apply IHB; auto. intros e He. apply IH. right. auto.
Qed.
Lemma hits_kids_none g h b ks ys : Forall2 (rep h) ks ys -> flat_map (search_elems g) ks = [] -> forall i, hits_kids g h b ks ys i = [].
Proof. induction 1 as [|k y ks ys Hk B IH]; intros H i; cbn [hits_kids flat_map] in *; auto. apply app_eq_nil in H. destruct H as [H1 H2]. rewrite (hits_none g h k _ y Hk H1), (IH H2). reflexivity. Qed.
Lemma found_tree g h : forall e, (forall q d, sub e q = Some d -> lone g d) -> forall p x, good h e p x -> Found h (hits g h e p x) (search_elems g e) (foot h e x) (fun q => q = p).
Proof.
  induction e as [n a s c ks IH] using elem_ind'. intros S p x G. pose proof (S [] _ eq_refl) as S0. rewrite hits_eq, search_elems_eq. cbn [e_children]. pose proof G as (L & R & N & Np). pose proof R as R'.
  apply rep_eq in R'. destruct R' as (_ & _ & _ & _ & RK & B). cbn [e_children] in B. destruct (g (Elem n a s c ks)) eqn:Eg.
  - specialize (S0 Eg). unfold search_func_elems in S0. cbn [e_children] in S0. rewrite S0, app_nil_r. rewrite (hits_kids_none g h _ ks _ B S0), app_nil_r. apply found_one. auto.
  - cbn [app]. unfold search_func_elems. cbn [e_children]. rewrite foot_eq in *. cbn [e_children] in *. inversion N as [|? ? N1 N2]; subst. inversion N2 as [|? ? N3 N4]; subst.
    eapply found_more; [apply (found_kids g h (n_arr x) ks (kids h x) 0 B N4 N3 (kids_loaded h _ x R))| |].
    + intros k Hk q y Gk. apply IH; auto. intros q' d Hs. apply In_nth_error in Hk. destruct Hk as (i & Hi). apply (S (i :: q')). cbn [sub e_children]. rewrite Hi. exact Hs.
    + intros b Hb. right. right. auto.
    + intros q [Hq _]. right. rewrite Hq. right. left. auto.
Qed.

(* ---------- documents ---------- *)
Lemma found_doc h fuel e p x : good h e p x -> height e <= fuel -> separate e -> exists ps, roots_of fuel h p = Some ps /\ Found h ps (schemas_of e) (foot h e x) (fun q => q = p).
Proof.
  intros G Hh S. pose proof G as (L & R & N & Np). unfold roots_of, schemas_of. rewrite L, (rep_is h e x "schema" R). fold (is_schema e). destruct (is_schema e) eqn:Es.
  - exists [p]. split; [auto|]. apply found_one. auto.
  - rewrite (search_heap_hits (fun _ x => is_elem "schema" x) is_schema h (fun d y Rd => rep_is h d y "schema" Rd) e fuel p x L R Hh).
    eexists. split; [reflexivity|]. pose proof (found_tree is_schema h e (S Es) p x G) as F. rewrite hits_eq, search_elems_eq, Es in F. exact F.
Qed.
Lemma found_docs h fuel : forall es ps xs, Forall2 (fun p x => load h p = Some x) ps xs -> Forall2 (rep h) es xs -> NoDup ps -> NoDup (foots h es xs) -> (forall p, In p ps -> ~ In (fst p) (foots h es xs)) ->
  Forall (fun e => height e <= fuel /\ separate e) es ->
  exists rs, mapo (roots_of fuel h) ps = Some rs /\ Found h (concat rs) (flat_map schemas_of es) (foots h es xs) (fun q => In q ps).
Proof.
  induction es as [|e es IH]; intros ps xs L B Nr Nf Np H; inversion B as [|? x ? xs0 R B']; subst; inversion L as [|p ? ps0 ? Lp L']; subst; cbn [mapo flat_map foots].
  - exists []. split; [auto|apply found_nil].
  - cbn [foots] in *. inversion H as [|? ? [H1 H2] H3]; subst. inversion Nr as [|? ? Nr1 Nr2]; subst. destruct (nodup_app_inv _ _ Nf) as (N1 & N2 & N3).
    assert (Np' : forall q, In q (p :: ps0) -> ~ In (fst q) (foot h e x) /\ ~ In (fst q) (foots h es xs0)) by (intros q Hq; specialize (Np q Hq); rewrite in_app_iff in Np; tauto).
    assert (G : good h e p x) by (split; [auto|split; [auto|split; [auto|apply Np'; left; auto]]]).
    destruct (found_doc h fuel e p x G H1 H2) as (qs & Eq & F1). destruct (IH ps0 xs0 L' B' Nr2 N2) as (rs & Er & F2); auto; [intros q Hq; apply Np'; right; auto|].
    rewrite Eq, Er. exists (qs :: rs). split; [auto|]. cbn [concat]. eapply found_more; [apply (found_app _ _ _ _ _ _ _ _ _ F1 F2)|apply incl_refl|].
    + auto.
    + intros q -> Hq. auto.
    + intros q ->. apply Np'. left. auto.
    + intros q Hq. apply Np'. right. auto.
    + intros q [-> |Hq]; left; cbn [In]; auto.
Qed.
Lemma docs_stand cap_of acap_of fuel docs : Forall (fun e => height e <= fuel /\ separate e) docs ->
  let (h, ps) := build_roots cap_of acap_of docs [] in exists rs, mapo (roots_of fuel h) ps = Some rs /\ stands h (concat rs) (flat_map schemas_of docs).
Proof.
  intros H. pose proof (build_roots_stand cap_of acap_of docs) as S. destruct (build_roots cap_of acap_of docs []) as [h ps]. destruct S as (xs & L & B & Nr & Nf & Np).
  destruct (found_docs h fuel docs ps xs L B Nr Nf Np H) as (rs & Er & (ys & A1 & A2 & A3 & A4 & _ & A6 & _)). exists rs. split; [auto|]. exists ys. auto 10.
Qed.

(* the roots of what Normalize returns *)
Definition root_is (h : heap) (r : ptr) (e : elem) : Prop := exists x, load h r = Some x /\ n_name x = e_name e /\ n_attrs h x = e_attrs e /\ n_scope x = e_scope e.
Lemma docs_kept grow agrow cap_of acap_of fuel docs h rs : Forall (fun e => height e <= fuel /\ separate e) docs ->
  normalize_docs grow agrow cap_of acap_of fuel docs = Done (h, rs) -> Forall2 (root_is h) rs (flat_map schemas_of docs).
Proof.
  intros H. unfold normalize_docs. pose proof (docs_stand cap_of acap_of fuel docs H) as S. destruct (build_roots cap_of acap_of docs []) as [h0 ps]. destruct S as (qs & Eq & S). rewrite Eq.
  unfold bind. destruct (normalize grow agrow fuel (concat qs) h0) as [h1| |] eqn:En; try discriminate. intros E. injection E as <- <-. exact (roots_kept _ _ _ _ _ _ _ S En).
Qed.
Lemma root_read fuel h r e t : root_is h r e -> read_ptr fuel h r = Some t -> alike e t.
Proof.
  intros (x & L & E1 & E2 & E3). unfold read_ptr. rewrite L. destruct fuel; cbn [read_node]; [discriminate|]. destruct (mapo _ _); [|discriminate]. intros E. injection E as <-. repeat split; cbn; auto.
Qed.
