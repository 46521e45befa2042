(* Schemas that have nothing for Normalize to do. *)
From Verif Require Import Base GraphModel ScopeModel ScopeSpec ScopeProofs TreeModel TreeSpec TreeProofs BuiltinModel XsdModel XsdProofs NormModel NormMem NormOps NormPath NormSpec NormAttr NormHoistSpec NormAnonSpec NormAnon NormUnpack NormUnpackAll NormRefSpec NormIndex NormRefs NormFlatten NormBuild NormExamples.
Local Open Scope string_scope.

Definition optional (d : elem) : Prop := attr d "" "minOccurs" = "0".
(* the form Normalize is to produce, of everything below the root *)
Definition typed_below (e : elem) : Prop := forall q d, descendant e q d -> e_name d = xs "element" \/ e_name d = xs "attribute" -> attr d "" "type" <> "".
Definition named_below (e : elem) : Prop :=
  forall q d k, descendant e q d -> In k (e_children d) -> e_name k = xs "complexType" \/ e_name k = xs "simpleType" -> attr k "" "name" <> "".
Definition choices_below (e : elem) : Prop := forall q d k, descendant e q d -> e_name d = xs "choice" -> In k (e_children d) ->
  (e_name k <> xs "sequence" -> optional k) /\ (e_name k = xs "sequence" -> Forall optional (e_children k)).
Definition contents_below (e : elem) : Prop :=
  forall q d, descendant e q d -> e_name d = xs "complexType" -> exists k, In k (e_children d) /\ (e_name k = xs "simpleContent" \/ e_name k = xs "complexContent").
Definition no_refs_below (e : elem) : Prop := forall q d, descendant e q d -> attr d "" "ref" = "".
Definition no_groups_below (e : elem) : Prop := forall q d k, descendant e q d -> In k (e_children d) -> e_name k <> xs "group" /\ e_name k <> xs "attributeGroup".
Record normal (e : elem) : Prop := mkNormal {
  nf_types : typed_below e; nf_named : named_below e; nf_choice : choices_below e;
  nf_content : contents_below e; nf_refs : no_refs_below e; nf_groups : no_groups_below e }.

(* ---------- searches ---------- *)
Lemma subs_sub k d : In d (subs k) -> exists q, sub k q = Some d.
Proof.
  revert d. induction k as [n a s c ks IH] using elem_ind'. intros d Hd. rewrite subs_eq in Hd. cbn [e_children] in Hd. destruct Hd as [<-|Hd]; [exists []; reflexivity|].
  apply in_flat_map in Hd. destruct Hd as (c' & Hc & Hd). destruct (IH c' Hc d Hd) as (q & Hq). apply In_nth_error in Hc. destruct Hc as (i & Ei). exists (i :: q). cbn [sub e_children]. rewrite Ei. exact Hq.
Qed.
Lemma found g h e x q : rep h e x -> In q (hits_kids g h (n_arr x) (e_children e) (kids h x) 0) ->
  exists s d z, descendant e s d /\ load h q = Some z /\ rep h d z /\ g d = true.
Proof.
  intros R Hq. apply hits_kids_in in Hq. destruct Hq as (j & k & y & E1 & E2 & Hq). cbn [Nat.add] in Hq.
  destruct (rep_kid h e x j k R E1) as (y' & E3 & R3 & L3 & _). assert (y' = y) by congruence. subst y'.
  destruct (hit_node _ h k _ y q L3 R3 Hq) as (s & d & z & A & B & C & D). exists (j :: s), d, z. split; [split; [discriminate|]; cbn [sub]; rewrite E1; exact A|]. auto.
Qed.
Lemma found_none fn g h e fuel p x : (forall d y, rep h d y -> fn h y = g d) -> load h p = Some x -> rep h e x -> height e <= fuel ->
  (forall q d, descendant e q d -> g d = false) -> search_heap fuel h fn p = Some [].
Proof.
  intros Hfn L R Hf N. rewrite (search_heap_hits fn g h Hfn e fuel p x L R Hf). destruct (hits_kids g h (n_arr x) (e_children e) (kids h x) 0) as [|q ps] eqn:E; [reflexivity|]. exfalso.
  destruct (found g h e x q R) as (s & d & z & D & _ & _ & G); [rewrite E; left; auto|]. rewrite (N s d D) in G. discriminate.
Qed.
Lemma is_xs d l : xname_eqb (e_name d) (xs l) = true <-> e_name d = xs l.
Proof. apply xname_eqb_eq. Qed.

(* ---------- writing what is there ---------- *)
Lemma attr_set_same : forall l local v, v <> "" -> attr_get l "" local = v -> attr_set l "" local v = l.
Proof.
  induction l as [|[n w] l IH]; intros local v Hv E; cbn [attr_get attr_set aname avalue] in *; [congruence|].
  destruct (name_match "" local n); [congruence|]. rewrite IH; auto.
Qed.
Lemma put_id h p x : load h p = Some x -> put h p x = h.
Proof.
  intros L. unfold put. unfold load in L. assert (E : set_nth (snd p) x (cells h (fst p)) = cells h (fst p)).
  { revert L. generalize (cells h (fst p)) (snd p). induction l as [|a l IH]; intros [|i] E; try discriminate E; cbn [set_nth nth_error] in *; [injection E as ->; auto|rewrite IH; auto]. }
  rewrite E. destruct (load_array h p x L) as (l & E1 & _). rewrite (cells_ok _ _ _ E1). revert E1. clear. generalize (fst p). revert h. induction h as [|a h IH]; intros [|i] E; try discriminate E; cbn [set_nth nth_error] in *; [injection E as ->; auto|rewrite IH; auto].
Qed.
Lemma set_attr_id agrow h p x d local v : load h p = Some x -> rep h d x -> v <> "" -> attr d "" local = v -> set_attr_at agrow h p local v = h.
Proof.
  intros L R Hv E. unfold set_attr_at, n_set_attr. rewrite L. pose proof R as R'. apply rep_eq in R'. destruct R' as (_ & _ & _ & A & _ & _).
  rewrite (attrs_ok_eq _ _ _ A), (attr_set_same _ _ _ Hv E). destruct A as (la & A1 & A2 & A3). unfold ats. rewrite A1.
  assert (Hl : List.length (e_attrs d) = n_alen x) by (rewrite <- A3, firstn_length; lia). rewrite Hl. assert (Hb : Nat.leb (n_alen x) (List.length la) = true) by (apply Nat.leb_le; exact A2). rewrite Hb.
  rewrite <- A3, firstn_skipn. assert (Es : set_nth (n_at x) (Ats la) h = h). { revert A1. clear. generalize (n_at x). revert h. induction h as [|a h IH]; intros [|i] E; try discriminate E; cbn [set_nth nth_error] in *; [injection E as ->; auto|rewrite IH; auto]. }
  rewrite Es. replace (with_ats x (n_at x) (n_alen x)) with x by (destruct x; reflexivity). apply put_id, L.
Qed.
Lemma each_id {A B} (f : A -> B -> A) a l : (forall b, In b l -> f a b = a) -> each f a l = a.
Proof. induction l as [|b l IH]; intros H; cbn [each]; auto. rewrite (H b (or_introl eq_refl)). apply IH. intros c Hc. apply H. right. auto. Qed.

(* ---------- the passes ---------- *)
Section Fixed.
  Variables (grow agrow : nat -> nat -> nat) (fuel : nat) (h : heap) (p : ptr) (x : node) (e : elem).
  Hypotheses (L : load h p = Some x) (R : rep h e x) (Hf : height e <= fuel).
  Lemma defaults_fixed local any : typed_below e -> local = "element" \/ local = "attribute" -> default_type agrow local any fuel p h = Done h.
  Proof.
    intros N Hl. unfold default_type. rewrite (found_none _ (fun d => xname_eqb (e_name d) (xs local) && String.eqb (attr d "" "type") "") h e fuel p x); auto.
    - intros d y Rd. rewrite (rep_is h d y _ Rd), (rep_attr h d y _ Rd). reflexivity.
    - intros q d D. destruct (xname_eqb (e_name d) (xs local)) eqn:E1; cbn [andb]; auto. apply xname_eqb_eq in E1. apply String.eqb_neq. apply (N q d D). destruct Hl as [-> | ->]; auto.
  Qed.
  Lemma no_anon : named_below e -> forall q d, descendant e q d -> has_anon_el d = false.
  Proof.
    intros N q d D. destruct (has_anon_el d) eqn:E; auto. apply existsb_exists in E. destruct E as (k & Hk & E). unfold anon_el, type_el in E. apply andb_true_iff in E. destruct E as (E1 & E2). apply String.eqb_eq in E2.
    exfalso. apply (N q d k D Hk); auto. apply orb_true_iff in E1. destruct E1 as [E1|E1]; apply xname_eqb_eq in E1; auto.
  Qed.
  Lemma has_anon_rep d y : rep h d y -> has_anon h y = has_anon_el d.
  Proof.
    intros Rd. unfold has_anon, has_anon_el. apply rep_eq in Rd. destruct Rd as (_ & _ & _ & _ & _ & B). induction B as [|k z ks zs Rk B IH]; cbn [existsb]; auto. rewrite (is_anon_rep h k z Rk), IH. reflexivity.
  Qed.
  Lemma search_total fn g : (forall d y, rep h d y -> fn h y = g d) -> exists l, search_heap fuel h fn p = Some l.
  Proof. intros H. eexists. apply (search_heap_hits fn g h H e fuel p x L R Hf). Qed.
  Lemma copy_fixed : named_below e -> copy_elt_names grow agrow fuel p h = Done h.
  Proof.
    intros N. unfold copy_elt_names. rewrite L. destruct (search_total (fun h x => is_type x && negb (String.eqb (nattr h x "name") "")) (fun d => type_el d && negb (String.eqb (attr d "" "name") ""))) as (l & ->).
    { intros d y Rd. unfold is_type, type_el. rewrite !(rep_is h d y _ Rd), (rep_attr h d y _ Rd). reflexivity. }
    rewrite (found_none _ copies h e fuel p x); auto.
    - intros d y Rd. unfold copies. rewrite !(rep_is h d y _ Rd), (rep_attr h d y _ Rd), (has_anon_rep d y Rd). reflexivity.
    - intros q d D. unfold copies. rewrite (no_anon N q d D). apply andb_false_r.
  Qed.
  Lemma name_fixed n : named_below e -> name_anonymous grow agrow fuel p (h, n) = Done (h, n).
  Proof. intros N. unfold name_anonymous. cbn [fst]. rewrite L, (found_none has_anon has_anon_el h e fuel p x); auto. - exact has_anon_rep. - exact (no_anon N). Qed.
  Lemma choices_fixed : choices_below e -> set_choices_optional agrow fuel p h = Done h.
  Proof.
    intros N. unfold set_choices_optional. rewrite (search_heap_hits _ (fun d => xname_eqb (e_name d) (xs "choice")) h (fun d y Rd => rep_is h d y _ Rd) e fuel p x L R Hf).
    f_equal. apply each_id. intros q Hq. destruct (found _ h e x q R Hq) as (s & d & z & D & Lz & Rz & G). apply xname_eqb_eq in G. unfold optional_choice. rewrite Lz.
    apply each_id. intros i Hi. apply in_seq in Hi. assert (Hk : exists k, nth_error (e_children d) i = Some k).
    { destruct (nth_error (e_children d) i) eqn:E; eauto. apply nth_error_None in E. rewrite (rep_len h d z Rz) in Hi. lia. }
    destruct Hk as (k & Ek). destruct (rep_kid h d z i k Rz Ek) as (y & _ & Ry & Ly & _). rewrite Ly. rewrite (rep_is h k y _ Ry). destruct (N s d k D G (nth_error_In _ _ Ek)) as (C1 & C2).
    destruct (xname_eqb (e_name k) (xs "sequence")) eqn:E.
    - apply xname_eqb_eq in E. specialize (C2 E). unfold optional_kids. apply each_id. intros j Hj. apply in_seq in Hj. rewrite (rep_len h k y Ry) in Hj.
      destruct (nth_error (e_children k) j) as [c|] eqn:Ec; [|apply nth_error_None in Ec; lia]. destruct (rep_kid h k y j c Ry Ec) as (w & _ & Rw & Lw & _).
      apply (set_attr_id agrow h _ w c); auto; [discriminate|]. rewrite Forall_forall in C2. apply C2, (nth_error_In _ _ Ec).
    - apply xname_eqb_neq in E. apply (set_attr_id agrow h _ y k); auto; [discriminate|]. exact (C1 E).
  Qed.
  Lemma expand_fixed : contents_below e -> expand_shorthand grow fuel p h = Done h.
  Proof.
    intros N. unfold expand_shorthand. rewrite (search_heap_hits _ (fun d => xname_eqb (e_name d) (xs "complexType")) h (fun d y Rd => rep_is h d y _ Rd) e fuel p x L R Hf).
    f_equal. apply each_id. intros q Hq. destruct (found _ h e x q R Hq) as (s & d & z & D & Lz & Rz & G). apply xname_eqb_eq in G. unfold expand_one. rewrite Lz.
    assert (X : existsb is_content (kids h z) = true); [|rewrite X; reflexivity]. destruct (N s d D G) as (k & Hk & Ek). apply In_nth_error in Hk. destruct Hk as (i & Ei).
    destruct (rep_kid h d z i k Rz Ei) as (y & Ey & Ry & _). apply existsb_exists. exists y. split; [eapply nth_error_In; eauto|]. unfold is_content. rewrite !(rep_is h k y _ Ry). apply orb_true_iff. rewrite !xname_eqb_eq. exact Ek.
  Qed.
  Lemma no_groups : no_groups_below e -> forall q d, descendant e q d -> has_groups d = false.
  Proof.
    intros N q d D. destruct (has_groups d) eqn:E; auto. apply existsb_exists in E. destruct E as (k & Hk & E). unfold group_el in E. destruct (N q d k D Hk) as (G1 & G2). apply orb_true_iff in E. destruct E as [E|E]; apply xname_eqb_eq in E; contradiction.
  Qed.
  Lemma unpack_fixed : no_groups_below e -> unpack_groups grow fuel p h = Done h /\ cyclic fuel h p [] = Some false.
  Proof. intros N. split; [apply (unpack_nothing grow fuel h p e x L R Hf (no_groups N))|]. apply (cyclic_finite h _ e p x fuel [] (le_n _) L R Hf). intros v []. Qed.
End Fixed.

Section All.
  Variables (grow agrow : nat -> nat -> nat) (fuel : nat) (h : heap).
  Lemma on_each_fixed f (D : elem -> Prop) : forall roots es, Forall2 (shows h) roots es -> Forall (fun e => height e <= fuel /\ D e) es ->
    (forall p x e, load h p = Some x -> rep h e x -> height e <= fuel -> D e -> f p h = Done h) -> on_each f roots h = Done h.
  Proof. intros roots es B. induction B as [|r e roots es (x & L & R) B IH]; intros F H; cbn [on_each]; auto. inversion F as [|? ? (F1 & F2) F3]; subst. rewrite (H r x e); auto. Qed.
  Lemma flatten_fixed roots es : Forall2 (shows h) roots es -> Forall (fun e => height e <= fuel /\ no_refs_below e /\ no_groups_below e) es -> flatten_ref grow agrow fuel roots h = Done h.
  Proof.
    intros B F. unfold flatten_ref. assert (Fh : Forall (fun e => height e <= fuel) es) by (eapply Forall_impl; [|exact F]; intros a (A & _); exact A).
    destruct (index_all h fuel roots es B Fh) as (m & E1 & Ix). rewrite E1.
    assert (D : forall l, incl l (all_below h roots es) -> mapo (dep_of h m) l = Some (map (fun _ => None) l)).
    { induction l as [|q l IH]; intros Hi; cbn [mapo map]; auto. assert (Hq : In q (all_below h roots es)) by (apply Hi; left; auto). apply In_nth_error in Hq. destruct Hq as (i & Eq).
      destruct (els_entry h roots es m Ix i q Eq) as (ke & d & y & Ee & Ly & Ry). unfold dep_of at 1. rewrite Ly. unfold ref_of. rewrite (rep_attr h d y _ Ry).
      assert (Er : attr d "" "ref" = "").
      { assert (X : exists ke, In (ke, d) (entries es)) by (exists ke; eapply nth_error_In; eauto). apply entries_in in X. destruct X as (e & He & Hd). rewrite Forall_forall in F. destruct (F e He) as (_ & Ne & _).
        apply in_flat_map in Hd. destruct Hd as (k & Hk & Hd). apply In_nth_error in Hk. destruct Hk as (j & Ej).
        destruct (subs_sub k d Hd) as (s & Hs). apply (Ne (j :: s)). split; [discriminate|]. cbn [sub]. rewrite Ej. exact Hs. }
      rewrite Er. cbn [String.eqb]. rewrite (IH (fun a Ha => Hi a (or_intror Ha))). reflexivity. }
    rewrite (D _ (incl_refl _)). assert (Dn : forall l i, dep_edges i (map (fun _ : ptr => None) l) = []) by (induction l; intros i; cbn [map dep_edges]; auto). rewrite Dn.
    assert (Ef : flatten (build []) = Some []) by reflexivity. rewrite Ef. cbn [foldo].
    clear -B F. induction B as [|r e roots es (x & L & R) B IH]; cbn [unpack_all]; auto. inversion F as [|? ? (F1 & _ & F2) F3]; subst. destruct (unpack_fixed grow fuel h r x e L R F1 F2) as (-> & ->). apply IH, F3.
  Qed.
  Lemma fixed roots es : Forall2 (shows h) roots es -> Forall (fun e => height e <= fuel /\ normal e) es -> normalize grow agrow fuel roots h = Done h.
  Proof.
    intros B F. unfold normalize. rewrite (on_each_fixed _ _ roots es B F).
    2: { intros p x e L R Hf N. unfold defaults, attribute_default_type, element_default_type. rewrite (defaults_fixed agrow fuel h p x e L R Hf _ _ (nf_types e N)) by auto. cbn [bind]. rewrite (defaults_fixed agrow fuel h p x e L R Hf _ _ (nf_types e N)) by auto. cbn [bind].
      apply (copy_fixed grow agrow fuel h p x e L R Hf (nf_named e N)). }
    cbn [bind]. assert (E : name_all grow agrow fuel roots (h, 0) = Done (h, 0)).
    { revert F. generalize 0. induction B as [|r e roots es (x & L & R) B IH]; intros n F; cbn [name_all]; auto. inversion F as [|? ? (F1 & F2) F3]; subst.
      rewrite (name_fixed grow agrow fuel h r x e L R F1 n (nf_named e F2)), (choices_fixed grow agrow fuel h r x e L R F1 (nf_choice e F2)). apply IH, F3. }
    rewrite E. cbn [bind fst]. rewrite (on_each_fixed _ _ roots es B F) by (intros p x e L R Hf N; apply (expand_fixed grow fuel h p x e L R Hf (nf_content e N))). cbn [bind].
    apply (flatten_fixed roots es B). eapply Forall_impl; [|exact F]. intros e (A & N). split; [exact A|]. split; [exact (nf_refs e N)|exact (nf_groups e N)].
  Qed.
End All.
