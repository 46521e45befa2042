(* Default types, and making the members of a choice optional. *)
From Verif Require Import Base ScopeModel ScopeSpec ScopeProofs TreeModel TreeSpec TreeProofs BuiltinModel XsdModel XsdProofs NormModel NormMem NormOps NormPath NormAttr NormSpec NormPass.
Local Open Scope string_scope.

Lemma each_app {A B} (f : A -> B -> A) l m a : each f a (l ++ m)%list = each f (each f a l) m.
Proof. revert a. induction l as [|b l IH]; intros a; cbn [each app]; auto. Qed.
Lemma each_map {A B C} (f : A -> C -> A) (g : B -> C) l a : each f a (map g l) = each (fun a b => f a (g b)) a l.
Proof. revert a. induction l as [|b l IH]; intros a; cbn [each map]; auto. Qed.
Lemma attr_set_twice l s n v : attr_set (attr_set l s n v) s n v = attr_set l s n v.
Proof.
  induction l as [|a l IH]; cbn [attr_set aname].
  - unfold name_match. cbn [aname nlocal nspace]. rewrite String.eqb_refl. cbn [negb]. rewrite String.eqb_refl. destruct (String.eqb s ""); reflexivity.
  - destruct (name_match s n (aname a)) eqn:E; cbn [attr_set aname]; rewrite E; [reflexivity|]. rewrite IH. reflexivity.
Qed.
Lemma upd_ext f g : forall s e, (forall d, sub e s = Some d -> f d = g d) -> upd f s e = upd g s e.
Proof.
  induction s as [|i s IH]; intros e H; cbn [upd]; [apply H; reflexivity|]. cbn [sub] in H. destruct (nth_error (e_children e) i) as [c|]; auto. rewrite (IH c); auto.
Qed.
Lemma sub_app : forall s t e, sub e (s ++ t)%list = match sub e s with Some d => sub d t | None => None end.
Proof. induction s as [|i s IH]; intros t e; cbn [app sub]; auto. destruct (nth_error (e_children e) i); auto. Qed.
Lemma ptr_at_app : forall s t h p, ptr_at h p (s ++ t)%list = match ptr_at h p s with Some q => ptr_at h q t | None => None end.
Proof. induction s as [|i s IH]; intros t h p; cbn [app ptr_at]; auto. destruct (load h p) as [x|]; auto. destruct (Nat.ltb i (n_len x)); auto. Qed.

Section Growing.
  Variable agrow : nat -> nat -> nat.
  Notation set_attr_at := (set_attr_at agrow).
  Variables (local : string) (vf : scope -> string).
  Definition put_attr (d : elem) : elem := set_attr d "" local (vf (e_scope d)).
  Definition put_at (h : heap) (q : ptr) : heap := match load h q with Some x => set_attr_at h q local (vf (n_scope x)) | None => h end.

  (* the attribute has been set at the paths ss *)
  Definition sets (h h' : heap) (e : elem) (p : ptr) (x : node) (ss : list (list nat)) : Prop :=
    leaves h h' e (each (fun e s => upd put_attr s e) e ss) p x /\ forall t, ptr_at h' p t = ptr_at h p t.
  Lemma sets_nil h e p x : good h e p x -> sets h h e p x [].
  Proof. intros G. split; [apply leaves_refl; exact G|auto]. Qed.
  Lemma sets_app h1 h2 h3 e p x x2 ss1 ss2 : good h1 e p x -> sets h1 h2 e p x ss1 -> load h2 p = Some x2 ->
    sets h2 h3 (each (fun e s => upd put_attr s e) e ss1) p x2 ss2 -> sets h1 h3 e p x (ss1 ++ ss2).
  Proof.
    intros G (L1 & P1) L2 (L3 & P3). split; [|intros t; rewrite P3; auto]. rewrite each_app. pose proof L1 as (x2' & A1 & A2 & A3 & A4 & A5). assert (x2' = x2) by congruence. subst x2'.
    eapply leaves_trans; eauto.
  Qed.
  Lemma sets_one h e p x s q : good h e p x -> ptr_at h p s = Some q -> sets h (put_at h q) e p x [s].
  Proof.
    intros G H. destruct (ptr_valid s h e p x q G H) as (d & y & Sd & (Ly & Ry & _)). unfold put_at. rewrite Ly.
    destruct (set_attr_path agrow local s (vf (n_scope y)) e h p x q G H) as (x1 & A1 & A2 & A3 & A4 & A5 & A6 & A7 & A8).
    assert (E : upd (fun d0 => set_attr d0 "" local (vf (n_scope y))) s e = upd put_attr s e).
    { apply upd_ext. intros d' H'. assert (d' = d) by congruence. subst d'. unfold put_attr. apply rep_eq in Ry. destruct Ry as (_ & -> & _). reflexivity. }
    rewrite E in *. split; [|auto]. cbn [each]. exists x1. auto 10.
  Qed.
  Lemma sets_good h h' e p x ss : good h e p x -> sets h h' e p x ss -> exists x', good h' (each (fun e s => upd put_attr s e) e ss) p x'.
  Proof. intros G (L & _). destruct (leaves_good _ _ _ _ _ _ G L) as (x' & H & _). eauto. Qed.

  Lemma put_attr_kids : keeps_kids put_attr.
  Proof. intros e. reflexivity. Qed.
  Lemma put_attr_label e e' : label e = label e' -> label (put_attr e) = label (put_attr e').
  Proof. intros H. destruct e, e'. unfold label, put_attr in *. cbn in *. injection H as -> -> -> -> ->. reflexivity. Qed.
  Lemma put_attr_twice e : label (put_attr (put_attr e)) = label (put_attr e).
  Proof. destruct e. unfold label, put_attr. cbn. rewrite attr_set_twice. reflexivity. Qed.

  (* what is kept: the shape *)
  Definition shape (e : elem) (t : list nat) : option (xname * nat) := option_map (fun d => (e_name d, List.length (e_children d))) (sub e t).
  Lemma shape_sets e ss t : (forall s, In s ss -> exists d, sub e s = Some d) -> shape (each (fun e s => upd put_attr s e) e ss) t = shape e t.
  Proof.
    intros V. pose proof (lab_fold put_attr put_attr_kids put_attr_label put_attr_twice ss e V t) as L. unfold lab_at, shape in *.
    destruct (sub (each _ e ss) t) as [a|], (sub e t) as [b|]; cbn [option_map] in *; try discriminate; auto.
    destruct (in_dec _ t ss).
    - assert (E : label a = label (put_attr b)) by congruence. destruct a, b. unfold label, put_attr in E. cbn in *. congruence.
    - assert (E : label a = label b) by congruence. destruct a, b. unfold label in E. cbn in *. congruence.
  Qed.

  (* a list of steps, each known to set some paths as long as pointers and shape are kept *)
  Definition like (h0 : heap) (e0 : elem) (p : ptr) (h : heap) (e : elem) : Prop := (forall t, ptr_at h p t = ptr_at h0 p t) /\ forall t, shape e t = shape e0 t.
  Lemma like_refl h e p : like h e p h e.
  Proof. split; auto. Qed.
  Lemma like_trans h0 e0 h1 e1 h2 e2 p : like h0 e0 p h1 e1 -> like h1 e1 p h2 e2 -> like h0 e0 p h2 e2.
  Proof. intros (A1 & A2) (B1 & B2). split; intros t; [rewrite B1; auto|rewrite B2; auto]. Qed.
  Lemma sets_like h h' e p x ss : (forall s, In s ss -> exists d, sub e s = Some d) -> sets h h' e p x ss -> like h e p h' (each (fun e s => upd put_attr s e) e ss).
  Proof. intros V (_ & P). split; [auto|]. intros t. apply shape_sets. exact V. Qed.
  Lemma shape_valid e e' s : shape e s = shape e' s -> (exists d, sub e s = Some d) -> exists d, sub e' s = Some d.
  Proof. unfold shape. intros H (d & E). rewrite E in H. destruct (sub e' s); [eauto|discriminate]. Qed.
  Lemma sets_each {B} (step : heap -> B -> heap) (paths : B -> list (list nat)) p h0 e0 : forall bs,
    (forall b, In b bs -> forall s, In s (paths b) -> exists d, sub e0 s = Some d) ->
    (forall h e x b, In b bs -> good h e p x -> like h0 e0 p h e -> sets h (step h b) e p x (paths b)) ->
    forall h e x, good h e p x -> like h0 e0 p h e -> sets h (each step h bs) e p x (flat_map paths bs).
  Proof.
    induction bs as [|b bs IH]; intros V Hs h e x G I; cbn [each flat_map]; [apply sets_nil; auto|].
    pose proof (Hs h e x b (or_introl eq_refl) G I) as S1. destruct (sets_good _ _ _ _ _ _ G S1) as (x1 & G1).
    eapply sets_app; [exact G|exact S1|apply G1|]. apply IH; auto.
    - intros b' Hb. apply V. right. auto.
    - intros h' e' x' b' Hb. apply Hs. right. auto.
    - eapply like_trans; [exact I|]. eapply sets_like; [|exact S1]. intros s Hin. eapply shape_valid; [symmetry; apply I|]. eapply V; [left; reflexivity|auto].
  Qed.

  Lemma sets_attrs (M : list nat -> Prop) e ss : (forall s, In s ss -> exists d, sub e s = Some d) -> (forall q, In q ss <-> M q /\ exists d, sub e q = Some d) ->
    only_attrs (fun q d after => (M q -> after = attr_set (e_attrs d) "" local (vf (e_scope d))) /\ (~ M q -> after = e_attrs d))
      e (each (fun e s => upd put_attr s e) e ss).
  Proof.
    intros V HM q. pose proof (lab_fold put_attr put_attr_kids put_attr_label put_attr_twice ss e V q) as L. unfold lab_at in L.
    destruct (sub (each _ e ss) q) as [a|], (sub e q) as [b|] eqn:Eb; cbn [option_map] in L; try discriminate; auto.
    destruct (in_dec _ q ss) as [I|I].
    - assert (E : label a = label (put_attr b)) by congruence. destruct a, b; unfold label, put_attr in *; cbn in *. injection E as -> -> -> -> _. do 3 (split; [reflexivity|]). split; auto. intros N. apply HM in I. tauto.
    - assert (E : label a = label b) by congruence. destruct a, b; unfold label in *; cbn in *. injection E as -> -> -> -> _.
      do 3 (split; [reflexivity|]). split; auto. intros Hm. exfalso. apply I. apply HM. split; eauto.
  Qed.
End Growing.

(* ---------- default types ---------- *)
Section Growing2.
  Variable agrow : nat -> nat -> nat.
  Lemma untyped_dec local q d : {untyped local q d} + {~ untyped local q d}.
  Proof.
    unfold untyped. destruct q; [right; tauto|]. destruct (xname_eqb (e_name d) (xs local)) eqn:E; [apply xname_eqb_eq in E|].
    - destruct (string_dec (attr d "" "type") ""); [left|right]; [split; [discriminate|auto]|tauto].
    - right. intros (_ & H & _). apply xname_eqb_eq in H. congruence.
  Qed.
  Lemma default_pass local any fuel : pass (default_type agrow local any fuel) (fun e => height e <= fuel) (only_attrs (typed_by local any)).
  Proof.
    intros h e p x G Hh. set (g := fun d => xname_eqb (e_name d) (xs local) && String.eqb (attr d "" "type") "").
    pose proof G as (L & R & _). unfold default_type.
    rewrite (search_heap_hits _ g h) with (e := e) (x := x); auto.
    2: { intros d y Ry. unfold g. rewrite (rep_is h d y local Ry), (rep_attr h d y "type" Ry). reflexivity. }
    set (ps := hits_kids g h (n_arr x) (e_children e) (kids h x) 0). pose proof (hits_paths_root g e h p x G) as HP. fold ps in HP.
    set (vf := fun s => prefix s (xs any)).
    assert (SE : forall qs ss h1 e1 x1, Forall2 (fun q s => ptr_at h p s = Some q) qs ss -> good h1 e1 p x1 -> (forall t, ptr_at h1 p t = ptr_at h p t) ->
      sets "type" vf h1 (each (put_at agrow "type" vf) h1 qs) e1 p x1 ss).
    { induction qs as [|q qs IH]; intros ss h1 e1 x1 F G1 E1; inversion F as [|? s ? ss' Hs F']; subst; cbn [each]; [apply sets_nil; auto|].
      rewrite <- E1 in Hs. pose proof (sets_one agrow "type" vf h1 e1 p x1 s q G1 Hs) as S1. destruct (sets_good _ _ _ _ _ _ _ _ G1 S1) as (x2 & G2).
      apply (sets_app "type" vf h1 (put_at agrow "type" vf h1 q) _ e1 p x1 x2 [s] ss'); [exact G1|exact S1|apply G2|].
      apply IH; auto. intros t. destruct S1 as (_ & S1). rewrite S1. apply E1. }
    pose proof (SE ps _ h e x HP G (fun t => eq_refl)) as (Lv & _).
    exists (each (put_at agrow "type" vf) h ps), (each (fun e s => upd (put_attr "type" vf) s e) e (search_func g e)).
    split; [reflexivity|]. split; [|exact Lv].
    assert (V : forall s, In s (search_func g e) -> exists d, sub e s = Some d) by (intros s Hs; apply search_func_spec in Hs; destruct Hs as (d & (_ & Hd) & _); eauto).
    assert (HM : forall q, In q (search_func g e) <-> (exists d, sub e q = Some d /\ untyped local q d) /\ exists d, sub e q = Some d).
    { intros q. rewrite search_func_spec. unfold descendant, untyped, g. split.
      - intros (d & (H1 & H2) & H3). apply andb_true_iff in H3. destruct H3 as [H3 H4]. apply xname_eqb_eq in H3. apply String.eqb_eq in H4. split; eauto 8.
      - intros ((d & H1 & H2 & H3 & H4) & _). exists d. split; [auto|]. apply andb_true_iff. split; [apply xname_eqb_eq; auto|apply String.eqb_eq; auto]. }
    pose proof (sets_attrs "type" vf _ e (search_func g e) V HM) as A. intros q. specialize (A q). destruct (sub e q) as [d|] eqn:Ed; destruct (sub (each _ e _) q) as [d'|]; auto.
    destruct A as (A1 & A2 & A3 & A4 & A5). do 3 (split; [auto|]). split.
    - intros U. apply A4. eauto.
    - intros U. apply A5. intros (d0 & H1 & H2). assert (d0 = d) by congruence. subst d0. auto.
  Qed.

  Lemma only_attrs_height P : forall e e', only_attrs P e e' -> height e' = height e.
  Proof.
    assert (G : forall n e e', height e <= n -> only_attrs (fun _ _ _ => True) e e' -> height e' = height e).
    { induction n as [|n IH]; intros e e' Hn H; [rewrite height_eq in Hn; lia|]. rewrite !height_eq in *. f_equal.
      assert (K : forall i, match nth_error (e_children e) i, nth_error (e_children e') i with Some c, Some c' => height c' = height c | None, None => True | _, _ => False end).
      { intros i. pose proof (H [i]) as Hi. cbn [sub] in Hi. destruct (nth_error (e_children e) i) as [c|] eqn:Ec, (nth_error (e_children e') i) as [c'|] eqn:Ec'; auto.
        apply IH.
        - assert (height c <= heights (e_children e)); [|lia]. apply nth_error_In in Ec. clear -Ec. induction (e_children e) as [|z ks IHk]; [destruct Ec|]. cbn [heights]. destruct Ec as [-> |Ec]; [lia|]. specialize (IHk Ec). lia.
        - intros q. specialize (H (i :: q)). cbn [sub] in H. rewrite Ec, Ec' in H. exact H. }
      clear -K. revert K. generalize (e_children e'). induction (e_children e) as [|c cs IHc]; intros [|c' cs'] K; cbn [heights]; auto; try (specialize (K 0); contradiction).
      rewrite (IHc cs'); [|intros i; apply (K (S i))]. specialize (K 0). cbn in K. lia. }
    intros e e' H. apply (G (height e)); [lia|]. intros q. specialize (H q). destruct (sub e q), (sub e' q); auto. tauto.
  Qed.

  Definition default_types (fuel : nat) (r : ptr) (h : heap) : res heap := bind (attribute_default_type agrow fuel r h) (element_default_type agrow fuel r).
  Lemma defaults_pass fuel : pass (default_types fuel) (fun e => height e <= fuel) (only_attrs defaulted).
  Proof.
    eapply pass_weaken; [| |exact (pass_bind _ _ _ _ _ _ (default_pass "attribute" "anySimpleType" fuel) (default_pass "element" "anyType" fuel))].
    - intros e H. split; auto. intros e' H'. rewrite (only_attrs_height _ _ _ H'). exact H.
    - intros e e2 _ (e1 & H1 & H2) q. specialize (H1 q). specialize (H2 q). destruct (sub e q) as [d|], (sub e1 q) as [d1|], (sub e2 q) as [d2|]; auto; try contradiction.
      destruct H1 as (A1 & A2 & A3 & A4 & A5), H2 as (B1 & B2 & B3 & B4 & B5). do 3 (split; [congruence|]).
      assert (X : forall a b, untyped a q d -> untyped b q d -> a = b) by (intros a b (_ & X1 & _) (_ & X2 & _); unfold xs in *; congruence).
      assert (Y : untyped "attribute" q d -> ~ untyped "element" q d) by (intros U1 U2; specialize (X _ _ U1 U2); discriminate).
      assert (Z : ~ untyped "attribute" q d -> untyped "element" q d1 <-> untyped "element" q d).
      { intros N. unfold untyped, attr. rewrite A1, (A5 N). tauto. }
      split; [|split].
      + intros U. rewrite B5, (A4 U); auto. intros (_ & N & _). rewrite A1 in N. destruct U as (_ & U & _). unfold xs in *. congruence.
      + intros U. assert (N : ~ untyped "attribute" q d) by (intros N; apply (Y N); auto). rewrite B4, A2, (A5 N); auto. apply Z; auto.
      + intros N1 N2. rewrite B5, (A5 N1); auto. rewrite Z; auto.
  Qed.
End Growing2.

(* ---------- choices ---------- *)
Section Growing3.
  Variable agrow : nat -> nat -> nat.
  Notation opt := (fun _ : scope => "0").
  Notation sets := (sets "minOccurs" opt).
  Definition kid_paths (e : elem) (s : list nat) (i : nat) : list (list nat) :=
    match sub e (s ++ [i])%list with
    | Some t => if xname_eqb (e_name t) (xs "sequence") then map (fun j => (s ++ [i; j])%list) (seq 0 (List.length (e_children t))) else [(s ++ [i])%list]
    | None => []
    end.
  Definition choice_paths (e : elem) (s : list nat) : list (list nat) :=
    match sub e s with Some d => flat_map (kid_paths e s) (seq 0 (List.length (e_children d))) | None => [] end.
  Lemma sub_kid e s d i : sub e s = Some d -> sub e (s ++ [i])%list = nth_error (e_children d) i.
  Proof. intros H. rewrite sub_app, H. cbn [sub]. destruct (nth_error (e_children d) i); reflexivity. Qed.
  Lemma sub_kid2 e s i j : sub e (s ++ [i; j])%list = match sub e (s ++ [i])%list with Some t => nth_error (e_children t) j | None => None end.
  Proof. assert (E : (s ++ [i; j])%list = ((s ++ [i]) ++ [j])%list) by (rewrite <- app_assoc; reflexivity). rewrite E, sub_app. destruct (sub e (s ++ [i])%list) as [t|]; auto. cbn [sub]. destruct (nth_error (e_children t) j); reflexivity. Qed.
  Lemma kid_paths_valid e s i q : In q (kid_paths e s i) -> exists d, sub e q = Some d.
  Proof.
    unfold kid_paths. destruct (sub e (s ++ [i])%list) as [t|] eqn:Et; [|intros []]. destruct (xname_eqb (e_name t) (xs "sequence")).
    - intros H. apply in_map_iff in H. destruct H as (j & <- & Hj). apply in_seq in Hj. rewrite sub_kid2, Et. destruct (nth_error (e_children t) j) eqn:E; [eauto|]. apply nth_error_None in E. lia.
    - intros [<- |[]]. eauto.
  Qed.
  Lemma choice_paths_valid e s q : In q (choice_paths e s) -> exists d, sub e q = Some d.
  Proof. unfold choice_paths. destruct (sub e s); [|intros []]. intros H. apply in_flat_map in H. destruct H as (i & _ & H). eapply kid_paths_valid; eauto. Qed.
  Lemma kid_paths_shape e e' s i : (forall t, shape e t = shape e' t) -> kid_paths e s i = kid_paths e' s i.
  Proof. intros H. specialize (H (s ++ [i])%list). unfold shape, kid_paths in *. destruct (sub e _) as [t|], (sub e' _) as [t'|]; try discriminate; auto. injection H as -> ->. reflexivity. Qed.
  Lemma choice_paths_shape e e' s : (forall t, shape e t = shape e' t) -> choice_paths e s = choice_paths e' s.
  Proof.
    intros H. pose proof (H s) as Hs. unfold shape, choice_paths in *. destruct (sub e s) as [t|], (sub e' s) as [t'|]; try discriminate; auto. injection Hs as _ ->.
    apply flat_map_ext. intros i. apply kid_paths_shape. exact H.
  Qed.
  Lemma put_at_set h q : put_at agrow "minOccurs" opt h q = set_attr_at agrow h q "minOccurs" "0".
  Proof. unfold put_at, set_attr_at. destruct (load h q); reflexivity. Qed.

  Lemma kids_optional h e p x s q y d : good h e p x -> ptr_at h p s = Some q -> load h q = Some y -> sub e s = Some d ->
    forall n, n <= n_len y -> sets h (each (fun h j => set_attr_at agrow h (n_arr y, j) "minOccurs" "0") h (seq 0 n)) e p x (map (fun j => (s ++ [j])%list) (seq 0 n)).
  Proof.
    intros G Hq Ly Hd n Hn. destruct (ptr_valid s h e p x q G Hq) as (d' & y' & Sd & (Ly' & Ry & _)). assert (y' = y) by congruence. assert (d' = d) by congruence. subst y' d'.
    assert (E : map (fun j => (s ++ [j])%list) (seq 0 n) = flat_map (fun j => [(s ++ [j])%list]) (seq 0 n)) by (induction (seq 0 n); cbn; congruence).
    rewrite E. apply (sets_each "minOccurs" opt (fun h j => set_attr_at agrow h (n_arr y, j) "minOccurs" "0") (fun j => [(s ++ [j])%list]) p h e); auto; [| |apply like_refl].
    - intros j Hj s' [<- |[]]. apply in_seq in Hj. rewrite (sub_kid e s d j Hd). rewrite (rep_len h d y Ry) in Hn. destruct (nth_error (e_children d) j) eqn:En; [eauto|]. apply nth_error_None in En. lia.
    - intros h' e' x' j Hj G' (I & _). rewrite <- put_at_set. apply sets_one; auto. rewrite I, ptr_at_app, Hq. cbn [ptr_at]. rewrite Ly. apply in_seq in Hj.
      assert (Ej : Nat.ltb j (n_len y) = true) by (apply Nat.ltb_lt; lia). rewrite Ej. reflexivity.
  Qed.
  Lemma choice_optional h e p x s q : good h e p x -> ptr_at h p s = Some q -> sets h (optional_choice agrow h q) e p x (choice_paths e s).
  Proof.
    intros G Hq. destruct (ptr_valid s h e p x q G Hq) as (d & y & Sd & (Ly & Ry & _)). unfold optional_choice, choice_paths. rewrite Ly, Sd, <- (rep_len h d y Ry).
    eapply (sets_each "minOccurs" opt (fun h0 i => match load h0 (n_arr y, i) with Some t => if is_elem "sequence" t then optional_kids agrow h0 t else set_attr_at agrow h0 (n_arr y, i) "minOccurs" "0" | None => h0 end) (kid_paths e s) p h e); auto; [| |apply like_refl].
    - intros i _ s' Hs'. eapply kid_paths_valid; eauto.
    - intros h' e' x' i Hi G' (I1 & I2). apply in_seq in Hi.
      assert (Hp : ptr_at h' p (s ++ [i])%list = Some (n_arr y, i)).
      { rewrite I1, ptr_at_app, Hq. cbn [ptr_at]. rewrite Ly. assert (Ej : Nat.ltb i (n_len y) = true) by (apply Nat.ltb_lt; lia). rewrite Ej. reflexivity. }
      destruct (ptr_valid _ h' e' p x' _ G' Hp) as (c & z & Sc & (Lz & Rz & _)). rewrite Lz.
      rewrite <- (kid_paths_shape e' e s i I2). unfold kid_paths. rewrite Sc, (rep_is h' c z "sequence" Rz).
      destruct (xname_eqb (e_name c) (xs "sequence")).
      + unfold optional_kids. rewrite <- (rep_len h' c z Rz). pose proof (kids_optional h' e' p x' _ _ z c G' Hp Lz Sc (n_len z) (le_n _)) as K.
        assert (Em : map (fun j => (s ++ [i; j])%list) (seq 0 (n_len z)) = map (fun j => ((s ++ [i]) ++ [j])%list) (seq 0 (n_len z))) by (apply map_ext; intros j; rewrite <- app_assoc; reflexivity).
        rewrite Em. exact K.
      + rewrite <- put_at_set. apply sets_one; auto.
  Qed.
  Lemma named_at_dec e s n : {named_at e s n} + {~ named_at e s n}.
  Proof.
    unfold named_at. destruct (sub e s) as [d|]; [|right; intros (d & H & _); discriminate]. destruct (xname_eqb (e_name d) n) eqn:E.
    - apply xname_eqb_eq in E. left. eauto.
    - right. intros (d' & H & E'). injection H as <-. apply xname_eqb_eq in E'. congruence.
  Qed.
  Lemma optional_pass fuel : pass (set_choices_optional agrow fuel) (fun e => height e <= fuel) (fun e => only_attrs (made_optional e) e).
  Proof.
    intros h e p x G Hh. set (g := fun d => xname_eqb (e_name d) (xs "choice")).
    pose proof G as (L & R & _). unfold set_choices_optional.
    rewrite (search_heap_hits _ g h) with (e := e) (x := x); auto.
    2: { intros d y Ry. unfold g. rewrite (rep_is h d y "choice" Ry). reflexivity. }
    set (ps := hits_kids g h (n_arr x) (e_children e) (kids h x) 0). pose proof (hits_paths_root g e h p x G) as HP. fold ps in HP.
    assert (SE : forall qs ss h1 e1 x1, Forall2 (fun q s => ptr_at h p s = Some q) qs ss -> good h1 e1 p x1 -> like h e p h1 e1 ->
      sets h1 (each (optional_choice agrow) h1 qs) e1 p x1 (flat_map (choice_paths e) ss)).
    { induction qs as [|q qs IH]; intros ss h1 e1 x1 F G1 E1; inversion F as [|? s ? ss' Hs F']; subst; cbn [each flat_map]; [apply sets_nil; auto|].
      pose proof E1 as (E2 & E3). rewrite <- E2 in Hs. pose proof (choice_optional h1 e1 p x1 s q G1 Hs) as S1.
      rewrite (choice_paths_shape e1 e s E3) in S1. destruct (sets_good _ _ _ _ _ _ _ _ G1 S1) as (x2 & G2).
      eapply sets_app; [exact G1|exact S1|apply G2|]. apply IH; auto. eapply like_trans; [exact E1|]. eapply sets_like; [|exact S1].
      intros s' Hs'. apply (shape_valid e e1); [symmetry; apply E3|]. eapply choice_paths_valid; eauto. }
    pose proof (SE ps _ h e x HP G (like_refl h e p)) as (Lv & _). set (ss := flat_map (choice_paths e) (search_func g e)) in *.
    eexists. exists (each (fun e s => upd (put_attr "minOccurs" opt) s e) e ss).
    split; [reflexivity|]. split; [|exact Lv].
    assert (V : forall s, In s ss -> exists d, sub e s = Some d). { intros s Hs. apply in_flat_map in Hs. destruct Hs as (s' & _ & Hs). eapply choice_paths_valid; eauto. }
    assert (HM : forall q, In q ss <-> optional_at e q /\ exists d, sub e q = Some d).
    { intros q. unfold ss. rewrite in_flat_map. split.
      - intros (s & Hs & Hq). split; [|eapply choice_paths_valid; eauto]. apply search_func_spec in Hs. destruct Hs as (d & Hd & Hg). apply xname_eqb_eq in Hg.
        assert (C : choice_at e s) by (exists d; auto). unfold choice_paths in Hq. destruct Hd as (_ & Hd). rewrite Hd in Hq. apply in_flat_map in Hq. destruct Hq as (i & Hi & Hq).
        unfold kid_paths in Hq. destruct (sub e (s ++ [i])%list) as [t|] eqn:Et; [|destruct Hq]. destruct (xname_eqb (e_name t) (xs "sequence")) eqn:Es.
        + apply xname_eqb_eq in Es. apply in_map_iff in Hq. destruct Hq as (j & <- & Hj). right. exists s, i, j. split; [auto|]. split; [auto|]. exists t. auto.
        + destruct Hq as [<- |[]]. left. exists s, i. split; [auto|]. split; [auto|]. intros (t' & H1 & H2). assert (t' = t) by congruence. subst t'. apply xname_eqb_eq in H2. congruence.
      - intros ([(s & i & -> & (d & Hd & Hn) & Ns)|(s & i & j & -> & (d & Hd & Hn) & (t & Ht & Hs))] & (c & Hc)).
        + exists s. split; [apply search_func_spec; exists d; split; auto; apply xname_eqb_eq; auto|]. unfold choice_paths. destruct Hd as (_ & Hd). rewrite Hd. apply in_flat_map.
          exists i. rewrite (sub_kid e s d i Hd) in Hc. split; [apply in_seq; split; [lia|]; cbn; apply nth_error_Some; congruence|]. unfold kid_paths. rewrite (sub_kid e s d i Hd), Hc.
          destruct (xname_eqb (e_name c) (xs "sequence")) eqn:Es; [|left; auto]. exfalso. apply Ns. exists c. rewrite (sub_kid e s d i Hd). apply xname_eqb_eq in Es. auto.
        + exists s. split; [apply search_func_spec; exists d; split; auto; apply xname_eqb_eq; auto|]. unfold choice_paths. destruct Hd as (_ & Hd). rewrite Hd. apply in_flat_map.
          exists i. rewrite sub_kid2, Ht in Hc. assert (Ht' := Ht). rewrite (sub_kid e s d i Hd) in Ht'. split; [apply in_seq; split; [lia|]; cbn; apply nth_error_Some; congruence|].
          unfold kid_paths. rewrite Ht, Hs. assert (Ex : xname_eqb (xs "sequence") (xs "sequence") = true) by (apply xname_eqb_eq; auto). rewrite Ex. apply in_map_iff. exists j. split; auto. apply in_seq. split; [lia|]. cbn. apply nth_error_Some. congruence. }
    exact (sets_attrs "minOccurs" opt _ e ss V HM).
  Qed.
End Growing3.
