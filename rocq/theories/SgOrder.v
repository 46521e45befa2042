(* What flattening leaves in each field: it does not depend on the order of the visits. *)
From Verif Require Import Base SortLib ScopeModel TreeModel EqualModel Utf8 Decimal BuiltinModel CodecModel XsdModel XsdProofs TypesModel TypesSpec TypesProofs NormAttr GraphModel GenModel SgModel SgProofs SgNames SgExamples SgFlat SgClosed SgFlatSpec SgFlatten SgStruct SgExpandSpec SgGenSpec SgGenProofs BuiltinProofs.
Local Open Scope string_scope.

(* ---------- one simple type: what is left alone ---------- *)
Lemma rebase_frame b l : forall st j, match nth_error st j with
  | Some (DS s) => exists s', nth_error (fold_left (fun st v => rebase st v b) l st) j = Some (DS s') /\ sd_doc s' = sd_doc s /\ (~ In (TPtr j) l -> sd_base s' = sd_base s)
  | x => nth_error (fold_left (fun st v => rebase st v b) l st) j = x end.
Proof.
  induction l as [|v l IH]; intros st j; cbn [fold_left]; [destruct (nth_error st j) as [[c|s]|]; auto; exists s; auto|].
  specialize (IH (rebase st v b) j). destruct v as [| | |k]; cbn [rebase] in *; try (destruct (nth_error st j) as [[c|s]|]; auto; destruct IH as [s' [E1 [E2 E3]]]; exists s'; repeat (split; [assumption|]); intros N; apply E3; intros X; apply N; right; exact X).
  unfold get_s in *. destruct (nth_error st k) as [[c|y]|] eqn:Ek; try (destruct (nth_error st j) as [[c'|s]|] eqn:Ej; auto; destruct IH as [s' [E1 [E2 E3]]]; exists s'; repeat (split; [assumption|]); intros N; apply E3; intros X; apply N; right; exact X).
  unfold put_s in *. rewrite (put_nth st k _ _ j Ek) in IH. destruct (Nat.eqb j k) eqn:N.
  - apply Nat.eqb_eq in N as ->. rewrite Ek. destruct IH as [s' [E1 [E2 E3]]]. exists s'. split; [exact E1|]. split; [exact E2|]. intros X. destruct X. left. reflexivity.
  - destruct (nth_error st j) as [[c'|s]|] eqn:Ej; auto. destruct IH as [s' [E1 [E2 E3]]]. exists s'. repeat (split; [assumption|]). intros X. apply E3. intros Y. apply X. right. exact Y.
Qed.
Lemma simple_frame st i st' p v : flatten_simple st i = Ret (st', p, v) -> forall j, match nth_error st j with
  | Some (DS s) => exists s', nth_error st' j = Some (DS s') /\ (j <> i -> sd_doc s' = sd_doc s) /\ (j <> i -> ~ In (TPtr j) p -> sd_base s' = sd_base s)
  | x => nth_error st' j = x end.
Proof.
  unfold flatten_simple. destruct (chain_of st (TPtr i)) as [[chain b]| | |]; cbn [andthen]; try discriminate.
  set (st1 := fold_left (fun st v => rebase st v b) chain st). intros H j.
  pose proof (rebase_frame b chain st j) as X. fold st1 in X. pose proof (rebase_frame b [TPtr i] st1 j) as Y. cbn [fold_left] in Y. set (st2 := rebase st1 (TPtr i) b) in *.
  assert (P : p = filter (is_simple st1) chain /\ (nth_error st' j = nth_error st2 j \/ j = i /\ exists s d, nth_error st2 i = Some (DS s) /\ nth_error st' i = Some (DS (with_doc_s s d)))).
  { destruct (get_s st2 i) as [s|] eqn:E; [|discriminate]. destruct (_ || _)%bool; [injection H as <- <- _; auto|]. destruct (non_trivial_ty (sd_base s)); [injection H as <- <- _; auto|].
    destruct (simple_doc s) as [d|]; [|injection H as <- <- _; auto]. injection H as <- <- _. split; [reflexivity|]. apply get_s_nth in E. unfold put_s. destruct (Nat.eq_dec j i) as [->|N].
    - right. split; [reflexivity|]. exists s, d. split; [exact E|]. rewrite (put_nth st2 i _ _ i E), Nat.eqb_refl. reflexivity.
    - left. rewrite (put_nth st2 i _ _ j E). destruct (Nat.eqb_spec j i); [contradiction|reflexivity]. }
  destruct P as [-> P]. destruct (nth_error st j) as [[c|s]|] eqn:Ej.
  - rewrite X in Y. destruct P as [->|[-> [s [d [P _]]]]]; [exact Y|congruence].
  - destruct X as [s1 [X1 [X2 X3]]]. rewrite X1 in Y. destruct Y as [s2 [Y1 [Y2 Y3]]].
    assert (Z : j <> i -> ~ In (TPtr j) (filter (is_simple st1) chain) -> sd_base s2 = sd_base s).
    { intros N M. rewrite Y3 by (intros [[= <-]|[]]; apply N; reflexivity). apply X3. intros I. apply M. apply filter_In. split; [exact I|]. cbn [is_simple]. rewrite X1. reflexivity. }
    destruct P as [->|[-> [s3 [d [P1 P2]]]]].
    + exists s2. split; [exact Y1|]. split; [intros _; congruence|exact Z].
    + exists (with_doc_s s3 d). split; [exact P2|]. split; intros N; destruct N; reflexivity.
  - rewrite X in Y. destruct P as [->|[-> [s [d [P _]]]]]; [exact Y|congruence].
Qed.

Definition doc_of (s : sdef) (b : Z) : string := if (sd_list s || match sd_union s with [] => false | _ => true end || non_trivial b)%bool then sd_doc s else match simple_doc s with Some d => d | None => sd_doc s end.

(* the places that hold a type *)
Inductive key := KS (i : nat) (s : slot) | KB (i : nat).
Definition held (st : store) (k : key) : option ty :=
  match k with
  | KS i s => match get_c st i with Some c => slot_ty c s | None => None end
  | KB i => option_map def_base (nth_error st i)
  end.
Definition doc_at (st : store) (i : nat) : option string := option_map sd_doc (get_s st i).
Lemma held_frame st st' k : frame st st' -> held st k = None <-> held st' k = None.
Proof.
  intros F. pose proof F as F0. destruct k as [i s|i]; cbn [held].
  - apply (frame_nth _ _ i) in F. destruct (get_c st i) as [c|] eqn:E.
    + destruct (frame_c _ _ i c F0 E) as [c' [E' R]]. rewrite E'. pose proof (slots_in c s) as A. pose proof (slots_in c' s) as B. rewrite (erase_slots _ _ R) in B. destruct (slot_ty c s), (slot_ty c' s); intuition congruence.
    + destruct (get_c st' i) as [c'|] eqn:E'; [|tauto]. destruct (frame_c _ _ i c' (eq_sym F0) E') as [c [X _]]. congruence.
  - apply (frame_nth _ _ i) in F. destruct (nth_error st i), (nth_error st' i); cbn in *; split; congruence.
Qed.
(* a store is its frame and what is in the places *)
Lemma store_ext st st' : frame st st' -> (forall k, held st' k = held st k) -> (forall i, doc_at st' i = doc_at st i) -> st' = st.
Proof.
  intros F K D. assert (X : forall n, nth_error st' n = nth_error st n).
  { intros n. pose proof (frame_nth _ _ n F) as X. destruct (nth_error st n) as [d|] eqn:E, (nth_error st' n) as [d'|] eqn:E'; cbn [option_map] in X; try discriminate; [|reflexivity]. f_equal. injection X as X.
    pose proof (K (KB n)) as B. cbn [held] in B. rewrite E, E' in B. cbn [option_map] in B. injection B as B. destruct d as [c|s], d' as [c'|s']; cbn [erase_d def_base] in *; try discriminate; f_equal.
    - injection X as X. assert (R : erase_c c' = erase_c c) by (unfold erase_c, set_base, set_fields; cbn; congruence). pose proof (f_equal ct_elems R) as X6. pose proof (f_equal ct_attrs R) as X7. unfold erase_c, set_base, set_fields in X6, X7. cbn [ct_elems ct_attrs] in X6, X7. assert (Z : forall s, slot_ty c' s = slot_ty c s). { intros s. pose proof (K (KS n s)) as Z. cbn [held] in Z. unfold get_c in Z. rewrite E, E' in Z. exact Z. }
      assert (Ee : ct_elems c' = ct_elems c).
      { pose proof (fun j => Z (SE j)) as Z1. cbn [slot_ty] in Z1. clear -X6 Z1. revert Z1 X6. generalize (ct_elems c'). induction (ct_elems c) as [|x l IH]; intros [|y m] Z1 X; try discriminate; [reflexivity|].
        cbn [map] in X. pose proof (f_equal (@tl _) X) as Xt. pose proof (f_equal (hd (with_ty_e x TNil)) X) as Xh. cbn [tl hd] in Xt, Xh. pose proof (Z1 0) as Zh. cbn in Zh. injection Zh as Zh.
        f_equal; [destruct x, y; unfold with_ty_e in Xh; cbn in *; congruence|]. apply IH; [intros j; exact (Z1 (S j))|exact Xt]. }
      assert (Ea : ct_attrs c' = ct_attrs c).
      { pose proof (fun j => Z (SA j)) as Z1. cbn [slot_ty] in Z1. clear -X7 Z1. revert Z1 X7. generalize (ct_attrs c'). induction (ct_attrs c) as [|x l IH]; intros [|y m] Z1 X; try discriminate; [reflexivity|].
        cbn [map] in X. pose proof (f_equal (@tl _) X) as Xt. pose proof (f_equal (hd (with_ty_a x TNil)) X) as Xh. cbn [tl hd] in Xt, Xh. pose proof (Z1 0) as Zh. cbn in Zh. injection Zh as Zh.
        f_equal; [destruct x, y; unfold with_ty_a in Xh; cbn in *; congruence|]. apply IH; [intros j; exact (Z1 (S j))|exact Xt]. }
      pose proof (f_equal ct_name R). pose proof (f_equal ct_doc R). pose proof (f_equal ct_anon R). pose proof (f_equal ct_mixed R). pose proof (f_equal ct_abstract R). pose proof (f_equal ct_extends R). clear X R Z X6 X7. destruct c, c'; cbn in *; congruence.
    - pose proof (D n) as Dn. unfold doc_at, get_s in Dn. rewrite E, E' in Dn. cbn in Dn. injection Dn as Dn. destruct s, s'; unfold erase_s, with_doc_s, with_base_s in X; cbn in *. congruence. }
  clear -X. revert st X. induction st' as [|d st' IH]; intros [|e st] X; [reflexivity|specialize (X 0); discriminate|specialize (X 0); discriminate|]. f_equal; [specialize (X 0); cbn in X; congruence|]. apply IH. intros n. exact (X (S n)).
Qed.
(* setting a field, and setting a base *)
Lemma put_slot_held st i c s v u k : get_c st i = Some c -> slot_ty c s = Some u -> held (put_c st i (slot_set c s v)) k = if match k with KS j s' => if Nat.eqb j i then if slot_dec s' s then true else false else false | KB _ => false end then Some v else held st k.
Proof.
  intros Hc Hu. pose proof Hc as Hn. apply get_c_nth in Hn. destruct k as [j s'|j]; cbn [held].
  - unfold get_c at 1, put_c. rewrite (put_nth st i _ _ j Hn). destruct (Nat.eqb j i) eqn:N; [|reflexivity]. apply Nat.eqb_eq in N as ->. destruct (slot_dec s' s) as [->|M].
    + exact (slot_same _ _ _ _ Hu).
    + rewrite (slot_other _ _ _ _ M), Hc. reflexivity.
  - unfold put_c. rewrite (put_nth st i _ _ j Hn). destruct (Nat.eqb j i) eqn:N; [|reflexivity]. apply Nat.eqb_eq in N as ->. rewrite Hn. cbn [option_map def_base]. f_equal. apply slot_base.
Qed.
Lemma put_base_held st i c v k : get_c st i = Some c -> held (put_c st i (set_base c v)) k = if match k with KB j => Nat.eqb j i | KS _ _ => false end then Some v else held st k.
Proof.
  intros Hc. pose proof Hc as Hn. apply get_c_nth in Hn. destruct k as [j s'|j]; cbn [held].
  - unfold get_c at 1, put_c. rewrite (put_nth st i _ _ j Hn). destruct (Nat.eqb j i) eqn:N; [|reflexivity]. apply Nat.eqb_eq in N as ->. rewrite Hc. destruct s'; reflexivity.
  - unfold put_c. rewrite (put_nth st i _ _ j Hn). destruct (Nat.eqb j i) eqn:N; reflexivity.
Qed.
Lemma put_c_doc st i c c' : get_c st i = Some c -> forall j, doc_at (put_c st i c') j = doc_at st j.
Proof. intros Hc j. apply get_c_nth in Hc. unfold doc_at, get_s, put_c. rewrite (put_nth st i _ _ j Hc). destruct (Nat.eqb j i) eqn:N; [|reflexivity]. apply Nat.eqb_eq in N as ->. rewrite Hc. reflexivity. Qed.


Section Order.
  Variable fa : option (attribute -> bool).
  Hypothesis fa_name : forall a t, filtered fa (with_ty_a a t) = filtered fa a.
  Variable st0 : store.
  Hypothesis C0 : complete st0.
  Variable h : nat -> nat.
  Hypothesis H0 : ranked h st0.
  Notation r := (rank_of st0).
  Notation beta := (root_of st0).
  Notation good := (good r beta).
  (* simple types are derived from simple types, and those that add nothing are not derived from anyType; a complex type whose attributes are
     all ignored is not derived from a complex type that is replaced by its text *)
  Hypothesis simple_up : forall i s j, nth_error st0 i = Some (DS s) -> sd_base s = TPtr j -> is_simple st0 (TPtr j) = true.
  Hypothesis no_any : forall i s, nth_error st0 i = Some (DS s) -> useful s (beta i) = false -> beta i <> 0%Z.
  Hypothesis no_switch : forall i c j b, nth_error st0 i = Some (DC c) -> bare fa c -> ct_base c = TPtr j -> nth_error st0 j = Some (DC b) -> unpacks fa st0 b = false.

  (* what a reference becomes *)
  Definition res_s (j : nat) (s : sdef) : ty := if useful s (beta j) then TPtr j else TB (beta j).
  Definition res (t : ty) : ty :=
    match t with
    | TPtr i => match nth_error st0 i with
                | Some (DS s) => res_s i s
                | Some (DC c) => if unpacks fa st0 c then match ct_base c with TPtr k => match nth_error st0 k with Some (DS s) => res_s k s | _ => TPtr k end | b => b end else t
                | None => t
                end
    | _ => t
    end.
  Definition fin (k : key) : option ty :=
    match k with
    | KS _ _ => option_map res (held st0 k)
    | KB i => match nth_error st0 i with Some (DC c) => Some (res (ct_base c)) | Some (DS _) => Some (TB (beta i)) | None => None end
    end.
  Definition fin_doc (i : nat) : option string := match nth_error st0 i with Some (DS s) => Some (doc_of s (beta i)) | _ => None end.
  (* the types that are gone through when t is flattened *)
  Inductive vis : ty -> nat -> Prop :=
  | vis_simple i s : nth_error st0 i = Some (DS s) -> vis (TPtr i) i
  | vis_self i c : nth_error st0 i = Some (DC c) -> unpacks fa st0 c = false -> vis (TPtr i) i
  | vis_slot i c s u j : nth_error st0 i = Some (DC c) -> unpacks fa st0 c = false -> slot_ty c s = Some u -> vis u j -> vis (TPtr i) j
  | vis_base i c j : nth_error st0 i = Some (DC c) -> vis (ct_base c) j -> vis (TPtr i) j.
  Definition own (t : ty) (k : key) : Prop :=
    match k with KS i _ => vis t i | KB i => vis t i \/ exists j, vis t j /\ is_simple st0 (TPtr j) = true /\ ancestor st0 (TPtr j) (TPtr i) end.
  Definition gives (i : nat) (x : ty) : Prop :=
    match nth_error st0 i with
    | Some (DS s) => is_simple st0 x = true /\ ancestor st0 (sd_base s) x
    | Some (DC c) => (exists s u, slot_ty c s = Some u /\ x = res u) \/ ct_mixed c = true /\ x = res (ct_base c)
    | None => False
    end.
  Definition pushed (t x : ty) : Prop := exists i, vis t i /\ gives i x.

  Lemma simple_nth st i : is_simple st (TPtr i) = true <-> exists s, nth_error st i = Some (DS s).
  Proof. cbn [is_simple]. destruct (nth_error st i) as [[c|s]|]; split; try discriminate; try (intros [x X]; discriminate); eauto. Qed.
  Lemma unpack_base st c : unpacks fa st c = true -> (exists b, ct_base c = TB b /\ b <> 0%Z) \/ exists k, ct_base c = TPtr k /\ is_simple st (TPtr k) = true.
  Proof.
    unfold unpacks. intros U. apply andb_true_iff in U as [U _]. destruct (ct_base c) as [|b|n|k] eqn:E; try discriminate; [left|right; eauto]. exists b. split; [reflexivity|]. intros ->. discriminate.
  Qed.
  Lemma res_unpack i c : nth_error st0 i = Some (DC c) -> unpacks fa st0 c = true -> res (TPtr i) = res (ct_base c).
  Proof.
    intros E U. cbn [res]. rewrite E, U. destruct (unpack_base _ _ U) as [[b [-> _]]|[k [-> S]]]; [reflexivity|]. apply simple_nth in S as [s S]. cbn [res]. rewrite S. reflexivity.
  Qed.
  Lemma res_stays i c : nth_error st0 i = Some (DC c) -> unpacks fa st0 c = false -> res (TPtr i) = TPtr i.
  Proof. intros E U. cbn [res]. rewrite E, U. reflexivity. Qed.
  Lemma res_simple i s : nth_error st0 i = Some (DS s) -> res (TPtr i) = res_s i s.
  Proof. intros E. cbn [res]. rewrite E. reflexivity. Qed.
  (* the cases *)
  Lemma res_cases (P : ty -> ty -> Prop) : (forall u, res u = u -> P u u) -> (forall i s, nth_error st0 i = Some (DS s) -> useful s (beta i) = false -> P (TPtr i) (TB (beta i))) ->
    (forall i c, nth_error st0 i = Some (DC c) -> unpacks fa st0 c = true -> P (ct_base c) (res (ct_base c)) -> P (TPtr i) (res (ct_base c))) -> forall u, P u (res u).
  Proof.
    intros A B C u. destruct u as [|b|n|i]; try (apply A; reflexivity). destruct (nth_error st0 i) as [[c|s]|] eqn:E.
    - destruct (unpacks fa st0 c) eqn:U; [|pose proof (res_stays i c E U) as X; rewrite X; apply A; exact X]. rewrite (res_unpack i c E U). apply (C i c E U).
      destruct (unpack_base _ _ U) as [[b [-> _]]|[k [-> S]]]; [apply A; reflexivity|]. apply simple_nth in S as [s S]. pose proof (res_simple k s S) as X. unfold res_s in X. destruct (useful s (beta k)) eqn:Us; rewrite X; [apply A; exact X|exact (B k s S Us)].
    - pose proof (res_simple i s E) as X. unfold res_s in X. destruct (useful s (beta i)) eqn:Us; rewrite X; [apply A; exact X|exact (B i s E Us)].
    - assert (X : res (TPtr i) = TPtr i) by (cbn [res]; rewrite E; reflexivity). rewrite X. apply A. exact X.
  Qed.
  Lemma res_idem u : res (res u) = res u.
  Proof. apply (res_cases (fun u v => res v = v)); auto. Qed.
  Lemma good0 : good st0.
  Proof. exact (complete_good st0 C0). Qed.
  Lemma res_okty u : okty st0 u -> okty st0 (res u) /\ rk r (res u) <= rk r u /\ bt beta (res u) = bt beta u /\ ancestor st0 u (res u).
  Proof.
    apply (res_cases (fun u v => okty st0 u -> okty st0 v /\ rk r v <= rk r u /\ bt beta v = bt beta u /\ ancestor st0 u v)).
    - intros v _ K. split; [exact K|]. split; [lia|]. split; [reflexivity|constructor].
    - intros i s E _ K. split; [exact I|]. split; [cbn [rk]; lia|]. split; [reflexivity|]. exact (good_root _ _ _ good0 (TPtr i) K).
    - intros i c E U IH K. destruct (proj2 good0 i _ E) as [K1 [K2 [K3 _]]]. cbn [def_base] in *. destruct (IH K1) as [A [B [C D]]]. split; [exact A|]. split; [cbn [rk]; lia|]. split; [cbn [bt]; congruence|].
      apply an_base; cbn [base_of]; rewrite E; cbn [def_base]; [intros X; rewrite X in K1; exact K1|exact D].
  Qed.
  Lemma res_hk u : hk h (res u) <= hk h u.
  Proof.
    apply (res_cases (fun u v => hk h v <= hk h u)); [intros; lia|intros; cbn [hk]; lia|]. intros i c E U IH. destruct (ct_base c) as [| | |j] eqn:Eb; try (cbn [hk] in *; lia).
    assert (h j < h i) by (apply (H0 i _ j E); left; exact Eb). cbn [hk] in *. lia.
  Qed.
  Lemma vis_builtin b j : ~ vis (TB b) j.
  Proof. inversion 1. Qed.
  Lemma vis_res u j : vis (res u) j -> vis u j.
  Proof.
    apply (res_cases (fun u v => vis v j -> vis u j)); auto.
    - intros i s _ _ X. destruct (vis_builtin _ _ X).
    - intros i c E U IH X. exact (vis_base i c j E (IH X)).
  Qed.
  Lemma own_res u k : own (res u) k -> own u k.
  Proof. destruct k as [i s|i]; cbn [own]; [apply vis_res|]. intros [X|[j [X Y]]]; [left; exact (vis_res _ _ X)|right; exists j; split; [exact (vis_res _ _ X)|exact Y]]. Qed.
  Lemma pushed_res u x : pushed (res u) x -> pushed u x.
  Proof. intros [i [X Y]]. exists i. split; [exact (vis_res _ _ X)|exact Y]. Qed.

  (* ---------- between the beginning and the end ---------- *)
  Definition between (st : store) : Prop :=
    frame st0 st /\ (forall k, held st k = held st0 k \/ held st k = fin k) /\ forall i, doc_at st i = doc_at st0 i \/ doc_at st i = fin_doc i.
  Lemma between0 : between st0.
  Proof. split; [reflexivity|]. split; left; reflexivity. Qed.
  Lemma between_good st : between st -> good st.
  Proof.
    intros [F [K _]]. pose proof good0 as [B G]. split; [rewrite (frame_len _ _ F); exact B|]. intros i d E.
    assert (D0 : exists d0, nth_error st0 i = Some d0 /\ erase_d d0 = erase_d d). { pose proof (frame_nth _ _ i F) as X. rewrite E in X. destruct (nth_error st0 i) as [d0|]; [|discriminate]. injection X as X. eauto. }
    destruct D0 as [d0 [E0 R]]. destruct (G i d0 E0) as [K1 [K2 [K3 K4]]].
    assert (Kb := K (KB i)). cbn [held fin] in Kb. rewrite E, E0 in Kb. cbn [option_map] in Kb.
    assert (Z : okty st (def_base d) /\ rk r (def_base d) <= r i /\ bt beta (def_base d) = beta i).
    { destruct (res_okty (def_base d0) K1) as [R1 [R2 [R3 _]]].
      assert (Y : def_base d = def_base d0 \/ def_base d = res (def_base d0) \/ def_base d = TB (beta i)) by (destruct Kb as [Kb|Kb]; [left; congruence|]; destruct d0; injection Kb as Kb; auto).
      destruct Y as [Y|[Y|Y]]; rewrite Y; [split; [exact (okty_frame _ _ _ F K1)|auto]|split; [exact (okty_frame _ _ _ F R1)|split; [lia|congruence]]|split; [exact I|split; [cbn [rk]; lia|reflexivity]]]. }
    destruct Z as [Z1 [Z2 Z3]]. split; [exact Z1|]. split; [exact Z2|]. split; [exact Z3|]. destruct d as [c|s]; [|exact I]. intros s u Hu.
    assert (Ks := K (KS i s)). cbn [held fin] in Ks. unfold get_c in Ks. rewrite E, E0 in Ks. destruct d0 as [c0|s0]; [|discriminate]. rewrite Hu in Ks. destruct (slot_ty c0 s) as [u0|] eqn:U0; [|destruct Ks; discriminate].
    apply (okty_frame _ _ _ F). pose proof (K4 s u0 U0) as Ku. destruct Ks as [Ks|Ks]; cbn [option_map] in Ks; injection Ks as ->; [exact Ku|exact (proj1 (res_okty _ Ku))].
  Qed.
  Lemma between_anc st : between st -> forall a u, ancestor st a u -> ancestor st0 a u.
  Proof.
    intros B. pose proof B as [F [K _]]. apply an_steps. intros a Hn. destruct a as [| | |i]; try (cbn [base_of] in Hn; congruence). cbn [base_of] in *. specialize (K (KB i)). cbn [held fin] in K.
    destruct (nth_error st i) as [d|] eqn:E; [|congruence]. cbn [option_map] in K. assert (Hi : i < List.length st0) by (rewrite <- (frame_len _ _ F); exact (nth_lt _ _ _ E)).
    destruct (nth_error st0 i) as [d0|] eqn:E0; [|apply nth_error_None in E0; lia]. destruct (proj2 good0 i d0 E0) as [K1 _].
    assert (A : ancestor st0 (TPtr i) (def_base d0)). { apply an_base; cbn [base_of]; rewrite E0; [intros X; rewrite X in K1; exact K1|constructor]. }
    destruct K as [K|K]; [injection K as ->; exact A|]. destruct d0 as [c0|s0]; injection K as ->; [exact (an_trans _ _ _ _ A (proj2 (proj2 (proj2 (res_okty _ K1)))))|exact (good_root _ _ _ good0 (TPtr i) Hi)].
  Qed.
  Lemma bare_unpack st c : unpacks fa st c = true <-> bare fa c /\ match ct_base c with TB b => b <> 0%Z | t => is_simple st t = true end.
  Proof.
    split.
    - intros U. split; [exact (unpacks_bare fa st c U)|]. destruct (unpack_base _ _ U) as [[b [-> X]]|[k [-> X]]]; exact X.
    - intros [B X]. unfold unpacks, filter_fields. cbn [fst]. rewrite (fold_filter (filtered fa)). cbn [app]. apply andb_true_iff. split.
      + destruct (ct_base c) as [|b| |]; auto. destruct (Z.eqb_spec b 0); [contradiction|reflexivity].
      + unfold bare in B. rewrite Forall_forall in B. destruct (filter (fun a => negb (filtered fa a)) (ct_attrs c)) as [|a l] eqn:E; [reflexivity|]. exfalso.
        assert (Y : In a (a :: l)) by (left; reflexivity). rewrite <- E in Y. apply filter_In in Y as [Y1 Y2]. rewrite (B a Y1) in Y2. discriminate.
  Qed.
  Lemma between_c st i c : between st -> nth_error st i = Some (DC c) -> exists c0, nth_error st0 i = Some (DC c0) /\ erase_c c0 = erase_c c /\ (ct_base c = ct_base c0 \/ ct_base c = res (ct_base c0)).
  Proof.
    intros [F [K _]] E. pose proof E as E1. apply get_c_nth in E1. destruct (frame_c _ _ i c (eq_sym F) E1) as [c0 [E0 R]]. apply get_c_nth in E0. exists c0. split; [exact E0|]. split; [exact R|].
    specialize (K (KB i)). cbn [held fin] in K. rewrite E, E0 in K. cbn [option_map def_base] in K. destruct K as [K|K]; injection K as K; auto.
  Qed.
  Lemma unpack_same st i c c0 : between st -> nth_error st i = Some (DC c) -> nth_error st0 i = Some (DC c0) -> unpacks fa st c = unpacks fa st0 c0.
  Proof.
    intros B E E0. destruct (between_c st i c B E) as [c1 [E1 [R K]]]. assert (c1 = c0) as -> by congruence. clear E1. destruct B as [F _].
    assert (Bi : bare fa c <-> bare fa c0) by (split; apply (bare_erase fa fa_name); congruence).
    apply Bool.eq_iff_eq_true. rewrite !bare_unpack, Bi. 
    assert (X : bare fa c0 -> (match ct_base c with TB b => b <> 0%Z | t => is_simple st t = true end <-> match ct_base c0 with TB b => b <> 0%Z | t => is_simple st0 t = true end)); [|tauto].
    intros Hb. destruct K as [->|K].
    - destruct (ct_base c0) as [| | |j]; try tauto. rewrite (frame_simple _ _ (TPtr j) F). tauto.
    - rewrite K. destruct (ct_base c0) as [|b|n|j] eqn:Eb; try (cbn [res]; tauto). destruct (nth_error st0 j) as [[b|s]|] eqn:Ej.
      + rewrite (res_stays j b Ej (no_switch i c0 j b E0 Hb Eb Ej)). rewrite (frame_simple _ _ (TPtr j) F). tauto.
      + rewrite (res_simple j s Ej). assert (S : is_simple st0 (TPtr j) = true) by (apply simple_nth; eauto). unfold res_s. destruct (useful s (beta j)) eqn:Us; [rewrite (frame_simple _ _ (TPtr j) F); tauto|]. pose proof (no_any j s Ej Us). tauto.
      + assert (Y : res (TPtr j) = TPtr j) by (cbn [res]; rewrite Ej; reflexivity). rewrite Y, (frame_simple _ _ (TPtr j) F). tauto.
  Qed.

  (* ---------- steps ---------- *)
  Record step (st st' : store) (O : key -> Prop) (D : nat -> Prop) : Prop := mkStep {
    sp_frame : frame st st';
    sp_held : forall k, held st' k = held st k \/ O k /\ held st' k = fin k;
    sp_all : forall k, O k -> held st' k = fin k;
    sp_doc : forall i, doc_at st' i = doc_at st i \/ D i /\ doc_at st' i = fin_doc i;
    sp_docs : forall i, D i -> doc_at st' i = fin_doc i }.
  Lemma step_refl st : step st st (fun _ => False) (fun _ => False).
  Proof. split; try reflexivity; try (intros; contradiction); left; reflexivity. Qed.
  Lemma step_trans st st1 st2 O1 D1 O2 D2 : step st st1 O1 D1 -> step st1 st2 O2 D2 -> step st st2 (fun k => O1 k \/ O2 k) (fun i => D1 i \/ D2 i).
  Proof.
    intros [F1 A1 B1 C1 E1] [F2 A2 B2 C2 E2]. split.
    - exact (eq_trans F1 F2).
    - intros k. destruct (A2 k) as [->|[X ->]]; [|auto]. destruct (A1 k) as [->|[X ->]]; auto.
    - intros k [X|X]; [|exact (B2 k X)]. destruct (A2 k) as [->|[_ Y]]; [exact (B1 k X)|exact Y].
    - intros i. destruct (C2 i) as [->|[X ->]]; [|auto]. destruct (C1 i) as [->|[X ->]]; auto.
    - intros i [X|X]; [|exact (E2 i X)]. destruct (C2 i) as [->|[_ Y]]; [exact (E1 i X)|exact Y].
  Qed.
  Lemma step_more st st' O D (O' : key -> Prop) (D' : nat -> Prop) : step st st' O D -> (forall k, O k -> O' k) -> (forall k, O' k -> O k \/ held st k = fin k) -> (forall i, D i -> D' i) -> (forall i, D' i -> D i \/ doc_at st i = fin_doc i) -> step st st' O' D'.
  Proof.
    intros [F A B C E] X1 X2 Y1 Y2. split; auto.
    - intros k. destruct (A k) as [Z|[Z1 Z2]]; auto.
    - intros k Hk. destruct (X2 k Hk) as [Z|Z]; [exact (B k Z)|]. destruct (A k) as [->|[_ W]]; assumption.
    - intros i. destruct (C i) as [Z|[Z1 Z2]]; auto.
    - intros i Hi. destruct (Y2 i Hi) as [Z|Z]; [exact (E i Z)|]. destruct (C i) as [->|[_ W]]; assumption.
  Qed.
  Lemma step_between st st' O D : between st -> step st st' O D -> between st'.
  Proof.
    intros [F [K L]] [F1 A B C E]. split; [exact (eq_trans F F1)|]. split.
    - intros k. destruct (A k) as [->|[_ X]]; [apply K|right; exact X].
    - intros i. destruct (C i) as [->|[_ X]]; [apply L|right; exact X].
  Qed.
  Lemma step_keeps st st' O D : step st st' O D -> (forall k, held st k = fin k -> held st' k = fin k) /\ forall i, doc_at st i = fin_doc i -> doc_at st' i = fin_doc i.
  Proof. intros [F A B C E]. split; [intros k X; destruct (A k) as [->|[_ Y]]; assumption|intros i X; destruct (C i) as [->|[_ Y]]; assumption]. Qed.

  (* ---------- what has been changed has been dealt with ---------- *)
  Definition closed (st : store) (Old : ty -> Prop) (u : ty) : Prop :=
    (forall k, own u k -> held st k = fin k) /\ (forall i, vis u i -> doc_at st i = fin_doc i) /\ forall x, pushed u x -> Old x.
  Definition due (st : store) (Old : ty -> Prop) (k : key) : Prop :=
    match k with
    | KS i s => forall u, held st0 k = Some u -> closed st Old u
    | KB i => match nth_error st0 i with
              | Some (DC c) => closed st Old (ct_base c)
              | Some (DS s) => forall j, is_simple st0 (TPtr j) = true -> ancestor st0 (sd_base s) (TPtr j) -> held st (KB j) = fin (KB j) /\ Old (TPtr j)
              | None => True
              end
    end.
  Definition acc (st : store) (Old : ty -> Prop) : Prop := forall k, held st k <> held st0 k -> due st Old k.
  Lemma closed_mono st st' O D (Old Old' : ty -> Prop) u : step st st' O D -> (forall x, Old x -> Old' x) -> closed st Old u -> closed st' Old' u.
  Proof. intros S I [A [B C]]. destruct (step_keeps _ _ _ _ S) as [X Y]. split; [intros k Hk; apply X, A, Hk|]. split; [intros i Hi; apply Y, B, Hi|intros x Hx; apply I, C, Hx]. Qed.
  Lemma due_mono st st' O D (Old Old' : ty -> Prop) k : step st st' O D -> (forall x, Old x -> Old' x) -> due st Old k -> due st' Old' k.
  Proof.
    intros S I. destruct k as [i s|i]; cbn [due].
    - intros H u Hu. exact (closed_mono _ _ _ _ _ _ _ S I (H u Hu)).
    - destruct (nth_error st0 i) as [[c|s]|]; auto; [exact (closed_mono _ _ _ _ _ _ _ S I)|]. intros H j A B. destruct (H j A B) as [X Y]. split; [exact (proj1 (step_keeps _ _ _ _ S) _ X)|exact (I _ Y)].
  Qed.
  Lemma acc_step st st' (O : key -> Prop) D (Old Old' : ty -> Prop) : acc st Old -> step st st' O D -> (forall x, Old x -> Old' x) -> (forall k, O k -> due st' Old' k) -> acc st' Old'.
  Proof.
    intros A S I H k N. destruct (sp_held _ _ _ _ S k) as [E|[E _]]; [|exact (H k E)]. apply (due_mono _ _ _ _ _ _ _ S I). apply A. congruence.
  Qed.
  Lemma acc_more st (Old Old' : ty -> Prop) : (forall x, Old x -> Old' x) -> acc st Old -> acc st Old'.
  Proof. intros I A. apply (acc_step st st (fun _ => False) (fun _ => False) Old Old' A (step_refl st) I). intros k []. Qed.

  Record post (st : store) (t : ty) (st' : store) (p : list ty) (v : ty) (Old : ty -> Prop) : Prop := mkPost {
    po_res : v = res t;
    po_step : step st st' (own t) (vis t);
    po_in : forall x, In x p -> pushed t x;
    po_all : forall x, pushed t x -> In x p \/ Old x;
    po_acc : acc st' (fun x => Old x \/ In x p) }.
  (* the call is made for the field as it is now *)
  Lemma post_slot st u0 u st' p v Old : u = u0 \/ u = res u0 /\ closed st Old u0 -> post st u st' p v Old -> post st u0 st' p v Old.
  Proof.
    intros [->|[-> [A [B C]]]] P; [exact P|]. destruct P as [P1 P2 P3 P4 P5]. split; auto.
    - rewrite P1. apply res_idem.
    - apply (step_more _ _ _ _ _ _ P2); [apply own_res|intros k Hk; right; exact (A k Hk)|intros i; apply vis_res|intros i Hi; right; exact (B i Hi)].
    - intros x Hx. exact (pushed_res _ _ (P3 x Hx)).
  Qed.

  (* ---------- simple types ---------- *)
  Lemma anc_simple a u : ancestor st0 a u -> is_simple st0 a = true -> forall j, u = TPtr j -> is_simple st0 (TPtr j) = true.
  Proof.
    induction 1 as [t|t u Hn Ha IH]; intros S j Hj; [subst t; exact S|]. destruct t as [| | |i]; try discriminate. apply simple_nth in S as [s S]. cbn [base_of] in *. rewrite S in *. cbn [def_base] in *.
    destruct (sd_base s) as [|b|n|k] eqn:Eb; try congruence; try (subst u; inversion Ha; subst; cbn [base_of] in *; congruence). exact (IH (simple_up i s k S Eb) j Hj).
  Qed.
  Lemma vis_of_simple i s j : nth_error st0 i = Some (DS s) -> vis (TPtr i) j <-> j = i.
  Proof. intros E. split; [inversion 1; subst; congruence|intros ->; exact (vis_simple i s E)]. Qed.
  Lemma ptr_anc a j : ancestor st0 a (TPtr j) -> a <> TPtr j -> exists i d, a = TPtr i /\ nth_error st0 i = Some d /\ ancestor st0 (def_base d) (TPtr j).
  Proof.
    inversion 1 as [|t u Hn Ha]; subst; [congruence|]. intros _. destruct a as [| | |i]; try (cbn [base_of] in Hn; congruence). cbn [base_of] in *. destruct (nth_error st0 i) as [d|] eqn:E; [|congruence]. eauto.
  Qed.
  (* from a simple type up: through the bases as they are now, or dealt with *)
  Lemma still_above st Old : between st -> acc st Old -> forall a u, ancestor st0 a u -> is_simple st0 a = true -> forall j, u = TPtr j -> ancestor st a (TPtr j) \/ held st (KB j) = fin (KB j) /\ Old (TPtr j).
  Proof.
    intros B A a u H. induction H as [t|t u Hn Ha IH]; intros S j Hj; [subst t; left; constructor|]. destruct t as [| | |i]; try discriminate. pose proof S as S0. apply simple_nth in S as [s S]. cbn [base_of] in *. rewrite S in *. cbn [def_base] in *.
    destruct (sd_base s) as [|b|n|k] eqn:Eb; try congruence; try (subst u; inversion Ha; subst; cbn [base_of] in *; congruence). pose proof (simple_up i s k S Eb) as Sk.
    destruct B as [F [K _]]. destruct (K (KB i)) as [E|E].
    - destruct (IH Sk j Hj) as [X|X]; [|right; exact X]. left. cbn [held] in E. rewrite S in E. cbn [option_map def_base] in E. destruct (nth_error st i) as [d|] eqn:Ei; [|discriminate]. injection E as E.
      apply an_base; cbn [base_of]; rewrite Ei, E, Eb; [discriminate|exact X].
    - right. pose proof (A (KB i)) as D. cbn [due] in D. rewrite S in D. apply D; [rewrite E; cbn [held fin]; rewrite S; cbn [option_map def_base]; rewrite Eb; discriminate| |].
      + subst u. exact (anc_simple _ _ Ha Sk j eq_refl).
      + rewrite Eb. subst u. exact Ha.
  Qed.
  Lemma simple_post st i s Old st' p v : between st -> acc st Old -> nth_error st i = Some (DS s) -> flatten_simple st i = Ret (st', p, v) -> post st (TPtr i) st' p v Old.
  Proof.
    intros B A E H. pose proof (between_good st B) as G. pose proof B as [F [K L]].
    destruct (flatten_simple_ok r beta st i s G E) as [st2 [p2 [v2 [H2 [S [Ev [[s' [Es' [Bs' Ds']]] [Pp Pb]]]]]]]]. rewrite H in H2. injection H2 as <- <- <-.
    pose proof (simple_frame st i st' p v H) as Fr. pose proof (settles_frame _ _ _ S) as F1.
    assert (E0 : exists s0, nth_error st0 i = Some (DS s0) /\ erase_s s0 = erase_s s). { pose proof E as X. apply get_s_nth in X. destruct (frame_s _ _ i s (eq_sym F) X) as [s0 [X1 X2]]. apply get_s_nth in X1. eauto. }
    destruct E0 as [s0 [E0 R]]. assert (Hi : is_simple st0 (TPtr i) = true) by (apply simple_nth; eauto).
    assert (Base0 : sd_base s0 = TPtr i -> False). { intros X. destruct (proj2 good0 i _ E0) as [_ [X2 _]]. cbn [def_base] in X2. rewrite X in X2. cbn [rk] in X2. lia. }
    assert (Up : forall j, ancestor st0 (sd_base s0) (TPtr j) -> ancestor st0 (TPtr i) (TPtr j)). { intros j X. apply an_base; cbn [base_of]; rewrite E0; cbn [def_base]; [|exact X]. intros Z. rewrite Z in X. inversion X; subst. cbn [base_of] in *. congruence. }
    assert (In_p : forall j, In (TPtr j) p -> is_simple st0 (TPtr j) = true /\ ancestor st0 (sd_base s0) (TPtr j)).
    { intros j Hj. apply Pp in Hj as [_ [X Y]]. rewrite (frame_simple _ _ _ F) in X. split; [exact X|].
      assert (Z : ancestor st0 (TPtr i) (TPtr j)). { apply (between_anc st B). apply an_base; cbn [base_of]; rewrite E; cbn [def_base]; [|exact Y]. intros Z. rewrite Z in Y. inversion Y; subst. cbn [base_of] in *. congruence. }
      destruct (Nat.eq_dec j i) as [->|Nj]; [|inversion Z as [t|t u Hn Ha]; subst; [congruence|]].
      - exfalso. destruct (proj2 G i _ E) as [K1 [K2 _]]. cbn [def_base] in *.
        assert (M : forall a u, ancestor st a u -> okty st a -> rk r u <= rk r a). { clear - G. intros a u X. induction X as [t|t u Hn Ha IH]; intros Ho; [lia|]. destruct t as [| | |m]; try (cbn [base_of] in Hn; congruence). cbn [base_of] in *. destruct (nth_error st m) as [d|] eqn:Em; [|congruence]. destruct (proj2 G m d Em) as [Z1 [Z2 _]]. specialize (IH Z1). cbn [rk]. lia. }
        specialize (M _ _ Y K1). cbn [rk] in M. lia.
      - cbn [base_of] in Ha. rewrite E0 in Ha. exact Ha. }
    assert (Done : forall j, is_simple st0 (TPtr j) = true -> ancestor st0 (sd_base s0) (TPtr j) -> In (TPtr j) p \/ held st (KB j) = fin (KB j) /\ Old (TPtr j)).
    { intros j Hj Aj. destruct (still_above st Old B A (TPtr i) (TPtr j) (Up j Aj) Hi j eq_refl) as [X|X]; [|right; exact X]. left. apply Pp. split; [eauto|]. split; [rewrite (frame_simple _ _ _ F); exact Hj|].
      destruct (Nat.eq_dec j i) as [->|Nj]; [|inversion X as [t|t u Hn Ha]; subst; [congruence|]].
      - exfalso. destruct (proj2 good0 i _ E0) as [K1 [K2 _]]. cbn [def_base] in *.
        assert (M : forall a u, ancestor st0 a u -> okty st0 a -> rk r u <= rk r a). { pose proof good0 as G0. clear - G0. intros a u X. induction X as [t|t u Hn Ha IH]; intros Ho; [lia|]. destruct t as [| | |m]; try (cbn [base_of] in Hn; congruence). cbn [base_of] in *. destruct (nth_error st0 m) as [d|] eqn:Em; [|congruence]. destruct (proj2 G0 m d Em) as [Z1 [Z2 _]]. specialize (IH Z1). cbn [rk]. lia. }
        specialize (M _ _ Aj K1). cbn [rk] in M. lia.
      - cbn [base_of] in Ha. rewrite E in Ha. exact Ha. }
    assert (FinB : forall j, is_simple st0 (TPtr j) = true -> fin (KB j) = Some (TB (beta j))). { intros j Hj. apply simple_nth in Hj as [x Hj]. cbn [fin]. rewrite Hj. reflexivity. }
    assert (P_fin : forall j, In (TPtr j) p -> held st' (KB j) = fin (KB j)). { intros j Hj. rewrite (FinB j (proj1 (In_p j Hj))). destruct (Pb _ Hj) as [j' [x [[= <-] [X Y]]]]. cbn [held]. rewrite X. cbn [option_map def_base]. rewrite Y. reflexivity. }
    assert (I_fin : held st' (KB i) = fin (KB i)). { rewrite (FinB i Hi). cbn [held]. rewrite Es'. cbn [option_map def_base]. rewrite Bs'. reflexivity. }
    assert (Kept : forall k, held st' k = held st k \/ (k = KB i \/ exists j, k = KB j /\ In (TPtr j) p)).
    { intros [j x|j]; cbn [held].
      - left. specialize (Fr j). unfold get_c. destruct (nth_error st j) as [[c|y]|]; [rewrite Fr; reflexivity| |rewrite Fr; reflexivity]. destruct Fr as [y' [-> _]]. reflexivity.
      - destruct (Nat.eq_dec j i) as [->|Nj]; [right; left; reflexivity|]. destruct (in_dec ty_dec (TPtr j) p) as [I|I]; [right; right; eauto|]. left. specialize (Fr j).
        destruct (nth_error st j) as [[c|y]|]; [rewrite Fr; reflexivity| |rewrite Fr; reflexivity]. destruct Fr as [y' [-> [_ Z]]]. cbn [option_map def_base]. rewrite (Z Nj I). reflexivity. }
    assert (Own : forall k, own (TPtr i) k <-> (exists x, k = KS i x) \/ exists j, k = KB j /\ is_simple st0 (TPtr j) = true /\ (j = i \/ ancestor st0 (sd_base s0) (TPtr j))).
    { intros [j x|j]; cbn [own].
      - rewrite (vis_of_simple i s0 j E0). split; [intros ->; left; eauto|intros [[y [= -> _]]|[y [X _]]]; [reflexivity|discriminate]].
      - split.
        + intros [X|[m [X [Y Z]]]]; apply (vis_of_simple i s0 _ E0) in X; subst; right.
          * exists i. auto.
          * exists j. split; [reflexivity|]. split; [exact (anc_simple _ _ Z Hi j eq_refl)|]. inversion Z as [t|t u Hn Ha]; subst; [left; reflexivity|right]. cbn [base_of] in Ha. rewrite E0 in Ha. exact Ha.
        + intros [[x X]|[m [[= <-] [Sm X]]]]; [discriminate|]. right. exists i. split; [apply (vis_of_simple i s0 i E0); reflexivity|]. split; [exact Hi|]. destruct X as [->|X]; [constructor|exact (Up _ X)]. }
    assert (Doc : doc_at st' i = fin_doc i).
    { unfold doc_at, get_s, fin_doc. rewrite Es', E0. cbn [option_map]. f_equal. rewrite Ds'. specialize (L i). unfold doc_at, get_s, fin_doc in L. rewrite E, E0 in L. cbn [option_map] in L.
      assert (A1 : sd_list s0 = sd_list s) by exact (f_equal sd_list R). assert (A2 : sd_union s0 = sd_union s) by exact (f_equal sd_union R).
      assert (A3 : simple_doc s0 = simple_doc s). { unfold simple_doc. assert (A3 : sd_enum s0 = sd_enum s) by exact (f_equal sd_enum R). assert (A4 : sd_pattern s0 = sd_pattern s) by exact (f_equal sd_pattern R). assert (A5 : sd_maxlen s0 = sd_maxlen s) by exact (f_equal sd_maxlen R). assert (A6 : sd_minlen s0 = sd_minlen s) by exact (f_equal sd_minlen R). rewrite A3, A4, A5, A6. reflexivity. }
      unfold doc_of in *. rewrite A1, A2, A3 in *. destruct (_ || _ || _)%bool; [destruct L as [L|L]; injection L as L; exact L|]. destruct (simple_doc s); [reflexivity|]. destruct L as [L|L]; injection L as L; exact L. }
    assert (St : step st st' (own (TPtr i)) (vis (TPtr i))).
    { split.
      - exact F1.
      - intros k. destruct (Kept k) as [X|[->|[j [-> Hj]]]]; [left; exact X| |]; right.
        + split; [|exact I_fin]. apply Own. right. exists i. auto.
        + split; [|exact (P_fin j Hj)]. apply Own. right. exists j. destruct (In_p j Hj). auto.
      - intros k Hk. apply Own in Hk as [[x ->]|[j [-> [Sj [->|Aj]]]]].
        + cbn [held fin]. unfold get_c. rewrite Es', E0. reflexivity.
        + exact I_fin.
        + destruct (Done j Sj Aj) as [X|[X _]]; [exact (P_fin j X)|]. destruct (Kept (KB j)) as [->|[[= ->]|[m [[= <-] Hm]]]]; [exact X|exact I_fin|exact (P_fin j Hm)].
      - intros j. destruct (Nat.eq_dec j i) as [->|Nj]; [right; split; [exact (vis_simple i s0 E0)|exact Doc]|left]. specialize (Fr j). unfold doc_at, get_s.
        destruct (nth_error st j) as [[c|y]|]; [rewrite Fr; reflexivity| |rewrite Fr; reflexivity]. destruct Fr as [y' [-> [Z _]]]. cbn [option_map]. rewrite (Z Nj). reflexivity.
      - intros j Hj. apply (vis_of_simple i s0 _ E0) in Hj. subst j. exact Doc. }
    split.
    - rewrite Ev, (res_simple i s0 E0). unfold res_s. rewrite (useful_erase _ _ (beta i) R). reflexivity.
    - exact St.
    - intros x Hx. exists i. split; [exact (vis_simple i s0 E0)|]. unfold gives. rewrite E0. pose proof Hx as Hx0. apply Pp in Hx0 as [[j ->] _]. exact (In_p j Hx).
    - intros x [j [Vj Gj]]. apply (vis_of_simple i s0 _ E0) in Vj. subst j. unfold gives in Gj. rewrite E0 in Gj. destruct Gj as [G1 G2]. destruct x as [| | |j]; try discriminate. destruct (Done j G1 G2) as [X|[_ X]]; [left|right]; exact X.
    - apply (acc_step st st' _ _ Old _ A St); [auto|]. intros k Hk. apply Own in Hk as [[x ->]|[j [-> [Sj Aj]]]]; cbn [due].
      + intros u Hu. cbn [held] in Hu. unfold get_c in Hu. rewrite E0 in Hu. discriminate.
      + apply simple_nth in Sj as [sj Sj]. rewrite Sj. intros m Sm Am.
        assert (Am0 : ancestor st0 (sd_base s0) (TPtr m)).
        { destruct Aj as [->|Aj]; [congruence|]. apply (an_trans _ _ _ _ Aj). apply an_base; cbn [base_of]; rewrite Sj; cbn [def_base]; [|exact Am]. intros Z. rewrite Z in Am. inversion Am; subst. cbn [base_of] in *. congruence. }
        split; [apply (sp_all _ _ _ _ St); apply Own; right; exists m; auto|]. destruct (Done m Sm Am0) as [X|[_ X]]; auto.
  Qed.

  (* ---------- complex types ---------- *)
  Definition slot_in (c : complexT) (ss : list slot) (Q : slot -> ty -> Prop) : Prop := exists s u, In s ss /\ slot_ty c s = Some u /\ Q s u.
  Definition flat_ok (k : nat) : Prop := forall st t Old st' p v, between st -> acc st Old -> hk h t <= k -> flatten1 fa k st t = Ret (st', p, v) -> post st t st' p v Old.
  Lemma slot_now st Old i c0 s u0 c u : between st -> acc st Old -> nth_error st0 i = Some (DC c0) -> slot_ty c0 s = Some u0 -> get_c st i = Some c -> slot_ty c s = Some u -> u = u0 \/ u = res u0 /\ closed st Old u0.
  Proof.
    intros [F [K _]] A E U0 E1 U1. pose proof (K (KS i s)) as X. pose proof (A (KS i s)) as Y. cbn [due held fin] in X, Y. assert (E0 : get_c st0 i = Some c0) by (apply get_c_nth; exact E). rewrite E1, U1, E0, U0 in X, Y. cbn [option_map] in X.
    destruct (ty_dec u u0) as [Eu|Nu]; [left; exact Eu|right]. destruct X as [X|X]; [congruence|]. injection X as X. split; [exact X|]. apply Y; congruence.
  Qed.
  Lemma base_now st Old i c0 c : between st -> acc st Old -> nth_error st0 i = Some (DC c0) -> get_c st i = Some c -> ct_base c = ct_base c0 \/ ct_base c = res (ct_base c0) /\ closed st Old (ct_base c0).
  Proof.
    intros [F [K _]] A E E1. apply get_c_nth in E1. pose proof (K (KB i)) as X. pose proof (A (KB i)) as Y. cbn [due held fin] in X, Y. rewrite E1, E in X, Y. cbn [option_map def_base] in X, Y.
    destruct (ty_dec (ct_base c) (ct_base c0)) as [Eu|Nu]; [left; exact Eu|right]. destruct X as [X|X]; [congruence|]. injection X as X. split; [exact X|]. apply Y. congruence.
  Qed.
  Lemma visits_post k i c0 : flat_ok k -> nth_error st0 i = Some (DC c0) -> h i <= k -> forall ss st q Old st' q', between st -> acc st Old -> foldr (visit (flatten1 fa k) i) (st, q) ss = Ret (st', q') ->
    exists p, q' = (q ++ p)%list /\
      step st st' (fun key => slot_in c0 ss (fun s u => own u key \/ key = KS i s)) (fun j => slot_in c0 ss (fun _ u => vis u j)) /\
      (forall x, In x p -> slot_in c0 ss (fun _ u => pushed u x \/ x = res u)) /\
      (forall x, slot_in c0 ss (fun _ u => pushed u x \/ x = res u) -> In x p \/ Old x) /\
      acc st' (fun x => Old x \/ In x p).
  Proof.
    intros IH E Hk. induction ss as [|s ss IHs]; intros st q Old st' q' B A H; cbn [foldr] in H.
    { injection H as <- <-. exists []. rewrite app_nil_r. split; [reflexivity|]. split; [|split; [intros x []|split; [intros x [s [u [[] _]]]|apply (acc_more st Old); auto]]].
      apply (step_more _ _ _ _ _ _ (step_refl st)); try contradiction; intros x [s [u [[] _]]]. }
    unfold visit at 1 in H. destruct (get_c st i) as [c|] eqn:Ec; [|discriminate]. destruct (slot_ty c s) as [u|] eqn:Us; [|discriminate].
    assert (U0 : exists u0, slot_ty c0 s = Some u0).
    { pose proof (held_frame st0 st (KS i s) (proj1 B)) as X. cbn [held] in X. rewrite Ec, Us in X. unfold get_c in X. rewrite E in X. destruct (slot_ty c0 s); [eauto|]. destruct X as [X _]. specialize (X eq_refl). discriminate. }
    destruct U0 as [u0 U0]. pose proof (slot_now st Old i c0 s u0 c u B A E U0 Ec Us) as Now.
    assert (Hu0 : hk h u0 <= h i). { destruct u0 as [| | |j]; cbn [hk]; try lia. apply (H0 i _ j E). right. exact (slot_uses _ _ _ U0). }
    assert (Hu : hk h u <= k). { destruct Now as [->|[-> _]]; [lia|]. pose proof (res_hk u0). lia. }
    destruct (flatten1 fa k st u) as [[[st1 p1] v]| | |] eqn:Ef; cbn [andthen] in H; try discriminate.
    pose proof (post_slot st u0 u st1 p1 v Old Now (IH st u Old st1 p1 v B A Hu Ef)) as [P1 P2 P3 P4 P5].
    destruct (get_c st1 i) as [c1|] eqn:Ec1; [|destruct v; discriminate].
    assert (H' : foldr (visit (flatten1 fa k) i) (put_c st1 i (slot_set c1 s v), (q ++ p1 ++ [v])%list) ss = Ret (st', q')) by (destruct v; [discriminate|exact H|exact H|exact H]). clear H.
    set (st2 := put_c st1 i (slot_set c1 s v)) in *.
    pose proof (step_between _ _ _ _ B P2) as B1.
    assert (U1 : exists u1, slot_ty c1 s = Some u1).
    { pose proof (held_frame st0 st1 (KS i s) (proj1 B1)) as X. cbn [held] in X. rewrite Ec1 in X. unfold get_c in X. rewrite E, U0 in X. destruct (slot_ty c1 s); [eauto|]. destruct X as [_ X]. specialize (X eq_refl). discriminate. }
    destruct U1 as [u1 U1].
    assert (Fin : fin (KS i s) = Some v) by (cbn [fin held]; unfold get_c; rewrite E, U0, P1; reflexivity).
    assert (S2 : step st1 st2 (fun key => key = KS i s) (fun _ => False)).
    { split.
      - apply (frame_put st1 i (DC c1)); [apply get_c_nth; exact Ec1|]. cbn [erase_d]. rewrite erase_slot. reflexivity.
      - intros key. unfold st2. rewrite (put_slot_held st1 i c1 s v u1 key Ec1 U1). destruct key as [j s'|j]; [|left; reflexivity]. destruct (Nat.eqb j i) eqn:N; [|left; reflexivity]. apply Nat.eqb_eq in N as ->. destruct (slot_dec s' s) as [->|M]; [right; split; [reflexivity|rewrite Fin; reflexivity]|left; reflexivity].
      - intros key ->. unfold st2. rewrite (put_slot_held st1 i c1 s v u1 _ Ec1 U1), Nat.eqb_refl, Fin. destruct (slot_dec s s); [reflexivity|contradiction].
      - intros j. left. exact (put_c_doc st1 i c1 _ Ec1 j).
      - intros j []. }
    pose proof (step_between _ _ _ _ B1 S2) as B2.
    assert (A2 : acc st2 (fun x => Old x \/ In x (p1 ++ [v])%list)).
    { apply (acc_step st1 st2 _ _ _ _ P5 S2).
      - intros x [X|X]; [left; exact X|right; apply in_or_app; left; exact X].
      - intros key ->. cbn [due held]. unfold get_c. rewrite E, U0. intros w [= <-]. apply (closed_mono st1 st2 _ _ (fun x => Old x \/ In x p1) _ _ S2).
        + intros x [X|X]; [left; exact X|right; apply in_or_app; left; exact X].
        + split; [intros key Hkey; exact (sp_all _ _ _ _ P2 key Hkey)|]. split; [intros j Hj; exact (sp_docs _ _ _ _ P2 j Hj)|]. intros x Hx. destruct (P4 x Hx); auto. }
    destruct (IHs st2 (q ++ p1 ++ [v])%list _ st' q' B2 A2 H') as [p [Eq [S3 [Q1 [Q2 Q3]]]]]. exists ((p1 ++ [v]) ++ p)%list. split; [rewrite Eq, <- !app_assoc; reflexivity|]. split; [|split; [|split]].
    - apply (step_more st st' _ _ _ _ (step_trans _ _ _ _ _ _ _ P2 (step_trans _ _ _ _ _ _ _ S2 S3))).
      + intros key [X|[X|[s' [w [X1 [X2 X3]]]]]]; [exists s, u0; split; [left; reflexivity|auto]|exists s, u0; split; [left; reflexivity|auto]|exists s', w; split; [right; exact X1|auto]].
      + intros key [s' [w [[<-|X1] [X2 X3]]]]; left; [assert (w = u0) as -> by congruence; destruct X3; auto|right; right; exists s', w; auto].
      + intros j [X|[[]|[s' [w [X1 [X2 X3]]]]]]; [exists s, u0; split; [left; reflexivity|auto]|exists s', w; split; [right; exact X1|auto]].
      + intros j [s' [w [[<-|X1] [X2 X3]]]]; left; [assert (w = u0) as -> by congruence; auto|right; right; exists s', w; auto].
    - intros x Hx. apply in_app_or in Hx as [Hx|Hx].
      + exists s, u0. split; [left; reflexivity|]. split; [exact U0|]. apply in_app_or in Hx as [Hx|[<-|[]]]; [left; exact (P3 x Hx)|right; exact P1].
      + destruct (Q1 x Hx) as [s' [w [X1 [X2 X3]]]]. exists s', w. split; [right; exact X1|auto].
    - intros x [s' [w [[<-|X1] [X2 X3]]]].
      + assert (w = u0) as -> by congruence. destruct X3 as [X3| ->]; [destruct (P4 x X3); auto; left; apply in_or_app; left; apply in_or_app; left; assumption|]. left. apply in_or_app. left. apply in_or_app. right. left. exact P1.
      + destruct (Q2 x) as [Y|[Y|Y]]; [exists s', w; auto|left; apply in_or_app; right; exact Y|right; exact Y|left; apply in_or_app; left; exact Y].
    - refine (acc_more st' _ _ _ Q3). intros x [[X|X]|X]; [left; exact X|right; apply in_or_app; left; exact X|right; apply in_or_app; right; exact X].
  Qed.

  Lemma flatten1_builtin k st b : flatten1 fa k st (TB b) = Ret (st, [], TB b).
  Proof. destruct k; reflexivity. Qed.
  Lemma vis_of_unpacked i c j : nth_error st0 i = Some (DC c) -> unpacks fa st0 c = true -> vis (TPtr i) j <-> vis (ct_base c) j.
  Proof. intros E U. split; [inversion 1; subst; congruence|intros X; exact (vis_base i c j E X)]. Qed.
  Lemma vis_of_struct i c j : nth_error st0 i = Some (DC c) -> unpacks fa st0 c = false -> vis (TPtr i) j <-> j = i \/ slot_in c (slots c) (fun _ u => vis u j) \/ vis (ct_base c) j.
  Proof.
    intros E U. split.
    - inversion 1; subst.
      + congruence.
      + left. reflexivity.
      + right. left. assert (c0 = c) as -> by congruence. exists s, u. split; [apply slots_in; congruence|auto].
      + right. right. assert (c0 = c) as -> by congruence. assumption.
    - intros [->|[[s [u [_ [X Y]]]]|X]]; [exact (vis_self i c E U)|exact (vis_slot i c s u j E U X Y)|exact (vis_base i c j E X)].
  Qed.
  Lemma post_builtin st b Old : acc st Old -> post st (TB b) st [] (TB b) Old.
  Proof.
    intros A. assert (O : forall k, ~ own (TB b) k) by (intros [i s|i]; cbn [own]; [apply vis_builtin|intros [X|[j [X _]]]; exact (vis_builtin _ _ X)]). split.
    - reflexivity.
    - apply (step_more _ _ _ _ _ _ (step_refl st)); try contradiction; [intros k X; destruct (O k X)|intros i X; destruct (vis_builtin _ _ X)].
    - intros x [].
    - intros x [i [X _]]. destruct (vis_builtin _ _ X).
    - apply (acc_more st Old); auto.
  Qed.
  Theorem flat1_ok : forall k, flat_ok k.
  Proof.
    induction k as [|k IH]; intros st t Old st' p v B A Hk H.
    { cbn [flatten1] in H. injection H as <- <- <-. assert (N : forall j, ~ vis t j) by (intros j X; inversion X; subst; cbn [hk] in Hk; lia).
      assert (O : forall k, ~ own t k) by (intros [i s|i]; cbn [own]; [apply N|intros [X|[j [X _]]]; exact (N _ X)]). split.
      - destruct t; try reflexivity. cbn [hk] in Hk. lia.
      - apply (step_more _ _ _ _ _ _ (step_refl st)); try contradiction; [intros k X; destruct (O k X)|intros i X; destruct (N i X)].
      - intros x [].
      - intros x [i [X _]]. destruct (N i X).
      - apply (acc_more st Old); auto. }
    destruct t as [|b|n|i]; cbn [flatten1] in H; try discriminate; [injection H as <- <- <-; exact (post_builtin st b Old A)|].
    destruct (nth_error st i) as [[c|s]|] eqn:E; [| |discriminate]; [|exact (simple_post st i s Old st' p v B A E H)].
    destruct (between_c st i c B E) as [c0 [E0 [R _]]]. rewrite (unpack_same st i c c0 B E E0) in H. assert (Ec : get_c st i = Some c) by (apply get_c_nth; exact E).
    cbn [hk] in Hk. assert (Hb0 : hk h (ct_base c0) <= h i). { destruct (ct_base c0) as [| | |j] eqn:Eb; cbn [hk]; try lia. apply (H0 i _ j E0). left. exact Eb. }
    assert (Call : forall stx cx Oldx, between stx -> acc stx Oldx -> get_c stx i = Some cx -> forall sty q w, flatten1 fa k stx (ct_base cx) = Ret (sty, q, w) -> post stx (ct_base c0) sty q w Oldx).
    { intros stx cx Oldx Bx Ax Ex sty q w Hx. pose proof (base_now stx Oldx i c0 cx Bx Ax E0 Ex) as Now. apply (post_slot stx (ct_base c0) (ct_base cx) sty q w Oldx Now). apply IH; auto. destruct Now as [->|[-> _]]; [lia|]. pose proof (res_hk (ct_base c0)). lia. }
    destruct (unpacks fa st0 c0) eqn:U.
    { assert (H' : flatten1 fa k st (ct_base c) = Ret (st', p, v)) by (destruct (ct_base c); try exact H; rewrite flatten1_builtin; exact H).
      destruct (Call st c Old B A Ec _ _ _ H') as [P1 P2 P3 P4 P5]. pose proof (fun j => vis_of_unpacked i c0 j E0 U) as V.
      assert (O : forall key, own (TPtr i) key <-> own (ct_base c0) key). { intros [j s|j]; cbn [own]; [apply V|]. rewrite V. split; (intros [X|[m [X Y]]]; [left; exact X|right; exists m; split; [apply V; exact X|exact Y]]). }
      split.
      - rewrite P1. symmetry. exact (res_unpack i c0 E0 U).
      - apply (step_more _ _ _ _ _ _ P2); [intros key; apply O|intros key X; left; apply O; exact X|intros j; apply V|intros j X; left; apply V; exact X].
      - intros x Hx. destruct (P3 x Hx) as [j [X Y]]. exists j. split; [apply V; exact X|exact Y].
      - intros x [j [X Y]]. apply P4. exists j. split; [apply V; exact X|exact Y].
      - exact P5. }
    destruct (foldr (visit (flatten1 fa k) i) (st, []) (slots c)) as [[st1 q1]| | |] eqn:Ev; cbn [andthen] in H; try discriminate.
    destruct (visits_post k i c0 IH E0 ltac:(lia) (slots c) st [] Old st1 q1 B A Ev) as [p1 [Eq [S1 [Q1 [Q2 Q3]]]]]. cbn [app] in Eq. subst q1. rewrite <- (erase_slots _ _ R) in S1, Q1, Q2.
    destruct (get_c st1 i) as [c1|] eqn:Ec1; [|discriminate]. destruct (flatten1 fa k st1 (ct_base c1)) as [[[st2 p2] b]| | |] eqn:Ef; cbn [andthen] in H; try discriminate.
    pose proof (step_between _ _ _ _ B S1) as B1. destruct (Call st1 c1 _ B1 Q3 Ec1 _ _ _ Ef) as [P1 P2 P3 P4 P5]. pose proof (step_between _ _ _ _ B1 P2) as B2.
    destruct (get_c st2 i) as [c2|] eqn:Ec2; [|destruct b; discriminate].
    assert (H' : Ret (put_c st2 i (set_base c2 b), (p1 ++ p2 ++ (if ct_mixed c2 then [b] else []))%list, TPtr i) = Ret (st', p, v)) by (destruct b; [discriminate|exact H|exact H|exact H]). clear H. injection H' as <- <- <-.
    set (st3 := put_c st2 i (set_base c2 b)) in *. assert (Mx : ct_mixed c2 = ct_mixed c0). { destruct (frame_c _ _ i c0 (proj1 B2)) as [x [X1 X2]]; [apply get_c_nth; exact E0|]. assert (x = c2) as -> by congruence. exact (erase_mixed _ _ X2). }
    assert (Fin : fin (KB i) = Some b) by (cbn [fin]; rewrite E0, P1; reflexivity).
    assert (S3 : step st2 st3 (fun key => key = KB i) (fun _ => False)).
    { split.
      - apply (frame_put st2 i (DC c2)); [apply get_c_nth; exact Ec2|reflexivity].
      - intros key. unfold st3. rewrite (put_base_held st2 i c2 b key Ec2). destruct key as [j s'|j]; [left; reflexivity|]. destruct (Nat.eqb j i) eqn:N; [|left; reflexivity]. apply Nat.eqb_eq in N as ->. right. split; [reflexivity|rewrite Fin; reflexivity].
      - intros key ->. unfold st3. rewrite (put_base_held st2 i c2 b _ Ec2), Nat.eqb_refl, Fin. reflexivity.
      - intros j. left. exact (put_c_doc st2 i c2 _ Ec2 j).
      - intros j []. }
    pose proof (fun j => vis_of_struct i c0 j E0 U) as V.
    assert (St : step st st3 (own (TPtr i)) (vis (TPtr i))).
    { apply (step_more st st3 _ _ _ _ (step_trans _ _ _ _ _ _ _ S1 (step_trans _ _ _ _ _ _ _ P2 S3))).
      - assert (Z1 : forall s u key, slot_ty c0 s = Some u -> own u key -> own (TPtr i) key).
        { intros s u [j x|j] X; cbn [own]; intros Y; [exact (vis_slot i c0 s u j E0 U X Y)|]. destruct Y as [Y|[m [Y Y']]]; [left; exact (vis_slot i c0 s u j E0 U X Y)|right; exists m; split; [exact (vis_slot i c0 s u m E0 U X Y)|exact Y']]. }
        intros key [[s [u [X1 [X2 [X3|X3]]]]]|[X|X]].
        + exact (Z1 s u key X2 X3).
        + subst key. cbn [own]. exact (vis_self i c0 E0 U).
        + destruct key as [j x|j]; cbn [own] in *; [exact (vis_base i c0 j E0 X)|]. destruct X as [X|[m [X X']]]; [left; exact (vis_base i c0 j E0 X)|right; exists m; split; [exact (vis_base i c0 m E0 X)|exact X']].
        + subst key. left. exact (vis_self i c0 E0 U).
      - intros key Hkey.
        assert (Z2 : forall j, vis (TPtr i) j -> forall key, (forall u, vis u j -> own u key) -> j = i \/ slot_in c0 (slots c0) (fun s u => own u key \/ key = KS i s) \/ own (ct_base c0) key \/ key = KB i).
        { intros j Vj key' L. apply V in Vj as [->|[[s [u [X1 [X2 X3]]]]|X]]; [left; reflexivity|right; left; exists s, u; auto|right; right; left; exact (L _ X)]. }
        destruct key as [j x|j].
        + cbn [own] in Hkey. destruct (Z2 j Hkey (KS j x) (fun u X => X)) as [->|X]; [|left; exact X]. destruct (slot_ty c0 x) as [u|] eqn:Ux.
          * left. left. exists x, u. split; [apply slots_in; congruence|auto].
          * right. assert (X : held st0 (KS i x) = None) by (cbn [held]; unfold get_c; rewrite E0; exact Ux). cbn [fin]. rewrite X. cbn [option_map]. apply (held_frame st0 st (KS i x) (proj1 B)). exact X.
        + cbn [own] in Hkey. left. destruct Hkey as [Hkey|[m [Hkey Hm]]].
          * destruct (Z2 j Hkey (KB j) (fun u X => or_introl X)) as [->|X]; [right; right; reflexivity|exact X].
          * destruct (Z2 m Hkey (KB j) (fun u X => or_intror (ex_intro _ m (conj X Hm)))) as [->|X]; [|exact X]. exfalso. destruct Hm as [Hm _]. cbn [is_simple] in Hm. rewrite E0 in Hm. discriminate.
      - intros j [X|[X|[]]]; apply V; auto.
      - intros j X. apply V in X as [->|[X|X]]; [|left; left; exact X|left; right; left; exact X]. right. unfold doc_at, get_s, fin_doc. rewrite E, E0. reflexivity. }
    split.
    - symmetry. exact (res_stays i c0 E0 U).
    - exact St.
    - intros x Hx. apply in_app_or in Hx as [Hx|Hx]; [|apply in_app_or in Hx as [Hx|Hx]].
      + destruct (Q1 x Hx) as [s [u [X1 [X2 [[j [X3 X4]]|X3]]]]].
        * exists j. split; [exact (vis_slot i c0 s u j E0 U X2 X3)|exact X4].
        * exists i. split; [exact (vis_self i c0 E0 U)|]. unfold gives. rewrite E0. left. eauto.
      + destruct (P3 x Hx) as [j [X Y]]. exists j. split; [exact (vis_base i c0 j E0 X)|exact Y].
      + exists i. split; [exact (vis_self i c0 E0 U)|]. unfold gives. rewrite E0. right. rewrite <- Mx. destruct (ct_mixed c2); [|destruct Hx]. destruct Hx as [<-|[]]. split; [reflexivity|exact P1].
    - intros x [j [Vj Gj]]. apply V in Vj as [->|[[s [u [X1 [X2 X3]]]]|X]].
      + unfold gives in Gj. rewrite E0 in Gj. destruct Gj as [[s [u [X1 X2]]]|[X1 X2]].
        * destruct (Q2 x) as [Y|Y]; [exists s, u; split; [apply slots_in; congruence|auto]|left; apply in_or_app; left; exact Y|right; exact Y].
        * left. apply in_or_app. right. apply in_or_app. right. rewrite Mx, X1. left. congruence.
      + destruct (Q2 x) as [Y|Y]; [exists s, u; split; [exact X1|]; split; [exact X2|left; exists j; auto]|left; apply in_or_app; left; exact Y|right; exact Y].
      + destruct (P4 x) as [Y|[Y|Y]]; [exists j; auto|left; apply in_or_app; right; apply in_or_app; left; exact Y|right; exact Y|left; apply in_or_app; left; exact Y].
    - apply (acc_more st3 (fun x => (Old x \/ In x p1) \/ In x p2)).
      { intros x [[X|X]|X]; [left; exact X|right; apply in_or_app; left; exact X|right; apply in_or_app; right; apply in_or_app; left; exact X]. }
      apply (acc_step st2 st3 _ _ _ _ P5 S3); [auto|]. intros key ->. cbn [due]. rewrite E0. apply (closed_mono st2 st3 _ _ (fun x => (Old x \/ In x p1) \/ In x p2) _ _ S3); [auto|].
      split; [intros key Hkey; exact (sp_all _ _ _ _ P2 key Hkey)|]. split; [intros j Hj; exact (sp_docs _ _ _ _ P2 j Hj)|]. intros x Hx. destruct (P4 x Hx); auto.
  Qed.

  (* ---------- all the types ---------- *)
  Variable ft : option (xname -> bool).
  Variable allow : option (list xname).
  Hypothesis Hd : forall i, h i <= N.to_nat 1000.
  Notation chosen := (chosen ft allow st0).
  Definition any (types : list ty) (P : ty -> Prop) : Prop := exists t, chosen types t /\ P t.
  Lemma flat_types types : (forall t, In t types -> known st0 t) -> forall st p st' p', between st -> acc st (fun x => In x p) -> foldr (flatten_step fa ft allow) (st, p) types = Ret (st', p') ->
    step st st' (fun k => any types (fun t => own t k)) (fun i => any types (fun t => vis t i)) /\ acc st' (fun x => In x p') /\
    forall x, In x p' <-> In x p \/ any types (fun t => pushed t x \/ x = res t).
  Proof.
    induction types as [|t types IH]; intros Kn st p st' p' B A H; cbn [foldr] in H.
    { injection H as <- <-. split; [|split; [exact A|]].
      - apply (step_more _ _ _ _ _ _ (step_refl st)); try contradiction; intros x [t [[[] _] _]].
      - intros x. split; [auto|]. intros [X|[t [[[] _] _]]]. exact X. }
    unfold flatten_step at 1 in H. rewrite (frame_name _ _ t (proj1 B)) in H. destruct (type_name st0 t) as [n|] eqn:En; [|discriminate].
    assert (Kn' : forall u, In u types -> known st0 u) by (intros u Hu; apply Kn; right; exact Hu).
    assert (Cons : forall P, any (t :: types) P <-> (selected ft allow n = true /\ P t) \/ any types P).
    { intros P. split.
      - intros [u [[[<-|Hu] Sel] Pu]]; [left|right; exists u; split; [split; auto|exact Pu]]. destruct Sel as [m [X Y]]. assert (m = n) as -> by congruence. auto.
      - intros [[Sel Pt]|[u [[Hu Sel] Pu]]]; [exists t; split; [split; [left; reflexivity|eauto]|exact Pt]|exists u; split; [split; [right; exact Hu|exact Sel]|exact Pu]]. }
    destruct (selected ft allow n) eqn:Sel.
    - destruct (flatten1 fa max_depth st t) as [[[st1 p1] v]| | |] eqn:Ef; cbn [andthen] in H; try discriminate.
      assert (Hk : hk h t <= max_depth). { unfold max_depth. destruct t as [| | |j]; cbn [hk]; try lia. specialize (Hd j). replace (N.to_nat 1001) with (S (N.to_nat 1000)) by lia. lia. }
      destruct (flat1_ok max_depth st t _ st1 p1 v B A Hk Ef) as [P1 P2 P3 P4 P5].
      assert (Nv : match v with TNil => [] | _ => [v] end = [v]). { destruct (res_okty t (Kn t (or_introl eq_refl))) as [X _]. rewrite P1. destruct (res t); try reflexivity. destruct X. }
      rewrite Nv in H. destruct (IH Kn' st1 (p ++ p1 ++ [v])%list st' p' (step_between _ _ _ _ B P2)) as [S [A' I]]; [|exact H|].
      { refine (acc_more st1 _ _ _ P5). intros x [X|X]; apply in_or_app; [left; exact X|right; apply in_or_app; left; exact X]. }
      split; [|split; [exact A'|]].
      + apply (step_more _ _ _ _ _ _ (step_trans _ _ _ _ _ _ _ P2 S)).
        * intros k X. apply Cons. destruct X; auto.
        * intros k X. apply Cons in X as [[_ X]|X]; auto.
        * intros k X. apply Cons. destruct X; auto.
        * intros k X. apply Cons in X as [[_ X]|X]; auto.
      + intros x. rewrite I, Cons, !in_app_iff. cbn [In]. split.
        * intros [[X|[X|[X|[]]]]|X]; [auto| | |auto]; right; left; (split; [reflexivity|]); [left; exact (P3 x X)|right; congruence].
        * intros [X|[[_ [X|X]]|X]]; [auto|destruct (P4 x X); auto| |auto]. left. right. right. left. congruence.
    - destruct (IH Kn' st p st' p' B A H) as [S [A' I]]. split; [|split; [exact A'|]].
      + apply (step_more _ _ _ _ _ _ S).
        * intros k X. apply Cons. auto.
        * intros k X. apply Cons in X as [[X _]|X]; [discriminate|auto].
        * intros k X. apply Cons. auto.
        * intros k X. apply Cons in X as [[X _]|X]; [discriminate|auto].
      + intros x. rewrite I, Cons. split; [intros [X|X]; auto|intros [X|[[X _]|X]]; auto; discriminate].
  Qed.
  Lemma acc0 : acc st0 (fun x => In x []).
  Proof. intros k X. destruct X. reflexivity. Qed.
  Lemma flatten_between types st l : (forall t, In t types -> known st0 t) -> flatten_types fa ft allow st0 types = Ret (st, l) -> between st.
  Proof.
    intros Kn H. unfold flatten_types in H. destruct (foldr (flatten_step fa ft allow) (st0, []) types) as [[s1 p1]| | |] eqn:E1; cbn [andthen fst snd] in H; try discriminate.
    destruct (dedup s1 [] p1); cbn [andthen] in H; try discriminate. injection H as <- _. destruct (flat_types types Kn st0 [] s1 p1 between0 acc0 E1) as [S _]. exact (step_between _ _ _ _ between0 S).
  Qed.
  Theorem flatten_order types types' st l st' l' : apart st0 -> all_translated st0 -> (forall t, In t types -> known st0 t) -> (forall b, In (TB b) types -> translated b) -> (forall t, In t types <-> In t types') ->
    flatten_types fa ft allow st0 types = Ret (st, l) -> flatten_types fa ft allow st0 types' = Ret (st', l') -> st' = st /\ (forall x, In x l' <-> In x l).
  Proof.
    intros Ap Tr Kn Tk Eq H1 H2. unfold flatten_types in *.
    destruct (foldr (flatten_step fa ft allow) (st0, []) types) as [[s1 p1]| | |] eqn:E1; cbn [andthen fst snd] in H1; try discriminate.
    destruct (foldr (flatten_step fa ft allow) (st0, []) types') as [[s2 p2]| | |] eqn:E2; cbn [andthen fst snd] in H2; try discriminate.
    destruct (dedup s1 [] p1) as [d1| | |] eqn:D1; cbn [andthen] in H1; try discriminate. destruct (dedup s2 [] p2) as [d2| | |] eqn:D2; cbn [andthen] in H2; try discriminate. injection H1 as <- <-. injection H2 as <- <-.
    assert (Kn' : forall t, In t types' -> known st0 t) by (intros t Ht; apply Kn, Eq, Ht).
    assert (AnyEq : forall P, any types P <-> any types' P). { intros P. split; intros [t [[X Y] Z]]; exists t; (split; [split; [apply Eq; exact X|exact Y]|exact Z]). }
    destruct (flat_types types Kn st0 [] s1 p1 between0 acc0 E1) as [[F1 A1 B1 C1 G1] [_ I1]]. destruct (flat_types types' Kn' st0 [] s2 p2 between0 acc0 E2) as [[F2 A2 B2 C2 G2] [_ I2]].
    assert (Es : s2 = s1).
    { apply store_ext.
      - exact (eq_trans (eq_sym F1) F2).
      - intros k. destruct (A1 k) as [X|[X Y]], (A2 k) as [X'|[X' Y']].
        + congruence.
        + apply AnyEq, B1 in X'. congruence.
        + apply AnyEq, B2 in X. congruence.
        + congruence.
      - intros i. destruct (C1 i) as [X|[X Y]], (C2 i) as [X'|[X' Y']].
        + congruence.
        + apply AnyEq, G1 in X'. congruence.
        + apply AnyEq, G2 in X. congruence.
        + congruence. }
    split; [exact Es|]. subst s2. assert (Ip : forall x, In x p2 <-> In x p1) by (intros x; rewrite I1, I2, AnyEq; reflexivity).
    destruct (dedup_from_nothing s1 p1 d1 D1) as [U1 [V1 _]]. destruct (dedup_from_nothing s1 p2 d2 D2) as [U2 [V2 _]].
    assert (K1 : forall x, In x p1 -> known st0 x).
    { intros x Hx. apply I1 in Hx as [[]|[t [[Ht _] X]]]. pose proof (Kn t Ht) as Kt. destruct X as [[i [Vi Gi]]| ->]; [|exact (proj1 (res_okty t Kt))]. unfold gives in Gi. destruct (nth_error st0 i) as [[c|s]|] eqn:E; [| |destruct Gi].
      - destruct (proj2 good0 i _ E) as [Kb [_ [_ Ks]]]. destruct Gi as [[s [u [X ->]]]|[_ ->]]; [exact (proj1 (res_okty u (Ks s u X)))|exact (proj1 (res_okty _ Kb))].
      - destruct Gi as [X _]. destruct x as [| | |j]; try discriminate. apply simple_nth in X as [s' X]. exact (nth_lt _ _ _ X). }
    assert (Rg : forall b, In (TB b) p1 -> translated b).
    { intros b Hx. apply I1 in Hx as [[]|[t [[Ht _] X]]]. pose proof (Kn t Ht) as Kt.
      assert (T : forall u i d, nth_error st0 i = Some d -> In u (uses d) -> TB b = res u -> translated b).
      { intros u i d E Hu X0. apply (Tr i d u b E Hu). rewrite X0. apply res_okty. exact (proj2 (C0 i d E) u Hu). }
      destruct X as [[i [Vi Gi]]|X].
      - unfold gives in Gi. destruct (nth_error st0 i) as [[c|s]|] eqn:E; [| |destruct Gi].
        + destruct Gi as [[s [u [X Y]]]|[_ Y]]; [apply (T u i _ E); [right; exact (slot_uses _ _ _ X)|exact Y]|apply (T (ct_base c) i _ E); [left; reflexivity|exact Y]].
        + destruct Gi as [X _]. discriminate.
      - pose proof (proj2 (proj2 (proj2 (res_okty t Kt)))) as A. rewrite <- X in A. destruct t as [|b0|n|i]; cbn [known] in Kt; try contradiction.
        + cbn [res] in X. injection X as ->. exact (Tk _ Ht).
        + inversion A as [|t u Hn Ha]; subst. cbn [base_of] in *. destruct (nth_error st0 i) as [d|] eqn:E; [|congruence]. apply (Tr i d (def_base d) b E); [destruct d; left; reflexivity|exact Ha]. }
    assert (Same : forall x y, In x p1 -> In y p1 -> type_name s1 x = type_name s1 y -> x = y).
    { intros x y Hx Hy N. rewrite !(frame_name _ _ _ F1) in N. pose proof (K1 x Hx) as Kx. pose proof (K1 y Hy) as Ky. destruct x as [|b| |i], y as [|b'| |j]; cbn [known] in *; try contradiction.
      - f_equal. cbn [type_name] in N. apply names_distinct; [exact (proj1 (Rg b Hx))|exact (proj1 (Rg b' Hy))|congruence].
      - destruct (nth_error st0 j) as [d|] eqn:E; [|apply nth_error_None in E; lia]. exfalso. apply (Ap j d (TB b) E). rewrite N. cbn [type_name]. rewrite E. reflexivity.
      - destruct (nth_error st0 i) as [d|] eqn:E; [|apply nth_error_None in E; lia]. exfalso. apply (Ap i d (TB b') E). rewrite <- N. cbn [type_name]. rewrite E. reflexivity.
      - destruct (nth_error st0 j) as [d|] eqn:E; [|apply nth_error_None in E; lia]. f_equal. apply (Ap j d (TPtr i) E). rewrite N. cbn [type_name]. rewrite E. reflexivity. }
    assert (All : forall p d, dedup s1 [] p = Ret d -> (forall x, In x p <-> In x p1) -> forall x, In x d <-> In x p1).
    { intros p d D Ex x. destruct (dedup_from_nothing s1 p d D) as [U [V _]]. split.
      - intros Hx. apply Ex. exact (subseq_in _ _ _ U Hx).
      - intros Hx. destruct (V x) as [n [w [Hn [Hw Hm]]]]; [apply Ex; exact Hx|]. assert (w = x) as <-; [|exact Hw]. apply Same; [apply Ex; exact (subseq_in _ _ _ U Hw)|exact Hx|congruence]. }
    intros x. rewrite (All p2 d2 D2 Ip x), (All p1 d1 D1 (fun x => iff_refl _) x). reflexivity.
  Qed.
End Order.
