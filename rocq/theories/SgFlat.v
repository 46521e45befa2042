(* Flattening: what it keeps, and that it returns. *)
From Verif Require Import Base SortLib ScopeModel TreeModel EqualModel Utf8 Decimal BuiltinModel CodecModel XsdModel XsdProofs TypesModel TypesSpec TypesProofs NormAttr GraphModel GenModel SgModel SgProofs SgNames.
Local Open Scope string_scope.

(* ---------- what flattening does not touch ---------- *)
Definition erase_c (c : complexT) : complexT := set_base (set_fields c (map (fun e => with_ty_e e TNil) (ct_elems c)) (map (fun a => with_ty_a a TNil) (ct_attrs c))) TNil.
Definition erase_s (s : sdef) : sdef := with_doc_s (with_base_s s TNil) "".
Definition erase_d (d : def) : def := match d with DC c => DC (erase_c c) | DS s => DS (erase_s s) end.
Definition frame (st st' : store) : Prop := map erase_d st = map erase_d st'.
Lemma frame_nth st st' i : frame st st' -> option_map erase_d (nth_error st i) = option_map erase_d (nth_error st' i).
Proof. intros F. rewrite <- !nth_error_map, F. reflexivity. Qed.
Lemma frame_len st st' : frame st st' -> List.length st' = List.length st.
Proof. intros F. apply (f_equal (@List.length def)) in F. rewrite !map_length in F. auto. Qed.
Lemma frame_put st i d d' : nth_error st i = Some d -> erase_d d' = erase_d d -> frame st (set_nth i d' st).
Proof. intros H E. unfold frame. symmetry. exact (set_nth_map erase_d st i d' d H E). Qed.
Lemma frame_c st st' i c : frame st st' -> get_c st i = Some c -> exists c', get_c st' i = Some c' /\ erase_c c' = erase_c c.
Proof.
  intros F. apply (frame_nth _ _ i) in F. unfold get_c. destruct (nth_error st i) as [[x|x]|]; try discriminate. intros [= ->].
  destruct (nth_error st' i) as [[y|y]|]; cbn in F; try discriminate. injection F as F. exists y. split; [reflexivity|]. unfold erase_c, set_base, set_fields. cbn. congruence.
Qed.
Lemma frame_s st st' i s : frame st st' -> get_s st i = Some s -> exists s', get_s st' i = Some s' /\ erase_s s' = erase_s s.
Proof.
  intros F. apply (frame_nth _ _ i) in F. unfold get_s. destruct (nth_error st i) as [[x|x]|]; try discriminate. intros [= ->].
  destruct (nth_error st' i) as [[y|y]|]; cbn in F; try discriminate. exists y. split; [reflexivity|]. injection F as F1. unfold erase_s, with_doc_s, with_base_s. cbn. congruence.
Qed.
Lemma frame_name st st' t : frame st st' -> type_name st' t = type_name st t.
Proof.
  intros F. destruct t as [| | |i]; try reflexivity. cbn [type_name]. apply (frame_nth _ _ i) in F.
  destruct (nth_error st i) as [[c|s]|], (nth_error st' i) as [[c'|s']|]; cbn in F; try discriminate; try reflexivity; cbn; injection F; congruence.
Qed.
Lemma frame_simple st st' t : frame st st' -> is_simple st' t = is_simple st t.
Proof.
  intros F. destruct t as [| | |i]; try reflexivity. cbn [is_simple]. apply (frame_nth _ _ i) in F.
  destruct (nth_error st i) as [[c|s]|], (nth_error st' i) as [[c'|s']|]; cbn in F; try discriminate; reflexivity.
Qed.
Lemma erase_slot c s v : erase_c (slot_set c s v) = erase_c c.
Proof.
  destruct s as [j|j]; cbn [slot_set].
  - destruct (nth_error (ct_elems c) j) as [e|] eqn:E; [|reflexivity]. unfold erase_c, set_fields, set_base. cbn. f_equal.
    apply (set_nth_map _ _ _ _ e E). reflexivity.
  - destruct (nth_error (ct_attrs c) j) as [e|] eqn:E; [|reflexivity]. unfold erase_c, set_fields, set_base. cbn. f_equal.
    apply (set_nth_map _ _ _ _ e E). reflexivity.
Qed.
Lemma slot_same c s v u : slot_ty c s = Some u -> slot_ty (slot_set c s v) s = Some v.
Proof.
  destruct s as [j|j]; cbn [slot_ty slot_set].
  - destruct (nth_error (ct_elems c) j) as [e|] eqn:E; [|discriminate]. intros _. cbn [set_fields ct_elems]. rewrite set_nth_same; [reflexivity|]. apply nth_error_Some. congruence.
  - destruct (nth_error (ct_attrs c) j) as [e|] eqn:E; [|discriminate]. intros _. cbn [set_fields ct_attrs]. rewrite set_nth_same; [reflexivity|]. apply nth_error_Some. congruence.
Qed.
Lemma slot_dec (s s' : slot) : {s = s'} + {s <> s'}.
Proof. decide equality; apply Nat.eq_dec. Qed.
Lemma slot_other c s v s' : s' <> s -> slot_ty (slot_set c s v) s' = slot_ty c s'.
Proof.
  intros H. destruct s as [j|j]; cbn [slot_set].
  - destruct (nth_error (ct_elems c) j) as [e|] eqn:E; [|reflexivity]. destruct s' as [j'|j']; cbn [slot_ty set_fields ct_elems ct_attrs]; [|reflexivity].
    rewrite set_nth_other by congruence. reflexivity.
  - destruct (nth_error (ct_attrs c) j) as [e|] eqn:E; [|reflexivity]. destruct s' as [j'|j']; cbn [slot_ty set_fields ct_elems ct_attrs]; [reflexivity|].
    rewrite set_nth_other by congruence. reflexivity.
Qed.
Lemma slot_base c s v : ct_base (slot_set c s v) = ct_base c /\ ct_mixed (slot_set c s v) = ct_mixed c.
Proof. destruct s as [j|j]; cbn [slot_set]; destruct (nth_error _ j); split; reflexivity. Qed.
Lemma slots_in c s : In s (slots c) <-> slot_ty c s <> None.
Proof.
  unfold slots. rewrite in_app_iff, !in_map_iff. destruct s as [j|j]; cbn [slot_ty]; split.
  - intros [[x [[= ->] H]]|[x [H _]]]; [|discriminate]. apply in_seq in H. destruct (nth_error (ct_elems c) j) eqn:E; [discriminate|]. apply nth_error_None in E. lia.
  - intros H. left. exists j. split; [reflexivity|]. apply in_seq. assert (nth_error (ct_elems c) j <> None) as X by (intros X; rewrite X in H; apply H; reflexivity). apply nth_error_Some in X. lia.
  - intros [[x [H _]]|[x [[= ->] H]]]; [discriminate|]. apply in_seq in H. destruct (nth_error (ct_attrs c) j) eqn:E; [discriminate|]. apply nth_error_None in E. lia.
  - intros H. right. exists j. split; [reflexivity|]. apply in_seq. assert (nth_error (ct_attrs c) j <> None) as X by (intros X; rewrite X in H; apply H; reflexivity). apply nth_error_Some in X. lia.
Qed.
Lemma erase_slots c c' : erase_c c' = erase_c c -> slots c' = slots c.
Proof.
  intros H. assert (E1 : map (fun e => with_ty_e e TNil) (ct_elems c') = map (fun e => with_ty_e e TNil) (ct_elems c)) by (apply (f_equal ct_elems) in H; exact H).
  assert (E2 : map (fun e => with_ty_a e TNil) (ct_attrs c') = map (fun e => with_ty_a e TNil) (ct_attrs c)) by (apply (f_equal ct_attrs) in H; exact H).
  apply (f_equal (@List.length element)) in E1. apply (f_equal (@List.length attribute)) in E2. rewrite !map_length in *. unfold slots. rewrite E1, E2. reflexivity.
Qed.
Lemma erase_mixed c c' : erase_c c' = erase_c c -> ct_mixed c' = ct_mixed c.
Proof. intros H. apply (f_equal ct_mixed) in H. exact H. Qed.
Lemma get_c_nth st i c : get_c st i = Some c <-> nth_error st i = Some (DC c).
Proof. unfold get_c. destruct (nth_error st i) as [[x|x]|]; split; congruence. Qed.
Lemma get_s_nth st i s : get_s st i = Some s <-> nth_error st i = Some (DS s).
Proof. unfold get_s. destruct (nth_error st i) as [[x|x]|]; split; congruence. Qed.
Lemma nth_lt {A} (l : list A) i a : nth_error l i = Some a -> i < List.length l.
Proof. intros H. apply nth_error_Some. congruence. Qed.
Lemma put_nth (st : store) i d d' k : nth_error st i = Some d -> nth_error (set_nth i d' st) k = if Nat.eqb k i then Some d' else nth_error st k.
Proof. intros H. apply nth_error_set_nth. exact (nth_lt _ _ _ H). Qed.

(* ---------- ancestors ---------- *)
Lemma an_trans st a b c : ancestor st a b -> ancestor st b c -> ancestor st a c.
Proof. induction 1 as [t|t u Hn Ha IH]; intros Hc; [exact Hc|]. apply an_base; [exact Hn|exact (IH Hc)]. Qed.
Lemma an_builtin st b u : ancestor st (TB b) u -> u = TB b.
Proof. inversion 1; subst; [reflexivity|]. cbn [base_of] in *. congruence. Qed.
Lemma an_steps st st' : (forall a, base_of st' a <> TNil -> ancestor st a (base_of st' a)) -> forall a u, ancestor st' a u -> ancestor st a u.
Proof. intros H a u A. induction A as [t|t u Hn Ha IH]; [constructor|]. exact (an_trans _ _ _ _ (H t Hn) IH). Qed.
Lemma an_up st a : base_of st a <> TNil -> ancestor st a (base_of st a).
Proof. intros H. apply an_base; [exact H|constructor]. Qed.
Definition useful (s : sdef) (b : Z) : bool :=
  (sd_list s || match sd_union s with [] => false | _ => true end || non_trivial b || match simple_doc s with Some _ => true | None => false end)%bool.
Lemma useful_erase s s' b : erase_s s' = erase_s s -> useful s' b = useful s b.
Proof.
  intros R. assert (A1 : sd_list s' = sd_list s) by exact (f_equal sd_list R). assert (A2 : sd_union s' = sd_union s) by exact (f_equal sd_union R).
  assert (A3 : sd_enum s' = sd_enum s) by exact (f_equal sd_enum R). assert (A4 : sd_pattern s' = sd_pattern s) by exact (f_equal sd_pattern R).
  assert (A5 : sd_maxlen s' = sd_maxlen s) by exact (f_equal sd_maxlen R). assert (A6 : sd_minlen s' = sd_minlen s) by exact (f_equal sd_minlen R).
  unfold useful, simple_doc. rewrite A1, A2, A3, A4, A5, A6. reflexivity.
Qed.
Lemma frame_complex st st' t : frame st st' -> is_complex st' t = is_complex st t.
Proof.
  intros F. destruct t as [| | |i]; try reflexivity. cbn [is_complex]. apply (frame_nth _ _ i) in F.
  destruct (nth_error st i) as [[c|s]|], (nth_error st' i) as [[c'|s']|]; cbn in F; try discriminate; reflexivity.
Qed.

Set Default Proof Using "Type".
Section Flat.
  Variable fa : option (attribute -> bool).
  (* a rank for bases, within the number of types, and the built-in each type comes from *)
  Variable r : nat -> nat.
  Variable beta : nat -> Z.
  Definition rk (t : ty) : nat := match t with TPtr j => S (r j) | _ => 0 end.
  Definition bt (t : ty) : Z := match t with TPtr j => beta j | TB b => b | _ => 0%Z end.
  Definition okty (st : store) (t : ty) : Prop := match t with TB _ => True | TPtr j => j < List.length st | _ => False end.
  Definition good_def (st : store) (i : nat) (d : def) : Prop :=
    okty st (def_base d) /\ rk (def_base d) <= r i /\ bt (def_base d) = beta i /\
    match d with DC c => forall s u, slot_ty c s = Some u -> okty st u | DS _ => True end.
  Definition good (st : store) : Prop := (forall i, i < List.length st -> r i < List.length st) /\ forall i d, nth_error st i = Some d -> good_def st i d.
  Lemma okty_frame st st' t : frame st st' -> okty st t -> okty st' t.
  Proof. intros F. destruct t; cbn [okty]; auto. rewrite (frame_len _ _ F). auto. Qed.
  Lemma good_put st i d d' : good st -> nth_error st i = Some d -> erase_d d' = erase_d d -> good_def st i d' -> good (set_nth i d' st).
  Proof.
    intros [B G] H E K. pose proof (frame_put st i d d' H E) as F. split; [intros j; rewrite set_nth_length; apply B|].
    intros k e. rewrite (put_nth st i d d' k H). assert (Z : forall n x, good_def st n x -> good_def (set_nth i d' st) n x).
    { intros n x [H1 [H2 [H3 H4]]]. split; [exact (okty_frame _ _ _ F H1)|]. split; [exact H2|]. split; [exact H3|]. destruct x; [|exact H4]. intros s u Hu. exact (okty_frame _ _ _ F (H4 s u Hu)). }
    destruct (Nat.eqb k i) eqn:N; [apply Nat.eqb_eq in N as ->; intros [= <-]; apply Z; exact K|intros Hk; apply Z, G; exact Hk].
  Qed.

  Lemma good_root st : good st -> forall t, okty st t -> ancestor st t (TB (bt t)).
  Proof.
    intros [B G] t. remember (rk t) as n eqn:E. assert (H : rk t <= n) by lia. clear E. revert t H. induction n as [|n IH]; intros t H Ht.
    - destruct t as [|b|m|j]; cbn [okty rk bt] in *; try contradiction; [constructor|lia].
    - destruct t as [|b|m|j]; cbn [okty rk bt] in *; try contradiction; [constructor|]. destruct (nth_error st j) as [d|] eqn:E; [|apply nth_error_None in E; lia].
      destruct (G j d E) as [K1 [K2 [K3 _]]]. apply an_base; cbn [base_of]; rewrite E; [intros X; rewrite X in K1; exact K1|]. rewrite <- K3. apply IH; [lia|exact K1].
  Qed.
  (* all its attributes are ignored; attributes are ignored by name *)
  Definition bare (c : complexT) : Prop := Forall (fun a => filtered fa a = true) (ct_attrs c).
  Hypothesis fa_name : forall a t, filtered fa (with_ty_a a t) = filtered fa a.
  Lemma bare_erase c c' : erase_c c' = erase_c c -> bare c' -> bare c.
  Proof using fa_name.
    intros R. assert (E : map (fun a => with_ty_a a TNil) (ct_attrs c') = map (fun a => with_ty_a a TNil) (ct_attrs c)) by (apply (f_equal ct_attrs) in R; exact R).
    unfold bare. generalize dependent (ct_attrs c). induction (ct_attrs c') as [|x l IH]; intros [|y m] E H; try discriminate; constructor.
    - injection E as E1 E2. inversion H; subst. rewrite <- (fa_name y TNil). assert (E : with_ty_a y TNil = with_ty_a x TNil) by (unfold with_ty_a; congruence). rewrite E, fa_name. assumption.
    - injection E as E1 E2. inversion H; subst. apply IH; assumption.
  Qed.
  (* there is text to keep: a Builtin that is not anyType, or a simple type *)
  Definition textual (st : store) (j : nat) : Prop := (beta j <> 0)%Z \/ exists k, is_simple st (TPtr k) = true /\ ancestor st (TPtr j) (TPtr k).
  (* what may become of the type of a field: it stays, or it is replaced by a simple type or the
     Builtin that it comes from *)
  Definition turns (st : store) (u u' : ty) : Prop := u' = u \/
    ancestor st u u' /\ is_complex st u' = false /\
    (forall j s, u = TPtr j -> nth_error st j = Some (DS s) -> u' = TB (beta j) /\ useful s (beta j) = false) /\
    (forall j c, u = TPtr j -> nth_error st j = Some (DC c) -> bare c /\ textual st j).
  Lemma turns_trans st st1 u u1 u2 : frame st st1 -> (forall a u, ancestor st1 a u -> ancestor st a u) -> turns st u u1 -> turns st1 u1 u2 -> turns st u u2.
  Proof using fa_name.
    intros F C H [->|[A [B [D E]]]]; [exact H|]. destruct H as [->|[A' [B' [D' E']]]].
    - right. split; [exact (C _ _ A)|]. split; [rewrite <- (frame_complex _ _ _ F); exact B|]. split.
      + intros j s Hu Hs. destruct (frame_s _ _ j s F) as [s' [Hs' R]]; [apply get_s_nth; exact Hs|]. apply get_s_nth in Hs'. destruct (D j s' Hu Hs') as [X Y]. split; [exact X|]. rewrite <- (useful_erase _ _ _ R). exact Y.
      + intros j c Hu Hc. destruct (frame_c _ _ j c F) as [c' [Hc' R]]; [apply get_c_nth; exact Hc|]. apply get_c_nth in Hc'. destruct (E j c' Hu Hc') as [X Y]. split; [exact (bare_erase _ _ R X)|]. destruct Y as [Y|[k [Y1 Y2]]]; [left; exact Y|right]. exists k. rewrite <- (frame_simple _ _ _ F). split; [exact Y1|exact (C _ _ Y2)].
    - right. split; [exact (an_trans _ _ _ _ A' (C _ _ A))|]. split; [rewrite <- (frame_complex _ _ _ F); exact B|]. split; [|exact E'].
      intros j s Hu Hs. destruct (D' j s Hu Hs) as [X Y]. split; [|exact Y]. rewrite X in A. apply an_builtin in A. exact A.
  Qed.

  (* ---------- the relation between the stores before and after; p is what was pushed ---------- *)
  Variable Q : ty -> Prop.
  Definition moves (st st' : store) (p : list ty) (i : nat) : Prop := forall c c', get_c st i = Some c -> get_c st' i = Some c' ->
    (forall s u u', slot_ty c s = Some u -> slot_ty c' s = Some u' -> u' = u \/ In u' p /\ Q u') /\
    (ct_mixed c = true -> ct_base c' = ct_base c \/ In (ct_base c') p).
  Definition keeps (st st' : store) (i : nat) : Prop := forall c c', get_c st i = Some c -> get_c st' i = Some c' ->
    (forall s u u', slot_ty c s = Some u -> slot_ty c' s = Some u' -> turns st u u') /\ turns st (ct_base c) (ct_base c').
  Record evo (st : store) (p : list ty) (st' : store) : Prop := mkEvo {
    ev_frame : frame st st';
    ev_simple : forall j s s', get_s st j = Some s -> get_s st' j = Some s' -> sd_base s' = sd_base s \/ sd_base s' = TB (beta j);
    ev_moves : forall i, moves st st' p i;
    ev_keeps : forall i, keeps st st' i;
    ev_chain : forall a u, ancestor st' a u -> ancestor st a u }.
  Lemma keeps_refl st i : keeps st st i.
  Proof. intros c c' H1 H2. assert (c' = c) as -> by congruence. split; [intros s u u' Ha Hb; left; congruence|left; reflexivity]. Qed.
  Lemma keeps_trans st st1 st2 i : frame st st1 -> (forall a u, ancestor st1 a u -> ancestor st a u) -> keeps st st1 i -> keeps st1 st2 i -> keeps st st2 i.
  Proof using fa_name.
    intros F C K1 K2 c c' H H'. destruct (frame_c _ _ i c F H) as [c1 [H1 E]]. destruct (K1 _ _ H H1) as [X1 Y1]. destruct (K2 _ _ H1 H') as [X2 Y2]. split.
    - intros s u u' Hu Hu'. destruct (slot_ty c1 s) as [u1|] eqn:U1; [exact (turns_trans _ _ _ _ _ F C (X1 _ _ _ Hu U1) (X2 _ _ _ U1 Hu'))|].
      exfalso. assert (Z : In s (slots c)) by (apply slots_in; congruence). rewrite <- (erase_slots c c1 E) in Z. apply slots_in in Z. congruence.
    - exact (turns_trans _ _ _ _ _ F C Y1 Y2).
  Qed.
  Lemma evo_refl st : evo st [] st.
  Proof.
    split; [reflexivity|intros j s s' H1 H2; left; congruence| |apply keeps_refl|auto]. intros i c c' H1 H2. assert (c' = c) as -> by congruence. split; [intros s u u' Ha Hb; left; congruence|left; reflexivity].
  Qed.
  Lemma moves_trans st st1 st2 p q i : frame st st1 -> moves st st1 p i -> moves st1 st2 q i -> moves st st2 (p ++ q) i.
  Proof.
    intros F M1 M2 c c' H H'. destruct (frame_c _ _ i c F H) as [c1 [H1 E]]. destruct (M1 _ _ H H1) as [X1 Y1]. destruct (M2 _ _ H1 H') as [X2 Y2]. split.
    - intros s u u' Hu Hu'. destruct (slot_ty c1 s) as [u1|] eqn:U1.
      + destruct (X2 s u1 u' U1 Hu') as [->|[A B]]; [|right; split; [apply in_or_app; right; exact A|exact B]].
        destruct (X1 s u u1 Hu U1) as [->|[A B]]; [left; reflexivity|right; split; [apply in_or_app; left; exact A|exact B]].
      + exfalso. assert (Z : In s (slots c)) by (apply slots_in; congruence). rewrite <- (erase_slots c c1 E) in Z. apply slots_in in Z. congruence.
    - intros Hm. rewrite <- (erase_mixed c c1 E) in Hm. destruct (Y2 Hm) as [->|A]; [|right; apply in_or_app; right; exact A].
      rewrite (erase_mixed c c1 E) in Hm. destruct (Y1 Hm) as [->|A]; [left; reflexivity|right; apply in_or_app; left; exact A].
  Qed.
  Lemma evo_trans st p st1 q st2 : evo st p st1 -> evo st1 q st2 -> evo st (p ++ q) st2.
  Proof using fa_name.
    intros [F1 S1 M1 K1 C1] [F2 S2 M2 K2 C2]. split.
    - exact (eq_trans F1 F2).
    - intros j s s' H H'. destruct (frame_s _ _ j s F1 H) as [s1 [H1 _]]. destruct (S1 _ _ _ H H1) as [E1|E1], (S2 _ _ _ H1 H') as [E2|E2]; try (right; congruence). left. congruence.
    - intros i. exact (moves_trans _ _ _ _ _ _ F1 (M1 i) (M2 i)).
    - intros i. exact (keeps_trans _ _ _ _ F1 C1 (K1 i) (K2 i)).
    - intros a u H. exact (C1 _ _ (C2 _ _ H)).
  Qed.
  Lemma evo_more st p q st' : evo st p st' -> evo st (p ++ q) st'.
  Proof.
    intros [F S M K C]. split; auto. intros i c c' H H'. destruct (M i _ _ H H') as [X Y]. split.
    - intros s u u' Hu Hu'. destruct (X s u u' Hu Hu') as [E|[A B]]; [left; exact E|right; split; [apply in_or_app; left; exact A|exact B]].
    - intros Hm. destruct (Y Hm) as [E|A]; [left; exact E|right; apply in_or_app; left; exact A].
  Qed.
  (* a field gets another type *)
  Lemma put_slot st i c s v u : get_c st i = Some c -> slot_ty c s = Some u -> Q v ->
    let st' := put_c st i (slot_set c s v) in
    frame st st' /\ (forall a, base_of st' a = base_of st a) /\ (forall j x x', get_s st j = Some x -> get_s st' j = Some x' -> x' = x) /\ (forall k, moves st st' [v] k).
  Proof.
    intros H Hu Hq. apply get_c_nth in H. assert (E : erase_d (DC (slot_set c s v)) = erase_d (DC c)) by (cbn [erase_d]; rewrite erase_slot; reflexivity).
    split; [exact (frame_put _ _ _ _ H E)|]. split; [|split].
    - intros a. destruct a as [| | |k]; try reflexivity. cbn [base_of]. unfold put_c. rewrite (put_nth st i _ _ k H). destruct (Nat.eqb k i) eqn:N; [|reflexivity].
      apply Nat.eqb_eq in N as ->. rewrite H. cbn [def_base]. apply slot_base.
    - intros j x x' Hx Hx'. apply get_s_nth in Hx, Hx'. unfold put_c in Hx'. rewrite (put_nth st i _ _ j H) in Hx'. destruct (Nat.eqb j i); [discriminate|congruence].
    - intros k x x' Hx Hx'. apply get_c_nth in Hx, Hx'. unfold put_c in Hx'. rewrite (put_nth st i _ _ k H) in Hx'. destruct (Nat.eqb k i) eqn:N.
      + apply Nat.eqb_eq in N as ->. injection Hx' as <-. assert (x = c) as -> by congruence. split; [|left; apply slot_base].
        intros s' w w' Hw Hw'. destruct (slot_dec s' s) as [->|D].
        * rewrite (slot_same _ _ _ _ Hu) in Hw'. injection Hw' as <-. right. split; [left; reflexivity|exact Hq].
        * rewrite slot_other in Hw' by exact D. left. congruence.
      + assert (x' = x) as -> by congruence. split; [intros s' w w' Hw Hw'; left; congruence|left; reflexivity].
  Qed.
  (* after other changes, from st on; v is what u of the beginning has become *)
  Lemma evo_slot st p st1 i c0 c s v u0 u : evo st p st1 -> get_c st i = Some c0 -> slot_ty c0 s = Some u0 -> get_c st1 i = Some c -> slot_ty c s = Some u -> Q v -> turns st u0 v ->
    evo st (p ++ [v]) (put_c st1 i (slot_set c s v)).
  Proof using fa_name.
    intros [F1 S1 M1 K1 C1] H0 Hu0 H Hu Hq Ht. destruct (put_slot st1 i c s v u H Hu Hq) as [F2 [B2 [S2 M2]]]. cbv zeta in *. set (st2 := put_c st1 i (slot_set c s v)) in *. split.
    - exact (eq_trans F1 F2).
    - intros j x x' Hx Hx'. destruct (frame_s _ _ j x F1 Hx) as [x1 [H1 _]]. rewrite (S2 j x1 x' H1 Hx'). exact (S1 j x x1 Hx H1).
    - intros k. exact (moves_trans _ _ _ _ _ _ F1 (M1 k) (M2 k)).
    - intros k x x' Hx Hx'. destruct (frame_c _ _ k x F1 Hx) as [x1 [H1 _]]. destruct (K1 k x x1 Hx H1) as [X Y]. pose proof H as Hn. apply get_c_nth in Hn. apply get_c_nth in Hx'. unfold st2, put_c in Hx'. rewrite (put_nth st1 i _ _ k Hn) in Hx'.
      destruct (Nat.eqb k i) eqn:N.
      + apply Nat.eqb_eq in N as ->. injection Hx' as <-. assert (x1 = c) as -> by congruence. assert (x = c0) as -> by congruence. rewrite (proj1 (slot_base c s v)). split; [|exact Y].
        intros s' w w' Hw Hw'. destruct (slot_dec s' s) as [->|D]; [rewrite (slot_same _ _ _ _ Hu) in Hw'; injection Hw' as <-; congruence|rewrite slot_other in Hw' by exact D; exact (X _ _ _ Hw Hw')].
      + assert (x' = x1) as -> by (apply get_c_nth in H1; congruence). split; assumption.
    - intros a w A. apply C1. revert a w A. apply an_steps. intros a Ha. rewrite B2 in *. exact (an_up _ _ Ha).
  Qed.
  (* a complex type gets another base, above the old one *)
  Lemma evo_base st p st1 i c0 c v : evo st p st1 -> get_c st i = Some c0 -> get_c st1 i = Some c -> turns st (ct_base c0) v -> (v <> TNil -> ancestor st (TPtr i) v) ->
    evo st (p ++ if ct_mixed c then [v] else []) (put_c st1 i (set_base c v)).
  Proof using fa_name.
    intros [F1 S1 M1 K1 C1] H0 H Ht Hv. set (st2 := put_c st1 i (set_base c v)). apply get_c_nth in H. assert (F2 : frame st1 st2) by (apply (frame_put _ _ _ _ H); reflexivity). split.
    - exact (eq_trans F1 F2).
    - intros j x x' Hx Hx'. destruct (frame_s _ _ j x F1 Hx) as [x1 [H1 _]]. apply get_s_nth in H1, Hx'. unfold st2, put_c in Hx'. rewrite (put_nth st1 i _ _ j H) in Hx'. destruct (Nat.eqb j i); [discriminate|].
      assert (x' = x1) as -> by congruence. apply get_s_nth in H1. exact (S1 j x x1 Hx H1).
    - intros k. apply (moves_trans st st1 st2 _ _ _ F1 (M1 k)). intros x x' Hx Hx'. apply get_c_nth in Hx, Hx'. unfold st2, put_c in Hx'. rewrite (put_nth st1 i _ _ k H) in Hx'. destruct (Nat.eqb k i) eqn:N.
      + apply Nat.eqb_eq in N as ->. injection Hx' as <-. assert (x = c) as -> by congruence. split.
        * intros s' w w' Hw Hw'. left. destruct s'; cbn in *; congruence.
        * intros ->. right. left. reflexivity.
      + assert (x' = x) as -> by congruence. split; [intros s' w w' Hw Hw'; left; congruence|left; reflexivity].
    - intros k x x' Hx Hx'. destruct (frame_c _ _ k x F1 Hx) as [x1 [H1 _]]. destruct (K1 k x x1 Hx H1) as [X Y]. apply get_c_nth in Hx'. unfold st2, put_c in Hx'. rewrite (put_nth st1 i _ _ k H) in Hx'.
      destruct (Nat.eqb k i) eqn:N.
      + apply Nat.eqb_eq in N as ->. injection Hx' as <-. apply get_c_nth in H1. assert (x1 = c) as -> by congruence. assert (x = c0) as -> by congruence. split; [|exact Ht].
        intros s' w w' Hw Hw'. apply (X s' w w' Hw). destruct s'; exact Hw'.
      + apply get_c_nth in H1. assert (x' = x1) as -> by congruence. split; assumption.
    - apply an_steps. intros a Ha. destruct a as [| | |k]; try (cbn [base_of] in Ha; congruence). cbn [base_of] in *. unfold st2, put_c in *. rewrite (put_nth st1 i _ _ k H) in Ha |- *.
      destruct (Nat.eqb k i) eqn:N; [apply Nat.eqb_eq in N as ->; exact (Hv Ha)|]. apply C1. exact (an_up st1 (TPtr k) Ha).
  Qed.

  (* ---------- chains of simple types ---------- *)
  Lemma good_links st a n : good st -> base_of st a <> TLink n.
  Proof. intros [_ G] H. destruct a as [| | |k]; try discriminate. cbn [base_of] in H. destruct (nth_error st k) as [d|] eqn:E; [|discriminate]. destruct (G k d E) as [K _]. rewrite H in K. exact K. Qed.
  Lemma chain_good st : good st -> forall fuel base bi chain, okty st base -> rk base <= fuel ->
    exists l, chain_loop fuel st base bi chain = Ret ((chain ++ l)%list, TB (bt base)) /\
      (forall x, In x l -> (exists j, x = TPtr j /\ j < List.length st /\ beta j = bt base) /\ ancestor st base x).
  Proof. clear Q fa_name fa.
    intros [B G]. induction fuel as [|f IH]; intros base bi chain Ho Hr.
    - destruct base as [|b|n|j]; cbn [okty rk] in *; try contradiction; try lia. exists []. rewrite app_nil_r. split; [reflexivity|intros ? []].
    - destruct base as [|b|n|j]; cbn [okty rk chain_loop] in *; try contradiction.
      + exists []. rewrite app_nil_r. split; [reflexivity|intros ? []].
      + destruct (nth_error st j) as [d|] eqn:E; [|apply nth_error_None in E; lia]. destruct (G j d E) as [K1 [K2 [K3 _]]].
        assert (Eb : base_of st (TPtr j) = def_base d) by (cbn [base_of]; rewrite E; reflexivity). rewrite Eb.
        destruct (IH (def_base d) (TB 0) (chain ++ [TPtr j])%list K1 ltac:(lia)) as [l [H1 H2]]. exists (TPtr j :: l). rewrite H1, <- app_assoc. cbn [app bt]. split; [rewrite K3; reflexivity|].
        intros x [<-|Hx]; [split; [exists j; auto|constructor]|]. destruct (H2 x Hx) as [[k [E1 [E2 E3]]] E4]. split; [exists k; rewrite E3, K3; auto|].
        apply an_base; rewrite Eb; [|exact E4]. intros Z. rewrite Z in K1. exact K1.
  Qed.
  (* simple types get their built-in as base; complex types are left alone *)
  Definition settles (st st' : store) : Prop := forall j,
    match nth_error st j with
    | Some (DS s) => exists s', nth_error st' j = Some (DS s') /\ erase_s s' = erase_s s /\ (sd_base s' = sd_base s \/ sd_base s' = TB (beta j))
    | x => nth_error st' j = x
    end.
  Lemma settles_refl st : settles st st.
  Proof. intros j. destruct (nth_error st j) as [[c|s]|]; auto. exists s. auto. Qed.
  Lemma settles_trans a b c : settles a b -> settles b c -> settles a c.
  Proof.
    intros H K j. specialize (H j). specialize (K j). destruct (nth_error a j) as [[x|s]|]; [rewrite H in K; exact K| |rewrite H in K; exact K].
    destruct H as [s1 [E1 [E2 E3]]]. rewrite E1 in K. destruct K as [s2 [K1 [K2 K3]]]. exists s2. split; [exact K1|]. split; [congruence|].
    destruct K3 as [K3|K3]; [|right; exact K3]. rewrite K3. exact E3.
  Qed.
  Lemma settles_put st j s s' : nth_error st j = Some (DS s) -> erase_s s' = erase_s s -> sd_base s' = sd_base s \/ sd_base s' = TB (beta j) -> settles st (put_s st j s').
  Proof.
    intros H E B k. unfold put_s. rewrite (put_nth st j _ _ k H). destruct (Nat.eqb k j) eqn:N.
    - apply Nat.eqb_eq in N as ->. rewrite H. exists s'. auto.
    - destruct (nth_error st k) as [[c|x]|]; auto. exists x. auto.
  Qed.
  Lemma settles_frame st st' : settles st st' -> frame st st'.
  Proof.
    intros H. unfold frame. assert (X : forall n, nth_error (map erase_d st) n = nth_error (map erase_d st') n).
    { intros n. rewrite !nth_error_map. specialize (H n). destruct (nth_error st n) as [[c|s]|]; [rewrite H; reflexivity| |rewrite H; reflexivity].
      destruct H as [s' [-> [E _]]]. cbn. rewrite E. reflexivity. }
    clear H. revert st' X. induction st as [|d st IH]; intros st' X.
    - destruct st' as [|d' st']; [reflexivity|]. specialize (X 0). discriminate.
    - destruct st' as [|d' st']; [specialize (X 0); discriminate|]. cbn [map]. f_equal; [specialize (X 0); cbn in X; congruence|]. apply IH. intros n. exact (X (S n)).
  Qed.
  Lemma settles_good st st' : good st -> settles st st' -> good st'.
  Proof.
    intros [B G] H. pose proof (settles_frame _ _ H) as F. split; [rewrite (frame_len _ _ F); exact B|]. intros i d' E. specialize (H i). destruct (nth_error st i) as [[c|s]|] eqn:Ei; [| |congruence].
    - rewrite H in E. injection E as <-. destruct (G i _ Ei) as [K1 [K2 [K3 K4]]]. split; [exact (okty_frame _ _ _ F K1)|]. split; [exact K2|]. split; [exact K3|].
      intros x u Hu. exact (okty_frame _ _ _ F (K4 x u Hu)).
    - destruct H as [s' [E1 [E2 E3]]]. rewrite E1 in E. injection E as <-. destruct (G i _ Ei) as [K1 [K2 [K3 _]]]. unfold good_def. cbn [def_base] in *.
      destruct E3 as [->| ->]; [split; [exact (okty_frame _ _ _ F K1)|auto]|]. cbn [okty rk bt]. split; [exact I|]. split; [lia|auto].
  Qed.
  Lemma settles_evo st st' : good st -> settles st st' -> evo st [] st'.
  Proof.
    intros G H. split.
    - exact (settles_frame _ _ H).
    - intros j s s' Hs Hs'. apply get_s_nth in Hs, Hs'. specialize (H j). rewrite Hs in H. destruct H as [x [E [_ B]]]. assert (x = s') by congruence. subst x. exact B.
    - intros i c c' Hc Hc'. apply get_c_nth in Hc, Hc'. specialize (H i). rewrite Hc in H. assert (c' = c) as -> by congruence.
      split; [intros s u u' H1 H2; left; congruence|left; reflexivity].
    - intros i c c' Hc Hc'. apply get_c_nth in Hc, Hc'. specialize (H i). rewrite Hc in H. assert (c' = c) as -> by congruence.
      split; [intros s u u' H1 H2; left; congruence|left; reflexivity].
    - apply an_steps. intros a Ha. destruct a as [| | |k]; try (cbn [base_of] in Ha; congruence). cbn [base_of] in *. specialize (H k). destruct (nth_error st k) as [[c|s]|] eqn:E.
      + rewrite H in *. apply (an_trans _ _ (base_of st (TPtr k))); [apply an_up|]; cbn [base_of]; rewrite E; [exact Ha|constructor].
      + destruct H as [s' [E1 [_ E3]]]. rewrite E1 in *. cbn [def_base] in *. destruct E3 as [E3|E3]; rewrite E3 in *.
        * apply (an_trans _ _ (base_of st (TPtr k))); [apply an_up|]; cbn [base_of]; rewrite E; [exact Ha|constructor].
        * exact (good_root st G (TPtr k) (nth_lt _ _ _ E)).
      + rewrite H in Ha. congruence.
  Qed.
  Lemma rebase_settles st j : good st -> j < List.length st -> settles st (rebase st (TPtr j) (TB (beta j))) /\
    (forall s, nth_error st j = Some (DS s) -> nth_error (rebase st (TPtr j) (TB (beta j))) j = Some (DS (with_base_s s (TB (beta j))))).
  Proof.
    intros G Hj. cbn [rebase]. unfold get_s. destruct (nth_error st j) as [[c|s]|] eqn:E.
    - split; [apply settles_refl|intros ? [=]].
    - split; [apply (settles_put st j s); [exact E|reflexivity|right; reflexivity]|]. intros s' [= <-]. unfold put_s. rewrite (put_nth st j _ _ j E), Nat.eqb_refl. reflexivity.
    - split; [apply settles_refl|intros ? [=]].
  Qed.
  Lemma rebase_all b l : (forall x, In x l -> exists j, x = TPtr j /\ beta j = b) -> forall st, good st -> (forall x, In x l -> okty st x) ->
    let st' := fold_left (fun st v => rebase st v (TB b)) l st in
    settles st st' /\ forall j, In (TPtr j) l -> forall s, nth_error st j = Some (DS s) -> exists s', nth_error st' j = Some (DS s') /\ sd_base s' = TB b.
  Proof.
    induction l as [|x l IH]; intros Hb st G Ho; cbn [fold_left]; [split; [apply settles_refl|intros j []]|]. cbv zeta.
    destruct (Hb x (or_introl eq_refl)) as [j [-> Ej]]. subst b. assert (Hj : j < List.length st) by exact (Ho _ (or_introl eq_refl)).
    destruct (rebase_settles st j G Hj) as [S1 S2]. pose proof (settles_good _ _ G S1) as G1.
    destruct (IH (fun x Hx => Hb x (or_intror Hx)) (rebase st (TPtr j) (TB (beta j))) G1) as [S3 S4].
    { intros x Hx. exact (okty_frame _ _ _ (settles_frame _ _ S1) (Ho x (or_intror Hx))). }
    split; [exact (settles_trans _ _ _ S1 S3)|]. intros k Hk s Hs.
    destruct (in_dec ty_dec (TPtr k) l) as [I|I].
    - pose proof (S1 k) as X. rewrite Hs in X. destruct X as [s1 [X _]]. exact (S4 k I s1 X).
    - destruct Hk as [[= <-]|Hk]; [|contradiction]. pose proof (S3 j) as X. rewrite (S2 s Hs) in X. destruct X as [s' [X [_ Y]]]. exists s'. split; [exact X|]. destruct Y as [->|Y]; [reflexivity|exact Y].
  Qed.
  Lemma flatten_simple_ok st i s : good st -> nth_error st i = Some (DS s) -> exists st' p v,
    flatten_simple st i = Ret (st', p, v) /\ settles st st' /\ v = (if useful s (beta i) then TPtr i else TB (beta i)) /\
    (exists s', nth_error st' i = Some (DS s') /\ sd_base s' = TB (beta i) /\ sd_doc s' = (if (sd_list s || match sd_union s with [] => false | _ => true end || non_trivial (beta i))%bool then sd_doc s else match simple_doc s with Some d => d | None => sd_doc s end)) /\
    (forall x, In x p <-> (exists j, x = TPtr j) /\ is_simple st x = true /\ ancestor st (sd_base s) x) /\
    (forall x, In x p -> exists j s', x = TPtr j /\ nth_error st' j = Some (DS s') /\ sd_base s' = TB (beta j)).
  Proof. clear Q fa_name fa.
    intros G E. assert (Hi : i < List.length st) by exact (nth_lt _ _ _ E). pose proof G as [B G0]. destruct (G0 i _ E) as [K1 [K2 [K3 _]]]. cbn [def_base] in *.
    unfold flatten_simple, chain_of. assert (Eb : base_of st (TPtr i) = sd_base s) by (cbn [base_of]; rewrite E; reflexivity). rewrite Eb.
    destruct (chain_good st G (S (List.length st)) (sd_base s) TNil [] K1) as [l [H1 H2]]; [specialize (B i Hi); lia|]. rewrite H1. cbn [app andthen]. rewrite K3.
    assert (L1 : forall x, In x l -> exists j, x = TPtr j /\ beta j = beta i). { intros x Hx. destruct (H2 x Hx) as [[j [E1 [_ E3]]] _]. exists j. split; [exact E1|congruence]. }
    assert (L2 : forall x, In x l -> okty st x). { intros x Hx. destruct (H2 x Hx) as [[j [-> [E2 _]]] _]. exact E2. }
    destruct (rebase_all (beta i) l L1 st G L2) as [S1 S2]. set (st1 := fold_left (fun st v => rebase st v (TB (beta i))) l st) in *.
    pose proof (settles_good _ _ G S1) as G1. pose proof (settles_frame _ _ S1) as F1.
    assert (Hi1 : i < List.length st1) by (rewrite (frame_len _ _ F1); exact Hi). destruct (rebase_settles st1 i G1 Hi1) as [S3 S4]. set (st2 := rebase st1 (TPtr i) (TB (beta i))) in *.
    assert (E1 : exists s1, nth_error st1 i = Some (DS s1) /\ erase_s s1 = erase_s s). { specialize (S1 i). rewrite E in S1. destruct S1 as [s1 [X [Y _]]]. exists s1. auto. }
    destruct E1 as [s1 [E1 R1]]. specialize (S4 s1 E1). set (s2 := with_base_s s1 (TB (beta i))) in *.
    assert (P : forall x, In x (filter (is_simple st1) l) <-> (exists j, x = TPtr j) /\ is_simple st x = true /\ ancestor st (sd_base s) x).
    { intros x. rewrite filter_In, (frame_simple _ _ x F1). split.
      - intros [Hx Hs]. destruct (H2 x Hx) as [[j [E2 _]] A]. split; [exists j; exact E2|]. split; [exact Hs|exact A].
      - intros [[j ->] [Hs A]]. split; [|exact Hs].
        assert (C : forall fuel base bi ch l0, chain_loop fuel st base bi ch = Ret ((ch ++ l0)%list, TB (beta i)) -> okty st base -> ancestor st base (TPtr j) -> In (TPtr j) l0).
        { clear -G. intros fuel. induction fuel as [|f IH]; intros base bi ch l0 Hc Ho A.
          - destruct base as [|b|n|k]; cbn [okty chain_loop] in *; try contradiction; try discriminate. apply an_builtin in A. discriminate.
          - destruct base as [|b|n|k]; cbn [okty chain_loop] in *; try contradiction; [apply an_builtin in A; discriminate|].
            assert (X : exists l1, l0 = TPtr k :: l1 /\ chain_loop f st (base_of st (TPtr k)) (TB 0) (ch ++ [TPtr k]) = Ret (((ch ++ [TPtr k]) ++ l1)%list, TB (beta i))).
            { assert (Y : forall fuel base bi ch l z, chain_loop fuel st base bi ch = Ret (l, z) -> exists m, l = (ch ++ m)%list).
              { clear. induction fuel as [|f IH]; intros base bi ch l z; cbn [chain_loop].
                - destruct base; try discriminate; intros [= <- _]; exists []; rewrite app_nil_r; reflexivity.
                - destruct base as [|b|n|k]; try (intros [= <- _]; exists []; rewrite app_nil_r; reflexivity); intros H; apply IH in H as [m ->]; eexists; rewrite <- app_assoc; reflexivity. }
              destruct (Y _ _ _ _ _ _ Hc) as [m Hm]. rewrite <- app_assoc in Hm. apply app_inv_head in Hm. exists m. split; [exact Hm|]. rewrite Hc, Hm, <- app_assoc. reflexivity. }
            destruct X as [l1 [-> X]]. inversion A as [|t u Hn Ha]; subst; [left; reflexivity|]. right. eapply IH; [exact X| |exact Ha].
            cbn [base_of]. destruct (nth_error st k) as [d|] eqn:Ek; [|cbn [base_of] in Hn; rewrite Ek in Hn; congruence]. destruct G as [_ G]. apply (G k d Ek). }
        rewrite K3 in H1. apply (C _ _ _ [] l H1 K1 A). }
    assert (V : forall st3, settles st2 st3 -> forall x, In x (filter (is_simple st1) l) -> exists j s', x = TPtr j /\ nth_error st3 j = Some (DS s') /\ sd_base s' = TB (beta j)).
    { intros st3 S5 x Hx. apply filter_In in Hx as [Hx Hs]. destruct (H2 x Hx) as [[j [-> [Hj Eb']]] _]. rewrite (frame_simple _ _ _ F1) in Hs. cbn [is_simple] in Hs.
      destruct (nth_error st j) as [[c|x]|] eqn:Ej; try discriminate. destruct (S2 j Hx x Ej) as [s' [E2 E3]].
      pose proof (settles_trans _ _ _ S3 S5 j) as X. rewrite E2 in X. destruct X as [s3 [X1 [_ X3]]]. exists j, s3. split; [reflexivity|]. split; [exact X1|].
      destruct X3 as [X3|X3]; rewrite X3; [rewrite E3; f_equal; congruence|reflexivity]. }
    unfold get_s. rewrite S4. assert (Q1 : sd_list s2 = sd_list s /\ sd_union s2 = sd_union s /\ simple_doc s2 = simple_doc s).
    { unfold s2. assert (A1 : sd_list s1 = sd_list s) by exact (f_equal sd_list R1). assert (A2 : sd_union s1 = sd_union s) by exact (f_equal sd_union R1).
      assert (A3 : sd_enum s1 = sd_enum s) by exact (f_equal sd_enum R1). assert (A4 : sd_pattern s1 = sd_pattern s) by exact (f_equal sd_pattern R1).
      assert (A5 : sd_maxlen s1 = sd_maxlen s) by exact (f_equal sd_maxlen R1). assert (A6 : sd_minlen s1 = sd_minlen s) by exact (f_equal sd_minlen R1).
      unfold simple_doc. cbn [with_base_s sd_list sd_union sd_enum sd_pattern sd_maxlen sd_minlen]. rewrite A1, A2, A3, A4, A5, A6. auto. }
    destruct Q1 as [Q1 [Q2 Q3]].
    assert (D2 : sd_doc s2 = sd_doc s).
    { unfold s2. cbn [with_base_s sd_doc]. clear - E E1.
      assert (Z : forall l st, (exists x, nth_error st i = Some (DS x) /\ sd_doc x = sd_doc s) -> exists x, nth_error (fold_left (fun st v => rebase st v (TB (beta i))) l st) i = Some (DS x) /\ sd_doc x = sd_doc s).
      { clear. induction l as [|v l IH]; intros st H; [exact H|]. cbn [fold_left]. apply IH. destruct H as [x [H1 H2]]. destruct v as [| | |k]; cbn [rebase]; try (exists x; split; assumption).
        unfold get_s. destruct (nth_error st k) as [[c|y]|] eqn:Ek; try (exists x; split; assumption). unfold put_s. rewrite (put_nth st k _ _ i Ek). destruct (Nat.eqb i k) eqn:N; [|exists x; auto].
        apply Nat.eqb_eq in N as ->. assert (x = y) as -> by congruence. eexists. split; [reflexivity|]. exact H2. }
      destruct (Z l st) as [x [Z1 Z2]]; [exists s; auto|]. fold st1 in Z1. congruence. }
    assert (Bs : sd_base s2 = TB (beta i)) by reflexivity. rewrite Bs, Q1, Q2. cbn [non_trivial_ty].
    unfold useful. destruct (sd_list s || match sd_union s with [] => false | _ => true end)%bool eqn:U.
    { exists st2, (filter (is_simple st1) l), (TPtr i). split; [reflexivity|]. split; [exact (settles_trans _ _ _ S1 S3)|]. split; [rewrite ?U; reflexivity|].
      split; [exists s2; split; [exact S4|]; split; [reflexivity|rewrite ?U; cbn [orb]; exact D2]|]. split; [exact P|apply V, settles_refl]. }
    destruct (non_trivial (beta i)) eqn:N.
    { exists st2, (filter (is_simple st1) l), (TPtr i). split; [reflexivity|]. split; [exact (settles_trans _ _ _ S1 S3)|]. split; [rewrite ?U; reflexivity|].
      split; [exists s2; split; [exact S4|]; split; [reflexivity|rewrite ?U; cbn [orb]; exact D2]|]. split; [exact P|apply V, settles_refl]. }
    rewrite Q3. destruct (simple_doc s) as [d|] eqn:D.
    - assert (S5 : settles st2 (put_s st2 i (with_doc_s s2 d))) by (apply (settles_put st2 i s2); [exact S4|reflexivity|left; reflexivity]).
      exists (put_s st2 i (with_doc_s s2 d)), (filter (is_simple st1) l), (TPtr i). split; [reflexivity|]. split; [exact (settles_trans _ _ _ S1 (settles_trans _ _ _ S3 S5))|].
      split; [rewrite ?U; reflexivity|]. split; [exists (with_doc_s s2 d); split; [unfold put_s; rewrite (put_nth st2 i _ _ i S4), Nat.eqb_refl; reflexivity|]; split; [reflexivity|]; rewrite ?U; reflexivity|].
      split; [exact P|apply V; exact S5].
    - exists st2, (filter (is_simple st1) l), (TB (beta i)). split; [reflexivity|]. split; [exact (settles_trans _ _ _ S1 S3)|]. split; [rewrite ?U; reflexivity|].
      split; [exists s2; split; [exact S4|]; split; [reflexivity|rewrite ?U; cbn [orb]; exact D2]|]. split; [exact P|apply V, settles_refl].
  Qed.
End Flat.
