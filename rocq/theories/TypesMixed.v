From Coq Require Import Permutation.
From Verif Require Import Base ScopeModel TreeModel BuiltinModel XsdModel XsdProofs TypesModel TypesSpec TypesProofs.
Local Open Scope string_scope.

(* ---------- stores that differ in Mixed only ---------- *)
Definition strip (d : def) : def := match d with DC c => DC (set_mixed c false) | DS s => DS s end.
Definition alike (st st' : store) : Prop := map strip st = map strip st'.
Lemma alike_nth st st' i : alike st st' -> option_map strip (nth_error st i) = option_map strip (nth_error st' i).
Proof. unfold alike. intros H. rewrite <- !nth_error_map, H. reflexivity. Qed.
Lemma alike_dc st st' i c : alike st st' -> nth_error st i = Some (DC c) -> exists c', nth_error st' i = Some (DC c') /\
  ct_base c' = ct_base c /\ ct_extends c' = ct_extends c /\ set_mixed c' false = set_mixed c false.
Proof.
  intros A H. pose proof (alike_nth _ _ i A) as E. rewrite H in E. destruct (nth_error st' i) as [[c'|s]|]; cbn [option_map strip] in E; try discriminate.
  assert (E' : set_mixed c' false = set_mixed c false) by congruence. exists c'. split; auto.
  split; [exact (f_equal ct_base E')|]. split; [exact (f_equal ct_extends E')|exact E'].
Qed.
Lemma alike_ds st st' i s : alike st st' -> nth_error st i = Some (DS s) -> nth_error st' i = Some (DS s).
Proof.
  intros A H. pose proof (alike_nth _ _ i A) as E. rewrite H in E. destruct (nth_error st' i) as [[c'|s']|]; cbn [option_map strip] in E; try discriminate.
  injection E as ->. auto.
Qed.
Lemma alike_sym st st' : alike st st' -> alike st' st.
Proof. unfold alike. auto. Qed.
Lemma alike_trans a b c : alike a b -> alike b c -> alike a c.
Proof. unfold alike. congruence. Qed.
Lemma alike_length a b : alike a b -> List.length a = List.length b.
Proof. intros H. rewrite <- (map_length strip a), H, map_length. auto. Qed.
Lemma alike_base a b t : alike a b -> base_of a t = base_of b t.
Proof.
  intros H. destruct t; auto. cbn [base_of]. destruct (nth_error a id) as [[c|s]|] eqn:E.
  - destruct (alike_dc _ _ _ _ H E) as (c' & -> & E' & _). cbn [def_base]. auto.
  - rewrite (alike_ds _ _ _ _ H E). auto.
  - apply nth_error_None in E. rewrite (alike_length _ _ H) in E. apply nth_error_None in E. rewrite E. auto.
Qed.
Lemma alike_set st i c m : nth_error st i = Some (DC c) -> alike (set_nth i (DC (set_mixed c m)) st) st.
Proof. intros H. unfold alike. eapply set_nth_map; eauto. Qed.
Lemma chain_alike a b t n : alike a b -> chain a t n -> chain b t n.
Proof. intros A H. induction H as [t H|t n H C IH]; [apply ch_end|apply ch_step]; rewrite <- (alike_base a b t A); auto. Qed.

Definition base_wf (st : store) : Prop := forall i d j, nth_error st i = Some d -> def_base d = TPtr j -> j < List.length st.
Lemma base_wf_alike a b : alike a b -> base_wf a -> base_wf b.
Proof.
  intros A W i d j Hd Hb. rewrite <- (alike_length _ _ A). destruct d as [c|s].
  - destruct (alike_dc _ _ _ _ (alike_sym _ _ A) Hd) as (c' & E & Eb & _). eapply W; [exact E|]. cbn [def_base] in *. congruence.
  - eapply W; [exact (alike_ds _ _ _ _ (alike_sym _ _ A) Hd)|auto].
Qed.

Definition flags_in (a b : store) : Prop := forall i, is_mixed a i -> is_mixed b i.
Definition sound (st cur : store) : Prop := forall i, is_mixed cur i -> mixed_rule st st i.

Lemma set_mixed_id c : set_mixed c (ct_mixed c) = c.
Proof. destruct c. reflexivity. Qed.

Lemma is_mixed_set st i c m k : nth_error st i = Some (DC c) ->
  (is_mixed (set_nth i (DC (set_mixed c m)) st) k <-> if Nat.eqb k i then m = true else is_mixed st k).
Proof.
  intros H. unfold is_mixed. rewrite nth_error_set_nth by (apply nth_error_Some; congruence). destruct (Nat.eqb k i); [|tauto].
  split; [intros (c' & E & Em); injection E as <-; auto|]. intros ->. eexists. split; eauto.
Qed.

(* a visited type whose base is still a link must be declared mixed *)
Definition stuck (st : store) (i : nat) : Prop := exists c m, nth_error st i = Some (DC c) /\ ct_base c = TLink m /\ ct_mixed c = false.

Lemma ancestor_ptr_nil st i t : base_of st (TPtr i) = TNil -> ancestor st (TPtr i) t -> t = TPtr i.
Proof. intros H A. inversion A; subst; auto. congruence. Qed.

Lemma mixed_rule_dc st0 st i : List.length st0 = List.length st -> alike st0 st -> mixed_rule st0 st i -> exists c, nth_error st i = Some (DC c).
Proof.
  intros L A H. inversion H; subst; eauto. destruct (alike_dc _ _ _ _ A H0) as (c' & E & _). eauto.
Qed.

Lemma propagate_step f t st : base_of st t <> TNil ->
  propagate (S f) t st = match propagate f (base_of st t) st with Some st' => mix st' t (base_of st t) | None => None end.
Proof. intros H. cbn [propagate]. destruct (base_of st t); auto. destruct (H eq_refl). Qed.

Lemma propagate_spec st : base_wf st -> forall t n, chain st t n -> forall fuel, n <= fuel ->
  forall cur, alike st cur -> flags_in st cur -> sound st cur ->
  match propagate fuel t cur with
  | Some cur' => alike st cur' /\ flags_in cur cur' /\ sound st cur' /\
      (forall i, ancestor st t (TPtr i) -> mixed_rule st st i -> is_mixed cur' i) /\
      (forall i, is_mixed cur' i -> is_mixed cur i \/ ancestor st t (TPtr i)) /\
      (forall i, ancestor st t (TPtr i) -> ~ stuck st i)
  | None => exists i, ancestor st t (TPtr i) /\ stuck st i
  end.
Proof.
  intros W t n H. induction H as [t Hb|t n Hb Hc IH]; intros fuel Hf cur A Fl S.
  - assert (propagate fuel t cur = Some cur) as ->.
    { destruct fuel; cbn [propagate]; rewrite <- (alike_base _ _ _ A), Hb; auto. }
    split; auto. split; [intros i; auto|]. split; auto. split; [|split; auto].
    + intros i Ha Hr. inversion Ha as [|? ? Hn]; subst; [|congruence]. clear Ha.
      inversion Hr; subst; [apply Fl; exists c; auto| | |]; cbn [base_of] in Hb; rewrite H in Hb; cbn [def_base] in Hb; congruence.
    + intros i Ha (c & m & Hc & Hm & _). inversion Ha as [|? ? Hn]; subst; [|congruence]. cbn [base_of] in Hb. rewrite Hc in Hb. cbn [def_base] in Hb. congruence.
  - destruct fuel as [|f]; [lia|]. rewrite propagate_step, <- (alike_base _ _ _ A) by (rewrite <- (alike_base _ _ _ A); auto).
    destruct t as [|b|l|i]; try (destruct (Hb eq_refl)).
    specialize (IH f ltac:(lia) cur A Fl S). set (b := base_of st (TPtr i)) in *.
    destruct (propagate f b cur) as [cur1|].
    2:{ destruct IH as (j & Ha & Hs). exists j. split; auto. apply an_base; auto. }
    destruct IH as (A1 & F1 & S1 & C1 & U1 & P1).
    assert (Anc : forall k, ancestor st (TPtr i) (TPtr k) <-> k = i \/ ancestor st b (TPtr k)).
    { intros k. split.
      - intros Ha. inversion Ha; subst; auto.
      - intros [->|Ha]; [constructor|apply an_base; auto]. }
    assert (F : flags_in st cur1) by (intros k Hk; auto).
    (* the definition at i *)
    destruct (nth_error st i) as [d0|] eqn:E0; [|unfold b in Hb; cbn [base_of] in Hb; rewrite E0 in Hb; destruct (Hb eq_refl)].
    assert (Eb : def_base d0 = b) by (unfold b; cbn [base_of]; rewrite E0; auto).
    (* when nothing is written *)
    assert (KEEP : (mixed_rule st st i -> is_mixed cur1 i) -> ~ stuck st i ->
      alike st cur1 /\ flags_in cur cur1 /\ sound st cur1 /\ (forall k, ancestor st (TPtr i) (TPtr k) -> mixed_rule st st k -> is_mixed cur1 k) /\
      (forall k, is_mixed cur1 k -> is_mixed cur k \/ ancestor st (TPtr i) (TPtr k)) /\ (forall k, ancestor st (TPtr i) (TPtr k) -> ~ stuck st k)).
    { intros Hi Hs. split; auto. split; auto. split; auto. split; [|split].
      - intros k Hk Hr. apply Anc in Hk as [->|Hk]; auto.
      - intros k Hk. apply U1 in Hk as [Hk|Hk]; auto. right. apply Anc. auto.
      - intros k Hk. apply Anc in Hk as [->|Hk]; auto. }
    destruct d0 as [c0|s0].
    2:{ unfold mix. rewrite (alike_ds _ _ _ _ A1 E0). apply KEEP.
        - intros Hr. inversion Hr; subst; congruence.
        - intros (c & m & Hx & _). congruence. }
    destruct (alike_dc _ _ _ _ A1 E0) as (c1 & E1 & B1 & X1 & M1). unfold mix. rewrite E1. cbn [def_base] in Eb.
    destruct (ct_mixed c1) eqn:Em.
    { apply KEEP; [intros _; exists c1; auto|]. intros (c & m & Hx & Hl & Hm). rewrite E0 in Hx. injection Hx as <-.
      assert (Hr : mixed_rule st st i) by (apply S1; exists c1; auto).
      inversion Hr; subst; rewrite E0 in H; injection H as <-; congruence. }
    assert (M0 : ct_mixed c0 = false).
    { destruct (ct_mixed c0) eqn:X; auto. destruct (F i) as (c & Hc' & Hm); [exists c0; auto|]. congruence. }
    (* when Mixed is set to v *)
    assert (SET : forall v, (v = true <-> mixed_rule st st i) -> ~ stuck st i -> let cur' := set_nth i (DC (set_mixed c1 v)) cur1 in
      alike st cur' /\ flags_in cur cur' /\ sound st cur' /\ (forall k, ancestor st (TPtr i) (TPtr k) -> mixed_rule st st k -> is_mixed cur' k) /\
      (forall k, is_mixed cur' k -> is_mixed cur k \/ ancestor st (TPtr i) (TPtr k)) /\ (forall k, ancestor st (TPtr i) (TPtr k) -> ~ stuck st k)).
    { intros v Hv Hs cur'. assert (Q : forall k, is_mixed cur' k <-> if Nat.eqb k i then v = true else is_mixed cur1 k) by (intros k; apply is_mixed_set; auto).
      split; [eapply alike_trans; [exact A1|apply alike_sym, alike_set; auto]|]. split; [|split; [|split; [|split]]].
      - intros k Hk. apply Q. destruct (Nat.eqb k i) eqn:Ek; auto. apply Nat.eqb_eq in Ek as ->. apply F1 in Hk as (c & Hx & Hm). congruence.
      - intros k Hk. apply Q in Hk. destruct (Nat.eqb k i) eqn:Ek; auto. apply Nat.eqb_eq in Ek as ->. tauto.
      - intros k Hk Hr. apply Q. destruct (Nat.eqb k i) eqn:Ek; [apply Nat.eqb_eq in Ek as ->; tauto|].
        apply Nat.eqb_neq in Ek. apply Anc in Hk as [->|Hk]; [contradiction|auto].
      - intros k Hk. apply Q in Hk. destruct (Nat.eqb k i) eqn:Ek.
        + apply Nat.eqb_eq in Ek as ->. right. constructor.
        + apply U1 in Hk as [Hk|Hk]; auto. right. apply Anc. auto.
      - intros k Hk. apply Anc in Hk as [->|Hk]; auto. }
    assert (NR : mixed_rule st st i -> ct_extends c0 = true /\ (b = TB 0 \/ exists j c', b = TPtr j /\ nth_error st j = Some (DC c') /\ mixed_rule st st j) \/
      exists j s, b = TPtr j /\ nth_error st j = Some (DS s)).
    { intros Hr. inversion Hr as [i' c Hx Hm|i' c Hx He Hbb|i' c j c' Hx He Hbb Hj Hrj|i' c j s Hx Hbb Hj]; subst i'; rewrite E0 in Hx; injection Hx as <-.
      - congruence.
      - left. split; auto. left. congruence.
      - left. split; auto. right. exists j, c'. split; auto. congruence.
      - right. exists j, s. split; auto. congruence. }
    destruct b as [|bb|l|j] eqn:Ebb; [destruct (Hb eq_refl)| | |].
    + destruct (bb =? 0)%Z eqn:Z0.
      * apply Z.eqb_eq in Z0 as ->. apply SET.
        -- rewrite X1. split; [intros He; eapply mr_any; eauto|]. intros Hr. destruct (NR Hr) as [[He _]|(j & s & Hj & _)]; [auto|discriminate].
        -- intros (c & m & Hx & Hl & _). rewrite E0 in Hx. injection Hx as <-. congruence.
      * apply Z.eqb_neq in Z0. apply KEEP.
        -- intros Hr. destruct (NR Hr) as [[He [Hz|(j & c' & Hj & _)]]|(j & s & Hj & _)]; try discriminate. injection Hz as ->. contradiction.
        -- intros (c & m & Hx & Hl & _). rewrite E0 in Hx. injection Hx as <-. congruence.
    + exists i. split; [constructor|]. exists c0, l. auto.
    + assert (NS : ~ stuck st i) by (intros (c & m & Hx & Hl & _); rewrite E0 in Hx; injection Hx as <-; congruence).
      assert (Lj : j < List.length st) by (eapply W; [exact E0|exact Eb]).
      destruct (nth_error st j) as [[cj|sj]|] eqn:Ej; [| |apply nth_error_None in Ej; lia].
      * destruct (alike_dc _ _ _ _ A1 Ej) as (cj1 & Ej1 & _). rewrite Ej1. destruct (ct_extends c1) eqn:Xe.
        -- apply SET; auto. split.
           ++ intros Hm. apply (mr_complex st st i c0 j cj); auto; try congruence. apply S1. exists cj1. auto.
           ++ intros Hr. destruct (NR Hr) as [[He [Hz|(j' & c' & Hj & Hx & Hrj)]]|(j' & s & Hj & Hx)]; try discriminate; injection Hj as <-; [|congruence].
              destruct (C1 j (an_self _ _) Hrj) as (cx & Hcx & Hmx). congruence.
        -- apply KEEP; auto. intros Hr. destruct (NR Hr) as [[He _]|(j' & s & Hj & Hx)]; [congruence|]. injection Hj as <-. congruence.
      * rewrite (alike_ds _ _ _ _ A1 Ej). apply SET; auto. split; auto. intros _. eapply mr_simple; eauto.
Qed.

Definition reached (st : store) (es : list (xname * ty)) (i : nat) : Prop := exists n t, In (n, t) es /\ ancestor st t (TPtr i).

Lemma propagate_all_spec st es : base_wf st -> (forall n t, In (n, t) es -> exists k, chain st t k /\ k <= max_depth) ->
  match propagate_all es st with
  | Some st' => alike st st' /\
      (forall i, is_mixed st' i <-> is_mixed st i \/ reached st es i /\ mixed_rule st st i) /\
      (forall i, reached st es i -> ~ stuck st i)
  | None => exists i, reached st es i /\ stuck st i
  end.
Proof.
  intros W D.
  assert (G : forall es cur, (forall n t, In (n, t) es -> exists k, chain st t k /\ k <= max_depth) -> alike st cur -> flags_in st cur -> sound st cur ->
    match foldo (fun s e => propagate max_depth (snd e) s) cur es with
    | Some st' => alike st st' /\ flags_in cur st' /\ sound st st' /\ (forall i, reached st es i -> mixed_rule st st i -> is_mixed st' i) /\
        (forall i, is_mixed st' i -> is_mixed cur i \/ reached st es i) /\ (forall i, reached st es i -> ~ stuck st i)
    | None => exists i, reached st es i /\ stuck st i
    end).
  { clear D es. induction es as [|[n t] es IH]; intros cur D A F S; cbn [foldo].
    - split; auto. split; [intros i; auto|]. split; auto. split; [intros i (n & t & [] & _)|]. split; auto. intros i (n & t & [] & _).
    - destruct (D n t (or_introl eq_refl)) as (k & Hk & Lk). pose proof (propagate_spec st W t k Hk max_depth Lk cur A F S) as P.
      cbn [snd]. destruct (propagate max_depth t cur) as [cur1|].
      + destruct P as (A1 & F1 & S1 & C1 & U1 & P1).
        specialize (IH cur1 ltac:(intros; eapply D; right; eauto) A1 ltac:(intros i Hi; auto) S1).
        destruct (foldo _ cur1 es) as [st'|].
        * destruct IH as (A2 & F2 & S2 & C2 & U2 & P2). split; auto. split; [intros i Hi; auto|]. split; auto. split; [|split].
          -- intros i (m & u & [E|Hi] & Ha) Hr; [injection E as -> ->; apply F2; auto|]. apply C2; auto. exists m, u. auto.
          -- intros i Hi. apply U2 in Hi as [Hi|(m & u & Hi & Ha)].
             ++ apply U1 in Hi as [Hi|Ha]; auto. right. exists n, t. split; [left|]; auto.
             ++ right. exists m, u. split; [right|]; auto.
          -- intros i (m & u & [E|Hi] & Ha); [injection E as -> ->; auto|]. apply P2. exists m, u. auto.
        * destruct IH as (i & (m & u & Hi & Ha) & Hs). exists i. split; auto. exists m, u. split; [right|]; auto.
      + destruct P as (i & Ha & Hs). exists i. split; auto. exists n, t. split; [left|]; auto. }
  specialize (G es st D eq_refl ltac:(intros i; auto)).
  assert (S0 : sound st st) by (intros i (c & Hc & Hm); eapply mr_declared; eauto). specialize (G S0).
  unfold propagate_all. destruct (foldo _ st es) as [st'|]; auto. destruct G as (A & F & S & C & U & P). split; auto. split; auto.
  intros i. split.
  - intros Hi. destruct (U i Hi); auto.
  - intros [Hi|[Hr Hm]]; auto.
Qed.
