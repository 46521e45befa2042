(* Passes over one tree and over several; the passes that only set attributes. *)
From Verif Require Import Base ScopeModel ScopeSpec ScopeProofs TreeModel TreeSpec TreeProofs BuiltinModel XsdModel XsdProofs NormModel NormMem NormOps NormPath NormAttr NormSpec.
Local Open Scope string_scope.

(* ---------- a pass over one tree ---------- *)
Definition leaves (h h' : heap) (e e' : elem) (p : ptr) (x : node) : Prop :=
  exists x', load h' p = Some x' /\ rep h' e' x' /\ NoDup (foot h' e' x') /\ grown h (foot h' e' x') (foot h e x) /\ same_but h h' (foot h e x) p.
Definition pass (f : ptr -> heap -> res heap) (D : elem -> Prop) (R : elem -> elem -> Prop) : Prop :=
  forall h e p x, good h e p x -> D e -> exists h' e', f p h = Done h' /\ R e e' /\ leaves h h' e e' p x.

Lemma leaves_good h h' e e' p x : good h e p x -> leaves h h' e e' p x -> exists x', good h' e' p x' /\ grown h (foot h' e' x') (foot h e x) /\ same_but h h' (foot h e x) p.
Proof.
  intros (L & R & N & Np) (x' & L' & R' & N' & G & S). exists x'. split; [|split; auto]. split; [auto|]. split; [auto|]. split; [auto|].
  intros H. destruct (G _ H) as [H1|H1]; [auto|]. apply load_bound in L. lia.
Qed.
Lemma leaves_refl h e p x : good h e p x -> leaves h h e e p x.
Proof. intros (L & R & N & Np). exists x. repeat (split; [assumption|]). split; [intros a Ha; auto|eapply same_but_refl; eauto]. Qed.
Lemma leaves_trans h1 h2 h3 e1 e2 e3 p x1 x2 : good h1 e1 p x1 -> load h2 p = Some x2 -> rep h2 e2 x2 -> NoDup (foot h2 e2 x2) -> grown h1 (foot h2 e2 x2) (foot h1 e1 x1) ->
  same_but h1 h2 (foot h1 e1 x1) p -> leaves h2 h3 e2 e3 p x2 -> leaves h1 h3 e1 e3 p x1.
Proof.
  intros G L2 R2 N2 G2 S2 (x3 & L3 & R3 & N3 & G3 & S3). exists x3. split; [auto|]. split; [auto|]. split; [auto|]. split.
  - intros a Ha. destruct (G3 a Ha) as [H|H]; [apply G2; auto|]. right. destruct S2 as (S2 & _). lia.
  - destruct S2 as (A1 & A2 & l1 & l2 & A3 & A4 & A5 & A6), S3 as (B1 & B2 & m1 & m2 & B3 & B4 & B5 & B6). split; [lia|]. split.
    + intros a Ha Hn Hp. rewrite B2; [apply A2; auto|lia| |auto]. intros H. destruct (G2 a H); [auto|lia].
    + exists l1, m2. assert (l2 = m1) by congruence. subst m1. split; [auto|]. split; [auto|]. split; [lia|]. intros j Hj. rewrite B6, A6; auto.
Qed.

Lemma pass_id D : pass (fun _ h => Done h) D eq.
Proof. intros h e p x G _. exists h, e. split; [auto|]. split; [auto|]. apply leaves_refl; auto. Qed.
Lemma pass_bind f g D1 R1 D2 R2 : pass f D1 R1 -> pass g D2 R2 ->
  pass (fun p h => bind (f p h) (g p)) (fun e => D1 e /\ forall e', R1 e e' -> D2 e') (fun e e2 => exists e1, R1 e e1 /\ R2 e1 e2).
Proof.
  intros F G h e p x Gd (H1 & H2). destruct (F h e p x Gd H1) as (h1 & e1 & E1 & Q1 & L1). pose proof L1 as (x1 & A1 & A2 & A3 & A4 & A5).
  destruct (leaves_good _ _ _ _ _ _ Gd L1) as (x1' & G1 & _). assert (x1' = x1) by (destruct G1; congruence). subst x1'.
  destruct (G h1 e1 p x1 G1 (H2 _ Q1)) as (h2 & e2 & E2 & Q2 & L2). exists h2, e2. rewrite E1. cbn [bind]. split; [auto|]. split; [eauto|].
  eapply leaves_trans; eauto.
Qed.
Lemma pass_weaken f (D D' : elem -> Prop) (R R' : elem -> elem -> Prop) : (forall e, D' e -> D e) -> (forall e e', D' e -> R e e' -> R' e e') -> pass f D R -> pass f D' R'.
Proof. intros H1 H2 P h e p x G Hd. destruct (P h e p x G (H1 _ Hd)) as (h' & e' & A & B & C). exists h', e'. auto. Qed.

(* ---------- a pass over several trees ---------- *)
Definition frames (h h' : heap) (roots : list ptr) (fp : list nat) : Prop :=
  List.length h <= List.length h' /\
  (forall a, a < List.length h -> ~ In a fp -> ~ In a (map fst roots) -> nth_error h' a = nth_error h a) /\
  (forall p x, load h p = Some x -> ~ In (fst p) fp -> ~ In p roots -> load h' p = Some x).
Lemma frames_refl h fp : frames h h [] fp.
Proof. split; [auto|]. split; auto. Qed.
Lemma same_but_frames h h' fp p : same_but h h' fp p -> frames h h' [p] fp.
Proof.
  intros (A1 & A2 & l & l' & A3 & A4 & A5 & A6). split; [auto|]. split.
  - intros a Ha Hn Hp. apply A2; auto. intros ->. apply Hp. left. auto.
  - intros q x L Hn Hp. unfold load, cells in *. destruct (Nat.eq_dec (fst q) (fst p)) as [E|E].
    + rewrite E, A3 in L. rewrite E, A4. rewrite A6; auto. intros E2. apply Hp. left. destruct p, q; cbn in *; congruence.
    + rewrite A2; auto. destruct (nth_error h (fst q)) eqn:Eq; [|destruct (snd q); discriminate]. apply nth_error_Some. congruence.
Qed.

Lemma on_each_pass f D R : pass f D R -> forall roots es xs h,
  Forall2 (fun p x => load h p = Some x) roots xs -> Forall2 (rep h) es xs -> NoDup roots -> NoDup (foots h es xs) ->
  (forall p, In p roots -> ~ In (fst p) (foots h es xs)) -> Forall D es ->
  exists h' es' xs', on_each f roots h = Done h' /\ Forall2 R es es' /\ Forall2 (fun p x => load h' p = Some x) roots xs' /\ Forall2 (rep h') es' xs' /\
    NoDup (foots h' es' xs') /\ grown h (foots h' es' xs') (foots h es xs) /\ frames h h' roots (foots h es xs).
Proof.
  intros P. induction roots as [|p roots IH]; intros es xs h L B Nr Nf Np HD; inversion L as [|? x ? xs0 Lp Lr]; subst.
  - inversion B; subst. exists h, [], []. cbn [on_each foots]. split; [auto|]. do 4 (split; [constructor|]). split; [intros a []|apply frames_refl].
  - inversion B as [|e ? es0 ? Re Br]; subst. cbn [foots] in *. destruct (nodup_app_inv _ _ Nf) as (N1 & N2 & N3). inversion HD as [|? ? D1 D2]; subst. inversion Nr as [|? ? Nr1 Nr2]; subst.
    assert (G : good h e p x). { split; [auto|]. split; [auto|]. split; [auto|]. intros H. apply (Np p); [left; auto|]. apply in_or_app. auto. }
    destruct (P h e p x G D1) as (h1 & e1 & E1 & Q1 & (x1 & A1 & A2 & A3 & A4 & A5)). pose proof (same_but_frames _ _ _ _ A5) as (F1 & F2 & F3).
    assert (Fr : forall a, In a (foots h es0 xs0) -> nth_error h1 a = nth_error h a).
    { intros a Ha. apply F2; [eapply foots_bound; eauto|intros H; eapply N3; eauto|]. intros [<- |[]]. apply (Np p); [left; auto|]. apply in_or_app. auto. }
    destruct (reps_frame h h1 es0 xs0 Br Fr) as [B1 Ef].
    destruct (IH es0 xs0 h1) as (h' & es' & xs' & C1 & C2 & C3 & C4 & C5 & C6 & C7); auto.
    { clear IH. assert (Hin : forall q, In q roots -> ~ In (fst q) (foot h e x)) by (intros q Hq H; apply (Np q); [right; auto|apply in_or_app; auto]).
      clear -Lr F3 Hin Nr1. induction Lr as [|q y qs ys Hq Lr IHl]; constructor.
      - apply F3; auto; [apply Hin; left; auto|]. intros [<- |[]]. apply Nr1. left. auto.
      - apply IHl; [intros H; apply Nr1; right; auto|intros q' Hq'; apply Hin; right; auto]. }
    { rewrite Ef. auto. }
    { intros q Hq. rewrite Ef. intros H. apply (Np q); [right; auto|apply in_or_app; auto]. }
    rewrite Ef in *. destruct C7 as (G1 & G2 & G3).
    assert (Pr : forall a, In a (foot h1 e1 x1) -> ~ In a (foots h es0 xs0) /\ ~ In a (map fst roots)).
    { intros a Ha. split.
      - intros H. destruct (A4 a Ha) as [H1|H1]; [eapply N3; eauto|]. apply (foots_bound _ _ _ Br) in H. lia.
      - intros H. apply in_map_iff in H. destruct H as (q & <- & Hq). destruct (A4 _ Ha) as [H1|H1]; [apply (Np q); [right; auto|apply in_or_app; auto]|].
        assert (Hb : fst q < List.length h); [|lia]. clear -Lr Hq. induction Lr as [|q' y qs ys Hy Lr IHl]; [destruct Hq|]. destruct Hq as [-> |Hq]; [eapply load_bound; eauto|auto]. }
    assert (Fk : forall a, In a (foot h1 e1 x1) -> nth_error h' a = nth_error h1 a). { intros a Ha. apply G2; [eapply foot_bound; eauto| |]; apply Pr; auto. }
    destruct (rep_frame e1 h1 h' x1 A2 Fk) as [R1 E2].
    exists h', (e1 :: es'), (x1 :: xs'). cbn [on_each foots]. rewrite E1. split; [exact C1|]. split; [constructor; auto|].
    split; [constructor; [apply G3; [exact A1| |exact Nr1]; intros H; apply (Np p); [left; auto|apply in_or_app; auto]|exact C3]|]. split; [constructor; auto|]. split; [|split].
    + rewrite E2. apply nodup_app; auto. intros a H1 H2. destruct (C6 a H2) as [H|H]; [exact (proj1 (Pr a H1) H)|]. pose proof (foot_bound _ _ _ A2 a H1). lia.
    + rewrite E2. intros a Ha. apply in_app_or in Ha. destruct Ha as [Ha|Ha].
      * destruct (A4 a Ha) as [H|H]; [left; apply in_or_app; auto|auto].
      * destruct (C6 a Ha) as [H|H]; [left; apply in_or_app; auto|right; lia].
    + split; [lia|]. split.
      * intros a Ha Hn Hp. cbn [map In] in Hp. rewrite G2, F2; auto; try lia; try (intros H; apply Hn; apply in_or_app; auto; fail).
        intros [<- |[]]. apply Hp. left. auto.
      * intros q y Lq Hn Hq. cbn [In] in Hq. apply G3; [apply F3; auto| |auto]; try (intros H; apply Hn; apply in_or_app; auto; fail).
        intros [<- |[]]. apply Hq. left. auto.
Qed.
Lemma on_each_stands f D R roots es h : pass f D R -> stands h roots es -> Forall D es ->
  exists h' es', on_each f roots h = Done h' /\ Forall2 R es es' /\ stands h' roots es'.
Proof.
  intros P (xs & L & B & Nr & Nf & Np) HD. destruct (on_each_pass f D R P roots es xs h L B Nr Nf Np HD) as (h' & es' & xs' & C1 & C2 & C3 & C4 & C5 & C6 & C7).
  exists h', es'. split; [auto|]. split; [auto|]. exists xs'. repeat (split; [assumption|]). intros p Hp H. destruct (C6 _ H) as [H1|H1]; [eapply Np; eauto|].
  assert (Hb : fst p < List.length h); [|lia]. clear -L Hp. induction L as [|q y qs ys Hy L IH]; [destruct Hp|]. destruct Hp as [-> |Hp]; [eapply load_bound; eauto|auto].
Qed.
