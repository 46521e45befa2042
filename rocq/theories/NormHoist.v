(* A pass that moves anonymous types to the top level through pointers collected beforehand. *)
From Verif Require Import Base ScopeModel TreeModel TreeSpec TreeProofs BuiltinModel XsdModel XsdProofs NormModel NormMem NormOps NormPath NormAttr NormSpec NormHoistSpec NormHoistMem.
Local Open Scope string_scope.

(* ---------- what has happened to the memory ---------- *)
(* fp: arrays changed; loc: cells changed; the root r, now r', has the children ns and then tn *)
Record ext (h h' : heap) (root : ptr) (r r' : node) (ns tn : list node) (fp : list nat) (loc : list ptr) : Prop := mkExt {
  x_len : List.length h <= List.length h';
  x_arr : forall a, a < List.length h -> ~ In a fp -> ~ In a (map fst loc) -> a <> fst root -> a <> n_arr r -> nth_error h' a = nth_error h a;
  x_load : forall q z, load h q = Some z -> ~ In (fst q) fp -> ~ In q loc -> q <> root -> (fst q = n_arr r -> snd q < n_len r) -> load h' q = Some z;
  x_root : load h' root = Some r';
  x_hdr : r' = with_kids r (n_arr r') (n_len r + List.length tn);
  x_ok : kids_ok h' r';
  x_kids : kids h' r' = (ns ++ tn)%list;
  x_where : n_arr r' = n_arr r \/ List.length h <= n_arr r';
  x_room : n_len r + List.length tn <= List.length (cells h (n_arr r)) -> n_arr r' = n_arr r;
  x_cap : List.length (cells h' (n_arr r)) = List.length (cells h (n_arr r));
  x_rcap : List.length (cells h' (fst root)) = List.length (cells h (fst root)) }.

Lemma ext_refl h root r fp loc : load h root = Some r -> kids_ok h r -> ext h h root r r (kids h r) [] fp loc.
Proof. intros L K. constructor; auto; [cbn [List.length]; rewrite Nat.add_0_r; destruct r; reflexivity|rewrite app_nil_r; reflexivity]. Qed.
Lemma ext_trans h h1 h2 root r r1 r2 ns tn1 tn2 fp fp1 fp2 loc loc1 loc2 :
  ext h h1 root r r1 ns tn1 fp1 loc1 -> ext h1 h2 root r1 r2 (ns ++ tn1)%list tn2 fp2 loc2 ->
  n_arr r < List.length h -> fst root <> n_arr r -> ~ In (n_arr r) fp ->
  (forall a, In a fp1 -> In a fp \/ List.length h <= a) -> (forall a, In a fp2 -> In a fp \/ List.length h <= a) ->
  (forall q, In q loc1 -> In q loc \/ In (fst q) fp \/ List.length h <= fst q) ->
  (forall q, In q loc2 -> (In q loc \/ In (fst q) fp \/ List.length h <= fst q) /\ fst q <> n_arr r) ->
  ext h h2 root r r2 ns (tn1 ++ tn2)%list fp loc.
Proof.
  intros E1 E2 Ba Nr Nf A1 A2 L1 L2. destruct E1 as [a1 b1 c1 d1 e1 f1 g1 i1 j1 k1 l1], E2 as [a2 b2 c2 d2 e2 f2 g2 i2 j2 k2 l2].
  assert (Hl : n_len r1 = n_len r + List.length tn1) by (rewrite e1; reflexivity).
  constructor.
  - lia.
  - intros a H H1 H2 H3 H4. rewrite b2; [apply b1; auto| | | |auto|].
    + intros Hf. destruct (A1 a Hf); [auto|lia].
    + intros Hf. apply in_map_iff in Hf. destruct Hf as (q & <- & Hq). destruct (L1 q Hq) as [Hx|[Hx|Hx]]; [apply H2, in_map; auto|auto|lia].
    + lia.
    + intros Hf. destruct (A2 a Hf); [auto|lia].
    + intros Hf. apply in_map_iff in Hf. destruct Hf as (q & <- & Hq). destruct (L2 q Hq) as [[Hx|[Hx|Hx]] _]; [apply H2, in_map; auto|auto|lia].
    + destruct i1 as [-> |i1]; [auto|lia].
  - intros q z Lq H1 H2 H3 H4. pose proof (load_bound _ _ _ Lq) as Lb. apply c2; auto; [apply c1; auto| | |].
    + intros Hf. destruct (A1 _ Hf); [auto|lia].
    + intros Hf. destruct (L1 q Hf) as [Hx|[Hx|Hx]]; [auto|auto|lia].
    + intros Hf. destruct (A2 _ Hf); [auto|lia].
    + intros Hf. destruct (L2 q Hf) as [[Hx|[Hx|Hx]] _]; [auto|auto|lia].
    + intros Hq. destruct i1 as [E|i1]; [rewrite E in Hq; specialize (H4 Hq); lia|lia].
  - auto.
  - rewrite e2. rewrite e1 at 1. unfold with_kids. cbn [n_name n_at n_alen n_scope n_content n_arr]. f_equal. rewrite Hl, app_length. lia.
  - auto.
  - rewrite g2, app_assoc. reflexivity.
  - destruct i2 as [-> |i2]; [auto|right; lia].
  - rewrite app_length. intros Hc. assert (E : n_arr r1 = n_arr r) by (apply j1; lia). rewrite <- E. apply j2. rewrite E, k1. lia.
  - destruct i1 as [E|i1].
    + rewrite <- E at 1. rewrite k2, E. exact k1.
    + rewrite <- k1. unfold cells at 1 2. rewrite b2; auto; try lia.
      * intros Hf. destruct (A2 _ Hf); [auto|lia].
      * intros Hf. apply in_map_iff in Hf. destruct Hf as (q & Eq & Hq). destruct (L2 q Hq) as [_ Hx]. auto.
  - congruence.
Qed.
Lemma ext_weaken h h' root r r' ns tn fp fp' loc loc' : ext h h' root r r' ns tn fp loc ->
  incl fp fp' -> (forall q, In q loc -> In q loc' \/ In (fst q) fp') -> ext h h' root r r' ns tn fp' loc'.
Proof.
  intros [a1 b1 c1 d1 e1 f1 g1 i1 j1 k1 l1] A L. constructor; auto.
  - intros a H H1 H2 H3 H4. apply b1; auto. intros Hf. apply in_map_iff in Hf. destruct Hf as (q & <- & Hq). destruct (L q Hq) as [Hx|Hx]; [apply H2, in_map; auto|auto].
  - intros q z Lq H1 H2 H3 H4. apply c1; auto. intros Hf. destruct (L q Hf); auto.
Qed.

(* ---------- lists of trees ---------- *)
Lemma hoist_el_eq St g dec e s : hoist_el St g dec e s =
  let (act, s1) := if g e then dec e s else (None, s) in
  let '(ks', ts, s2) := hoist_list St g dec (e_children e) s1 in
  match act with
  | None => (with_children e ks', ts, s2)
  | Some (tas, (u, q)) =>
      let i := anon_index (e_children e) in
      (detached e u q (firstn i ks' ++ skipn (S i) ks')%list, (map (fun t => set_all t tas) (firstn 1 (skipn i ks')) ++ ts)%list, s2)
  end.
Proof.
  destruct e as [n a sc c ks]. cbn [hoist_el e_children]. destruct (if g (Elem n a sc c ks) then dec (Elem n a sc c ks) s else (None, s)) as [act s1].
  assert (E : forall l s, (fix go (ks : list elem) (s : St) {struct ks} : list elem * list elem * St :=
      match ks with
      | [] => ([], [], s)
      | k :: ks' => let '(k', t1, s1) := hoist_el St g dec k s in let '(r, t2, s2) := go ks' s1 in (k' :: r, (t1 ++ t2)%list, s2)
      end) l s = hoist_list St g dec l s).
  { induction l as [|k l IH]; intros s0; cbn [hoist_list]; auto. }
  rewrite E. reflexivity.
Qed.
Lemma hoist_list_app St g dec l m s : hoist_list St g dec (l ++ m)%list s =
  let '(l', t1, s1) := hoist_list St g dec l s in let '(m', t2, s2) := hoist_list St g dec m s1 in ((l' ++ m')%list, (t1 ++ t2)%list, s2).
Proof.
  revert s. induction l as [|k l IH]; intros s; cbn [app hoist_list].
  - destruct (hoist_list St g dec m s) as [[m' t2] s2]. reflexivity.
  - destruct (hoist_el St g dec k s) as [[k' t1] s1]. rewrite IH. destruct (hoist_list St g dec l s1) as [[l' t2] s2]. destruct (hoist_list St g dec m s2) as [[m' t3] s3]. rewrite app_assoc. reflexivity.
Qed.
Lemma hoist_list_length St g dec l : forall s, List.length (fst (fst (hoist_list St g dec l s))) = List.length l.
Proof.
  induction l as [|k l IH]; intros s; cbn [hoist_list]; auto. destruct (hoist_el St g dec k s) as [[k' t1] s1]. specialize (IH s1). destruct (hoist_list St g dec l s1) as [[l' t2] s2]. cbn in *. lia.
Qed.

Lemma nodup_mix {A} (a b c d : list A) : NoDup (a ++ b)%list -> NoDup (c ++ d)%list -> (forall x, In x (a ++ b)%list -> ~ In x (c ++ d)%list) -> NoDup ((a ++ c) ++ b ++ d)%list.
Proof.
  intros N1 N2 D. apply nodup_app_inv in N1. destruct N1 as (Na & Nb & Dab). apply nodup_app_inv in N2. destruct N2 as (Nc & Nd & Dcd).
  assert (D' : forall x, In x a \/ In x b -> ~ In x c /\ ~ In x d). { intros x Hx. specialize (D x). rewrite !in_app_iff in D. tauto. } clear D.
  apply nodup_app; [apply nodup_app; auto; intros x Hx; apply D'; auto|apply nodup_app; auto; intros x Hx; apply D'; auto|].
  intros x. rewrite !in_app_iff. intros [H|H] [H'|H']; [eapply Dab; eauto|eapply (proj2 (D' x (or_introl H))); eauto|eapply (proj1 (D' x (or_intror H'))); eauto|eapply Dcd; eauto].
Qed.

Section Pass.
  Variables (St : Type) (g : elem -> bool) (dec : elem -> St -> option (list (string * string) * (string * string)) * St).
  Variables (root : ptr) (step : heap * St -> ptr -> heap * St).
  Notation hoist_el := (hoist_el St g dec).
  Notation hoist_list := (hoist_list St g dec).

  (* the root and the cells loc are apart from the arrays fp *)
  Definition safe (h : heap) (r : node) (fp : list nat) (loc : list ptr) : Prop :=
    load h root = Some r /\ kids_ok h r /\ fst root <> n_arr r /\ ~ In (fst root) fp /\ ~ In (n_arr r) fp /\
    forall q, In q loc -> fst q <> fst root /\ fst q <> n_arr r /\ ~ In (fst q) fp.
  Definition outcome (h h' : heap) (r r' : node) (fp : list nat) (loc : list ptr) (ks' : list elem) (xs' : list node) (ts : list elem) : Prop :=
    exists tn, ext h h' root r r' (kids h r) tn fp loc /\ Forall2 (rep h') ks' xs' /\ Forall2 (rep h') ts tn /\
      NoDup (foots h' ks' xs' ++ foots h' ts tn)%list /\ grown h (foots h' ks' xs' ++ foots h' ts tn)%list fp /\
      ~ In (n_arr r') (foots h' ks' xs' ++ foots h' ts tn)%list.
  Record item := mkItem { i_in : bool; i_ptr : ptr; i_el : elem; i_node : node }.
  Definition at_place (h : heap) (it : item) (x' : node) : Prop := if i_in it then load h (i_ptr it) = Some x' else x' = i_node it.
  Definition locs (its : list item) : list ptr := map i_ptr (filter i_in its).
  Definition processed (h0 : heap) (it : item) : Prop := forall h s r,
    (forall a, In a (foot h0 (i_el it) (i_node it)) -> nth_error h a = nth_error h0 a) -> at_place h it (i_node it) ->
    safe h r (foot h0 (i_el it) (i_node it)) (locs [it]) ->
    let '(k', ts, s') := hoist_el (i_el it) s in
    exists h' r' x', each step (h, s) (hits g h0 (i_el it) (i_ptr it) (i_node it)) = (h', s') /\
      outcome h h' r r' (foot h0 (i_el it) (i_node it)) (locs [it]) [k'] [x'] ts /\ at_place h' it x'.

  Lemma each_app {A B} (f : A -> B -> A) l m a : each f a (l ++ m)%list = each f (each f a l) m.
  Proof. revert a. induction l as [|b l IH]; intros a; cbn [app each]; auto. Qed.

  Lemma locs_cons it its : locs (it :: its) = (locs [it] ++ locs its)%list.
  Proof. unfold locs. cbn [filter]. destruct (i_in it); reflexivity. Qed.
  Lemma processed_all h0 its : Forall (processed h0) its -> forall h s r,
    NoDup (foots h0 (map i_el its) (map i_node its)) -> Forall2 (rep h0) (map i_el its) (map i_node its) ->
    (forall a, In a (foots h0 (map i_el its) (map i_node its)) -> nth_error h a = nth_error h0 a) ->
    Forall (fun it => at_place h it (i_node it)) its -> NoDup (locs its) -> (forall q, In q (locs its) -> fst q < List.length h) ->
    safe h r (foots h0 (map i_el its) (map i_node its)) (locs its) ->
    let '(ks', ts, s') := hoist_list (map i_el its) s in
    exists h' r' xs', each step (h, s) (flat_map (fun it => hits g h0 (i_el it) (i_ptr it) (i_node it)) its) = (h', s') /\
      outcome h h' r r' (foots h0 (map i_el its) (map i_node its)) (locs its) ks' xs' ts /\ Forall2 (at_place h') its xs'.
  Proof.
    induction its as [|it its IH]; intros P h s r N R F Pl Nl Bl Sf; cbn [map NormHoistSpec.hoist_list flat_map each foots] in *.
    - exists h, r, []. split; [auto|]. split; [|constructor]. exists []. destruct Sf as (S1 & S2 & _).
      split; [apply ext_refl; auto|]. do 2 (split; [constructor|]). cbn [foots app]. split; [constructor|]. split; [intros a []|auto].
    - inversion P as [|? ? P1 P2]; subst. inversion R as [|? ? ? ? R1 R2]; subst. inversion Pl as [|? ? Pl1 Pl2]; subst. apply nodup_app_inv in N. destruct N as (N1 & N2 & N3).
      rewrite locs_cons in *. set (F1 := foot h0 (i_el it) (i_node it)) in *. set (F2 := foots h0 (map i_el its) (map i_node its)) in *.
      apply nodup_app_inv in Nl. destruct Nl as (Nl1 & Nl2 & Nl3). destruct Sf as (S1 & S2 & S3 & S4 & S5 & S6). rewrite in_app_iff in S4, S5.
      pose proof (P1 h s r) as Q. fold F1 in Q. specialize (Q (fun a Ha => F a (in_or_app _ _ a (or_introl Ha))) Pl1).
      assert (Sf1 : safe h r F1 (locs [it])). { split; [auto|]. split; [auto|]. split; [auto|]. split; [tauto|]. split; [tauto|]. intros q Hq. destruct (S6 q (in_or_app _ _ q (or_introl Hq))) as (A & B & C). rewrite in_app_iff in C. tauto. }
      specialize (Q Sf1). destruct (hoist_el (i_el it) s) as [[k' t1] s1]. destruct Q as (h1 & r1 & x1 & Q1 & (tn1 & X1 & X2 & X3 & X4 & X5 & X6) & Q3).
      rewrite each_app, Q1. pose proof (x_len _ _ _ _ _ _ _ _ _ X1) as Ln1.
      assert (B1 : forall a, In a F1 -> a < List.length h). { intros a Ha. assert (a < List.length h0) by (eapply foot_bound; eauto). apply nth_error_Some. rewrite (F a (in_or_app _ _ a (or_introl Ha))). apply nth_error_Some. auto. }
      assert (B2 : forall a, In a F2 -> a < List.length h). { intros a Ha. assert (a < List.length h0) by (eapply foots_bound; eauto). apply nth_error_Some. rewrite (F a (in_or_app _ _ a (or_intror Ha))). apply nth_error_Some. auto. }
      assert (Br : fst root < List.length h) by (eapply load_bound; eauto). assert (Ba : n_arr r < List.length h). { destruct S2 as (lc & K1 & _). apply nth_error_Some. congruence. }
      pose proof (x_where _ _ _ _ _ _ _ _ _ X1) as W1.
      assert (Fr1 : forall a, In a F2 -> nth_error h1 a = nth_error h a).
      { intros a Ha. apply (x_arr _ _ _ _ _ _ _ _ _ X1); [apply B2; exact Ha| | | |].
        - intros H. exact (N3 a H Ha).
        - intros H. apply in_map_iff in H. destruct H as (q & <- & Hq). destruct (S6 q (in_or_app _ _ q (or_introl Hq))) as (_ & _ & C). rewrite in_app_iff in C. tauto.
        - intros ->. tauto.
        - intros ->. tauto. }
      assert (Sf2 : safe h1 r1 F2 (locs its)).
      { split; [exact (x_root _ _ _ _ _ _ _ _ _ X1)|]. split; [exact (x_ok _ _ _ _ _ _ _ _ _ X1)|]. split; [destruct W1 as [-> |W1]; [auto|lia]|]. split; [tauto|]. split.
        - destruct W1 as [-> |W1]; [tauto|]. intros H. apply B2 in H. lia.
        - intros q Hq. destruct (S6 q (in_or_app _ _ q (or_intror Hq))) as (A & B & C). rewrite in_app_iff in C. split; [auto|]. split; [|tauto].
          destruct W1 as [-> |W1]; [auto|]. specialize (Bl q (in_or_app _ _ q (or_intror Hq))). lia. }
      assert (Pl' : Forall (fun it => at_place h1 it (i_node it)) its).
      { assert (G : forall q z, In q (locs its) -> load h q = Some z -> load h1 q = Some z).
        { intros q z Hq Lq. destruct (S6 q (in_or_app _ _ q (or_intror Hq))) as (A & B & C). rewrite in_app_iff in C. apply (x_load _ _ _ _ _ _ _ _ _ X1); auto; try congruence.
          intros H. exact (Nl3 q H Hq). }
        clear -Pl2 G. induction Pl2 as [|i l H Pl2 IH]; constructor.
        - unfold at_place in *. destruct (i_in i) eqn:Ei; auto. apply G; auto. unfold locs. cbn [filter]. rewrite Ei. left. auto.
        - apply IH. intros q z Hq. apply G. rewrite locs_cons. apply in_or_app. auto. }
      assert (Fr2 : forall a, In a F2 -> nth_error h1 a = nth_error h0 a). { intros a Ha. rewrite Fr1 by auto. apply F. apply in_or_app. auto. }
      assert (Bl' : forall q, In q (locs its) -> fst q < List.length h1). { intros q Hq. specialize (Bl q (in_or_app _ _ q (or_intror Hq))). lia. }
      specialize (IH P2 h1 s1 r1 N2 R2 Fr2 Pl' Nl2 Bl' Sf2). destruct (hoist_list (map i_el its) s1) as [[ks' t2] s2].
      destruct IH as (h2 & r2 & xs' & I1 & (tn2 & Y1 & Y2 & Y3 & Y4 & Y5 & Y6) & I3). exists h2, r2, (x1 :: xs'). split; [exact I1|].
      (* what was done first stays *)
      assert (Keep : forall a, In a (foots h1 [k'] [x1] ++ foots h1 t1 tn1)%list -> nth_error h2 a = nth_error h1 a).
      { intros a Ha. assert (Hb : a < List.length h1). { apply in_app_or in Ha. destruct Ha as [Ha|Ha]; [eapply foots_bound; [exact X2|exact Ha]|eapply foots_bound; [exact X3|exact Ha]]. }
        destruct (X5 a Ha) as [Hf|Hf].
        - apply (x_arr _ _ _ _ _ _ _ _ _ Y1); [exact Hb| | | |].
          + intros H. exact (N3 a Hf H).
          + intros H. apply in_map_iff in H. destruct H as (q & <- & Hq). destruct (S6 q (in_or_app _ _ q (or_intror Hq))) as (_ & _ & C). rewrite in_app_iff in C. tauto.
          + intros ->. tauto.
          + intros ->. auto.
        - apply (x_arr _ _ _ _ _ _ _ _ _ Y1); [exact Hb| | | |].
          + intros H. apply B2 in H. lia.
          + intros H. apply in_map_iff in H. destruct H as (q & <- & Hq). specialize (Bl q (in_or_app _ _ q (or_intror Hq))). lia.
          + intros ->. lia.
          + intros ->. auto. }
      destruct (reps_frame h1 h2 _ _ X2) as [X2' Ef1]; [intros a Ha; apply Keep, in_or_app; auto|].
      destruct (reps_frame h1 h2 _ _ X3) as [X3' Ef2]; [intros a Ha; apply Keep, in_or_app; auto|].
      assert (Gr1 : forall a, In a (foots h2 [k'] [x1] ++ foots h2 t1 tn1)%list -> (In a F1 \/ List.length h <= a) /\ a < List.length h1).
      { rewrite Ef1, Ef2. intros a Ha. split; [apply X5; auto|]. apply in_app_or in Ha. destruct Ha as [Ha|Ha]; [eapply foots_bound; [exact X2|exact Ha]|eapply foots_bound; [exact X3|exact Ha]]. }
      split.
      + exists (tn1 ++ tn2)%list. split.
        { apply ext_trans with (h1 := h1) (r1 := r1) (fp1 := F1) (fp2 := F2) (loc1 := locs [it]) (loc2 := locs its); auto.
          - pose proof (x_kids _ _ _ _ _ _ _ _ _ X1) as Ek. rewrite Ek in Y1. exact Y1.
          - rewrite in_app_iff. tauto.
          - intros a Ha. left. apply in_or_app. auto.
          - intros a Ha. left. apply in_or_app. auto.
          - intros q Hq. left. apply in_or_app. auto.
          - intros q Hq. split; [left; apply in_or_app; auto|]. destruct (S6 q (in_or_app _ _ q (or_intror Hq))). tauto. }
        split; [inversion X2'; constructor; auto|]. split; [apply Forall2_app; auto|].
        assert (Efc : foots h2 (k' :: ks') (x1 :: xs') = (foots h2 [k'] [x1] ++ foots h2 ks' xs')%list) by (cbn [foots]; rewrite app_nil_r; reflexivity).
        rewrite Efc, foots_app by (eapply Forall2_len; exact X3').
        assert (Dj : forall a, In a (foots h2 [k'] [x1] ++ foots h2 t1 tn1)%list -> ~ In a (foots h2 ks' xs' ++ foots h2 t2 tn2)%list).
        { intros a Ha Hb. destruct (Gr1 a Ha) as [G1 G2]. destruct (Y5 a Hb) as [G3|G3]; [|lia]. destruct G1 as [G1|G1]; [exact (N3 a G1 G3)|]. apply B2 in G3. lia. }
        split; [|split].
        * apply nodup_mix; auto. rewrite Ef1, Ef2. exact X4.
        * intros a Ha. rewrite !in_app_iff in Ha. assert (Ha' : In a (foots h2 [k'] [x1] ++ foots h2 t1 tn1)%list \/ In a (foots h2 ks' xs' ++ foots h2 t2 tn2)%list) by (rewrite !in_app_iff; tauto).
          rewrite in_app_iff. destruct Ha' as [H|H]; [destruct (Gr1 a H); tauto|]. destruct (Y5 a H); [tauto|right; lia].
        * rewrite !in_app_iff. intros Ha. assert (Ha' : In (n_arr r2) (foots h2 [k'] [x1] ++ foots h2 t1 tn1)%list \/ In (n_arr r2) (foots h2 ks' xs' ++ foots h2 t2 tn2)%list) by (rewrite !in_app_iff; tauto).
          destruct Ha' as [H|H]; [|auto]. pose proof (x_where _ _ _ _ _ _ _ _ _ Y1) as W2. destruct (Gr1 _ H) as [G1 G2]. destruct W2 as [W2|W2]; [|lia]. rewrite Ef1, Ef2, W2 in H. auto.
      + constructor; auto. unfold at_place in *. destruct (i_in it) eqn:Ei; auto.
        assert (Hq : In (i_ptr it) (locs [it])) by (unfold locs; cbn [filter]; rewrite Ei; left; auto). destruct (S6 _ (in_or_app _ _ _ (or_introl Hq))) as (A & B & C). rewrite in_app_iff in C.
        apply (x_load _ _ _ _ _ _ _ _ _ Y1); [exact Q3|tauto|intros H; exact (Nl3 _ Hq H)|congruence|].
        intros H. exfalso. destruct W1 as [W1|W1]; [congruence|]. specialize (Bl _ (in_or_app _ _ _ (or_introl Hq))). lia.
  Qed.

  (* ---------- one step ---------- *)
  Variables grow agrow : nat -> nat -> nat.
  Definition hoist (p : ptr) (i : nat) (tas : list (string * string)) (u q : string) (h : heap) : heap :=
    match load h p with
    | Some x =>
        match nth_error (kids h x) i with
        | Some y => let (h1, t1) := n_sets agrow h y tas in append_kid grow (clear_content (remove_kid (set_attr_at agrow h1 p u q) p i) p) root t1
        | None => h
        end
    | None => h
    end.
  Lemma kids_set h h' r p x' : kids_ok h r -> fst p = n_arr r -> snd p < n_len r -> load h' p = Some x' ->
    (exists l l', nth_error h (fst p) = Some (Els l) /\ nth_error h' (fst p) = Some (Els l') /\ List.length l' = List.length l /\ forall j, j <> snd p -> nth_error l' j = nth_error l j) ->
    kids h' r = set_nth (snd p) x' (kids h r).
  Proof.
    intros (lc & K1 & K2) E Hs L (l & l' & A1 & A2 & A3 & A4). rewrite E in *. assert (l = lc) by congruence. subst l.
    unfold kids. rewrite (cells_ok _ _ _ A2), (cells_ok _ _ _ K1). unfold load in L. rewrite E, (cells_ok _ _ _ A2) in L.
    assert (El : l' = set_nth (snd p) x' lc).
    { apply nth_ext with (d := zero_node) (d' := zero_node); [rewrite set_nth_length; auto|]. intros j Hj. apply nth_error_nth.
      assert (Ej : nth_error l' j = nth_error (set_nth (snd p) x' lc) j).
      { destruct (Nat.eq_dec j (snd p)) as [-> |Nj]; [rewrite set_nth_same by lia; auto|rewrite set_nth_other by auto; auto]. }
      rewrite Ej. apply nth_error_nth'. rewrite set_nth_length. lia. }
    rewrite El. clear -Hs K2. revert Hs K2. generalize (snd p) (n_len r). induction lc as [|z lc IH]; intros [|i] [|n] H1 H2; cbn [List.length] in H2; try lia; cbn [set_nth firstn]; auto. f_equal. apply IH; lia.
  Qed.
  Definition moved (h : heap) (r : node) (p : ptr) (x' : node) : list node := if Nat.eqb (fst p) (n_arr r) then set_nth (snd p) x' (kids h r) else kids h r.
  Lemma hoist_ok h e p x r ks1 t ks2 xs1 y xs2 tas u q : good h e p x -> e_children e = (ks1 ++ t :: ks2)%list -> kids h x = (xs1 ++ y :: xs2)%list -> List.length xs1 = List.length ks1 ->
    load h root = Some r -> kids_ok h r -> fst root <> n_arr r -> ~ In (fst root) (foot h e x) -> ~ In (n_arr r) (foot h e x) -> fst p <> fst root -> (fst p = n_arr r -> snd p < n_len r) ->
    let h' := hoist p (List.length ks1) tas u q h in let e' := detached e u q (ks1 ++ ks2)%list in let t' := set_all t tas in
    exists x' t1 r', ext h h' root r r' (moved h r p x') [t1] (foot h e x) [p] /\
      load h' p = Some x' /\ rep h' e' x' /\ n_arr x' = n_arr x /\ kids h' x' = (xs1 ++ xs2)%list /\ rep h' t' t1 /\ n_arr t1 = n_arr y /\ n_len t1 = n_len y /\
      NoDup (foot h' e' x' ++ foot h' t' t1)%list /\ grown h (foot h' e' x' ++ foot h' t' t1)%list (foot h e x) /\ ~ In (n_arr r') (foot h' e' x' ++ foot h' t' t1)%list /\
      (forall a, In a (foots h ks1 xs1 ++ foots h ks2 xs2 ++ n_arr y :: foots h (e_children t) (kids h y))%list -> nth_error h' a = nth_error h a).
  Proof.
    intros G Ec Ex Hl Lr Kr Nr Sr Sa Npr Hp. cbn zeta. pose proof G as (L & R & N & Np). unfold hoist. rewrite L.
    assert (Ey : nth_error (kids h x) (List.length ks1) = Some y). { rewrite Ex, <- Hl. clear. induction xs1; cbn; auto. }
    rewrite Ey. pose proof (detach agrow h e p x ks1 t ks2 xs1 y xs2 tas u q G Ec Ex Hl) as D. destruct (n_sets agrow h y tas) as [h1 t1]. cbn zeta in D.
    set (h4 := clear_content (remove_kid (set_attr_at agrow h1 p u q) p (List.length ks1)) p) in *.
    destruct D as (x' & D1 & D2 & D3 & D4 & D5 & D6 & D7 & D8 & D9 & (D10 & D11 & D12) & D13).
    pose proof (load_bound _ _ _ Lr) as Br. assert (Ba : n_arr r < List.length h). { destruct Kr as (lc & K1 & _). apply nth_error_Some. congruence. }
    assert (Lr4 : load h4 root = Some r). { rewrite <- Lr. apply load_frame. apply D11; auto. }
    assert (Kr4 : kids_ok h4 r /\ kids h4 r = moved h r p x' /\ List.length (cells h4 (n_arr r)) = List.length (cells h (n_arr r))).
    { unfold moved. destruct (Nat.eqb (fst p) (n_arr r)) eqn:Ep.
      - apply Nat.eqb_eq in Ep. split; [|split; [eapply kids_set; eauto|]].
        + destruct D12 as (l & l' & A1 & A2 & A3 & A4). destruct Kr as (lc & K1 & K2). exists l'. rewrite <- Ep. split; [auto|]. rewrite Ep in A1. assert (l = lc) by congruence. subst l. lia.
        + destruct D12 as (l & l' & A1 & A2 & A3 & A4). rewrite <- Ep. rewrite (cells_ok _ _ _ A1), (cells_ok _ _ _ A2). auto.
      - apply Nat.eqb_neq in Ep. assert (E : nth_error h4 (n_arr r) = nth_error h (n_arr r)) by (apply D11; auto). unfold kids_ok, kids, cells. rewrite E. auto. }
    destruct Kr4 as (Kr4 & Ek4 & Ec4).
    destruct (append_ok grow h4 root r t1 Lr4 Kr4 Nr) as (r' & A1 & A2 & A3 & A4 & A5 & A6 & A7 & A8 & A9 & A10). set (h5 := append_kid grow h4 root t1) in *.
    assert (Fp : forall a, In a (foot h4 (detached e u q (ks1 ++ ks2)%list) x' ++ foot h4 (set_all t tas) t1)%list -> nth_error h5 a = nth_error h4 a).
    { intros a Ha. assert (Hb : a < List.length h4) by (apply in_app_or in Ha; destruct Ha as [Ha|Ha]; [exact (foot_bound _ _ _ D2 a Ha)|exact (foot_bound _ _ _ D5 a Ha)]).
      apply A7; auto; intros ->; destruct (D9 _ Ha) as [H|H]; auto; lia. }
    destruct (rep_frame _ h4 h5 x' D2) as [D2' E2]; [intros a Ha; apply Fp, in_or_app; auto|].
    destruct (rep_frame _ h4 h5 t1 D5) as [D5' E5]; [intros a Ha; apply Fp, in_or_app; auto|].
    exists x', t1, r'. split; [|split; [|split; [auto|split; [auto|split; [|split; [auto|split; [auto|split; [auto|]]]]]]]].
    - constructor; auto.
      + lia.
      + intros a H1 H2 H3 H4 H5. rewrite A7; [|lia|auto|auto]. apply D11; auto. intros ->. apply H3. left. auto.
      + intros z zz Lz H1 H2 H3 H4. apply A8; auto. pose proof (load_bound _ _ _ Lz) as Bz. destruct (Nat.eq_dec (fst z) (fst p)) as [E|E].
        * destruct D12 as (l & l' & B1 & B2 & B3 & B4). unfold load in *. rewrite E in *. rewrite (cells_ok _ _ _ B1) in Lz. rewrite (cells_ok _ _ _ B2). rewrite B4; auto. intros E2'. apply H2. left. destruct z, p; cbn in *; congruence.
        * rewrite <- Lz. apply load_frame. apply D11; auto.
      + rewrite A2 at 1. cbn [List.length]. f_equal. lia.
      + rewrite A4, Ek4. reflexivity.
      + destruct A5 as [A5|A5]; [auto|right; lia].
      + cbn [List.length]. intros H. apply A9. rewrite Ec4. lia.
      + rewrite A10. exact Ec4.
      + unfold h5. rewrite (append_rcap grow h4 root r t1 Lr4 Kr4 Nr). unfold cells. rewrite D11 by auto. reflexivity.
    - apply A8; auto; congruence.
    - rewrite <- D4. unfold kids, cells. rewrite Fp; [reflexivity|]. apply in_or_app. left. rewrite foot_eq. right. left. auto.
    - rewrite E2, E5. split; [auto|]. split; [auto|]. split.
      + intros H. destruct A5 as [A5|A5].
        * rewrite A5 in H. destruct (D9 _ H) as [H'|H']; [auto|lia].
        * rewrite A5 in H. assert (List.length h4 < List.length h4); [|lia]. apply in_app_or in H. destruct H as [H|H]; [exact (foot_bound _ _ _ D2 _ H)|exact (foot_bound _ _ _ D5 _ H)].
      + intros a Ha. rewrite <- D13 by auto. assert (Hb : a < List.length h /\ In a (foot h e x)).
        { assert (Hin : In a (foot h e x)).
          { rewrite foot_eq, Ec, Ex, foots_app by auto. cbn [foots]. right. right. apply in_or_app. rewrite !in_app_iff in Ha.
            destruct Ha as [Ha|[Ha|Ha]]; [left; auto|right; apply in_or_app; right; auto|right; apply in_or_app; left; rewrite foot_eq; right; auto]. }
          split; [exact (foot_bound e h x R a Hin)|auto]. }
        apply A7; [lia| |]; intros ->; tauto.
  Qed.

  (* ---------- whole subtrees ---------- *)
  Hypothesis Hg : forall t l v, type_el t = true -> g (set_attr t "" l v) = g t.
  Hypothesis Hstep : forall h s e p x r, good h e p x -> load h root = Some r -> kids_ok h r -> fst root <> n_arr r ->
    ~ In (fst root) (foot h e x) -> ~ In (n_arr r) (foot h e x) -> fst p <> fst root -> (fst p = n_arr r -> snd p < n_len r) -> g e = true -> hit_ok g e ->
    step (h, s) p = match dec e s with
                    | (None, s') => (h, s')
                    | (Some (tas, (u, q)), s') => (hoist p (anon_index (e_children e)) tas u q h, s')
                    end.
  Fixpoint kid_items (b : bool) (a : nat) (ks : list elem) (xs : list node) (i : nat) : list item :=
    match ks, xs with k :: ks', x :: xs' => mkItem b (a, i) k x :: kid_items b a ks' xs' (S i) | _, _ => [] end.
  Lemma kid_items_hits h b a ks : forall xs i, flat_map (fun it => hits g h (i_el it) (i_ptr it) (i_node it)) (kid_items b a ks xs i) = hits_kids g h a ks xs i.
  Proof. induction ks as [|k ks IH]; intros [|x xs] i; cbn [kid_items flat_map hits_kids]; auto. rewrite IH. reflexivity. Qed.
  Lemma kid_items_maps b a ks : forall xs i, List.length ks = List.length xs -> map i_el (kid_items b a ks xs i) = ks /\ map i_node (kid_items b a ks xs i) = xs.
  Proof. induction ks as [|k ks IH]; intros [|x xs] i H; try discriminate; cbn [kid_items map i_el i_node]; auto. destruct (IH xs (S i)) as [-> ->]; [cbn in H; lia|auto]. Qed.
  Lemma kid_items_locs a ks : forall xs i q, In q (locs (kid_items true a ks xs i)) -> fst q = a /\ i <= snd q < i + List.length ks.
  Proof.
    induction ks as [|k ks IH]; intros [|x xs] i q H; cbn [kid_items] in H; try contradiction. rewrite locs_cons in H. apply in_app_or in H. cbn [List.length]. destruct H as [[<- |[]]|H].
    - cbn. lia.
    - apply IH in H. lia.
  Qed.
  Lemma kid_items_nodup a ks : forall xs i, NoDup (locs (kid_items true a ks xs i)).
  Proof.
    induction ks as [|k ks IH]; intros [|x xs] i; cbn [kid_items]; try constructor.
    - intros H. apply kid_items_locs in H. cbn in H. lia.
    - apply IH.
  Qed.
  Lemma kid_items_none a ks : forall xs i, locs (kid_items false a ks xs i) = [].
  Proof. induction ks as [|k ks IH]; intros [|x xs] i; cbn [kid_items]; auto. rewrite locs_cons, IH. reflexivity. Qed.
  Lemma kid_items_place h a ks : forall xs i, (forall j, j < List.length xs -> load h (a, i + j) = nth_error xs j) -> Forall (fun it => at_place h it (i_node it)) (kid_items true a ks xs i).
  Proof.
    induction ks as [|k ks IH]; intros [|x xs] i H; cbn [kid_items]; constructor.
    - unfold at_place. cbn [i_in i_ptr i_node]. specialize (H 0). rewrite Nat.add_0_r in H. apply H. cbn. lia.
    - apply IH. intros j Hj. specialize (H (S j)). rewrite Nat.add_succ_r in H. apply H. cbn. lia.
  Qed.
  Lemma kid_items_placed h a ks : forall xs i xs', List.length ks = List.length xs -> Forall2 (at_place h) (kid_items true a ks xs i) xs' ->
    List.length xs' = List.length xs /\ forall j, j < List.length xs' -> load h (a, i + j) = nth_error xs' j.
  Proof.
    induction ks as [|k ks IH]; intros [|x xs] i xs' Hl H; try discriminate; cbn [kid_items] in H; inversion H as [|? x' ? ys Hx H']; subst.
    - split; auto. intros j Hj. cbn in Hj. lia.
    - destruct (IH xs (S i) ys) as [I1 I2]; [cbn in Hl; lia|auto|]. split; [cbn; lia|]. intros [|j] Hj; cbn [nth_error].
      + rewrite Nat.add_0_r. exact Hx.
      + rewrite Nat.add_succ_r. apply I2. cbn in Hj. lia.
  Qed.
  Lemma kid_items_same h a ks : forall xs i xs', List.length ks = List.length xs -> Forall2 (at_place h) (kid_items false a ks xs i) xs' -> xs' = xs.
  Proof.
    induction ks as [|k ks IH]; intros [|x xs] i xs' Hl H; try discriminate; cbn [kid_items] in H; inversion H as [|? x' ? ys Hx H']; subst; auto.
    f_equal; [exact Hx|]. eapply IH; [|exact H']. cbn in Hl. lia.
  Qed.
  Definition kid_ok (h0 : heap) (k : elem) : Prop := forall p x b, rep h0 k x -> NoDup (foot h0 k x) -> (b = false -> g k = false) -> processed h0 (mkItem b p k x).
  Lemma kids_processed h0 b a ks : (forall k, In k ks -> kid_ok h0 k) -> (b = false -> forall k, In k ks -> g k = false) -> forall xs i, Forall2 (rep h0) ks xs -> NoDup (foots h0 ks xs) ->
    Forall (processed h0) (kid_items b a ks xs i).
  Proof.
    induction ks as [|k ks IH]; intros H Hb xs i R N; inversion R as [|? x ? ys R1 R2]; subst; cbn [kid_items]; constructor; cbn [foots] in N; apply nodup_app_inv in N.
    - apply H; [left; auto|auto|tauto|]. intros E. apply Hb; [auto|left; auto].
    - apply IH; auto; [intros k' Hk'; apply H; right; auto|intros E k' Hk'; apply Hb; [auto|right; auto]|tauto].
  Qed.
  Lemma locs_app l m : locs (l ++ m)%list = (locs l ++ locs m)%list.
  Proof. unfold locs. rewrite filter_app, map_app. reflexivity. Qed.

  Lemma node_ok h0 e x : rep h0 e x -> NoDup (foot h0 e x) -> (forall k, In k (e_children e) -> kid_ok h0 k) ->
    forall h s r loc, (forall a, In a (foot h0 e x) -> nth_error h a = nth_error h0 a) -> safe h r (foot h0 e x) loc ->
    let '(ks', ts, s') := hoist_list (e_children e) s in
    exists h' r', each step (h, s) (hits_kids g h0 (n_arr x) (e_children e) (kids h0 x) 0) = (h', s') /\
      outcome h h' r r' (foot h0 e x) loc [with_children e ks'] [x] ts /\ forall q z, In q loc -> load h q = Some z -> load h' q = Some z.
  Proof.
    intros R N IH h s r loc F Sf. pose proof R as R'. apply rep_eq in R'. destruct R' as (_ & _ & _ & R4 & R5 & R6).
    pose proof (rep_frame e h0 h x R F) as [Rh Efh]. pose proof Rh as Rh'. apply rep_eq in Rh'. destruct Rh' as (_ & _ & _ & Ah & Kh & Bh).
    pose proof N as N'. rewrite foot_eq in N', F, Sf. apply NoDup_cons_iff in N'. destruct N' as [N1 N']. apply NoDup_cons_iff in N'. destruct N' as [N2 N3].
    assert (Ekh : kids h x = kids h0 x). { unfold kids, cells. rewrite F by (right; left; auto). reflexivity. }
    set (its := kid_items true (n_arr x) (e_children e) (kids h0 x) 0).
    destruct (kid_items_maps true (n_arr x) (e_children e) (kids h0 x) 0) as [M1 M2]; [eapply Forall2_len; exact R6|]. fold its in M1, M2.
    destruct Sf as (S1 & S2 & S3 & S4 & S5 & S6). cbn [In] in S4, S5.
    pose proof (processed_all h0 its) as Q. rewrite M1, M2 in Q. specialize (Q (kids_processed h0 true (n_arr x) _ IH (fun E => match Bool.diff_true_false E with end) _ 0 R6 N3) h s r N3 R6).
    assert (Br : fst root < List.length h) by (eapply load_bound; eauto). assert (Ba : n_arr r < List.length h). { destruct S2 as (lc & K1 & _). apply nth_error_Some. congruence. }
    assert (Bx : n_arr x < List.length h). { destruct Kh as (lc & K1 & _). apply nth_error_Some. congruence. }
    assert (Q' : let '(ks', ts, s') := hoist_list (e_children e) s in exists (h' : heap) (r' : node) (xs' : list node),
      each step (h, s) (flat_map (fun it : item => hits g h0 (i_el it) (i_ptr it) (i_node it)) its) = (h', s') /\
      outcome h h' r r' (foots h0 (e_children e) (kids h0 x)) (locs its) ks' xs' ts /\ Forall2 (at_place h') its xs').
    { apply Q.
      - intros a Ha. apply F. right. right. auto.
      - apply kid_items_place. intros j Hj. rewrite <- Ekh in *. exact (kids_loaded h e x Rh j Hj).
      - apply kid_items_nodup.
      - intros q Hq. apply kid_items_locs in Hq. destruct Hq as [-> _]. exact Bx.
      - split; [auto|]. split; [auto|]. split; [auto|]. split; [tauto|]. split; [tauto|]. intros q Hq. apply kid_items_locs in Hq. destruct Hq as [-> _]. split; [intros E; tauto|]. split; [intros E; tauto|auto]. }
    clear Q. destruct (hoist_list (e_children e) s) as [[ks' ts] s']. destruct Q' as (h' & r' & xs' & Q1 & (tn & X1 & X2 & X3 & X4 & X5 & X6) & Q3).
    unfold its in Q1. rewrite kid_items_hits in Q1. destruct (kid_items_placed h' (n_arr x) (e_children e) (kids h0 x) 0 xs') as [P1 P2]; [eapply Forall2_len; exact R6|exact Q3|].
    assert (Nat' : nth_error h' (n_at x) = nth_error h (n_at x)).
    { apply (x_arr _ _ _ _ _ _ _ _ _ X1).
      - destruct Ah as (la & E & _). apply nth_error_Some. congruence.
      - intros H. apply N1. right. auto.
      - intros H. apply in_map_iff in H. destruct H as (q & E & Hq). apply kid_items_locs in Hq. destruct Hq as [Hq _]. apply N1. left. congruence.
      - intros E. apply S4. left. auto.
      - intros E. apply S5. left. auto. }
    assert (Lc : forall q z, In q loc -> load h q = Some z -> load h' q = Some z).
    { intros q z Hq Lq. destruct (S6 q Hq) as (A & B & C). cbn [In] in C. apply (x_load _ _ _ _ _ _ _ _ _ X1); [exact Lq|tauto| |congruence|congruence].
      intros H. apply kid_items_locs in H. destruct H as [H _]. apply C. right. left. auto. }
    destruct (kids_assemble h e x h' ks' xs' Rh) as (K1 & K2 & K3); auto.
    { destruct Ah as (la & A1 & A2 & A3). exists la. rewrite Nat'. auto. }
    { assert (Hlen : List.length (kids h0 x) = n_len x) by (rewrite <- Ekh; apply kids_length; exact Kh).
      (* the array is still there: its cells are *)
      destruct Kh as (lc & C1 & C2). destruct (nth_error h' (n_arr x)) as [[l'|l']|] eqn:E'.
      - exists l'. split; [auto|]. destruct (le_lt_dec (n_len x) (List.length l')) as [H|H]; [auto|exfalso].
        assert (Hj : n_len x - 1 < List.length xs') by lia. specialize (P2 _ Hj). unfold load, cells in P2. cbn [fst snd Nat.add] in P2. rewrite E' in P2.
        assert (E1 : nth_error l' (n_len x - 1) = None) by (apply nth_error_None; lia). rewrite E1 in P2. symmetry in P2. apply nth_error_None in P2. lia.
      - exfalso. destruct (n_len x) as [|n] eqn:En; [|assert (Hj : 0 < List.length xs') by lia; specialize (P2 _ Hj); unfold load, cells in P2; cbn [fst snd Nat.add] in P2; rewrite E' in P2; destruct xs' as [|x0 xs0]; [cbn in Hj; lia|discriminate P2]].
        assert (Ek0 : e_children e = []) by (pose proof (rep_len _ _ _ R) as Hr; rewrite En in Hr; destruct (e_children e); [reflexivity|discriminate Hr]).
        assert (Ei : its = []) by (unfold its; rewrite Ek0; reflexivity). rewrite Ei in X1.
        rewrite (x_arr _ _ _ _ _ _ _ _ _ X1) in E'; [congruence|auto| |intros []|intros E; apply S4; right; left; auto|intros E; apply S5; right; left; auto]. rewrite Ek0. intros [].
      - exfalso. apply nth_error_None in E'. pose proof (x_len _ _ _ _ _ _ _ _ _ X1). lia. }
    { rewrite P1. rewrite <- Ekh. apply kids_length. exact Kh. }
    exists h', r'. split; [exact Q1|]. split; [|exact Lc]. exists tn. cbn [foots]. rewrite app_nil_r, K3. split; [|split; [constructor; [exact K1|constructor]|split; [exact X3|]]].
    - eapply ext_weaken; [exact X1| |].
      + intros a Ha. rewrite foot_eq. right. right. auto.
      + intros q Hq. right. apply kid_items_locs in Hq. destruct Hq as [-> _]. rewrite foot_eq. right. left. auto.
    - assert (D : forall a, In a (foots h' ks' xs' ++ foots h' ts tn)%list -> n_at x <> a /\ n_arr x <> a).
      { intros a Ha. destruct (X5 a Ha) as [H|H].
        - split; intros <-; [apply N1; right; auto|auto].
        - split; [|lia]. destruct Ah as (la & E & _). assert (n_at x < List.length h) by (apply nth_error_Some; congruence). lia. }
      split; [|split].
      + cbn [app]. constructor; [|constructor; auto].
        * intros [H|H]; [apply N1; left; auto|]. apply D in H. tauto.
        * intros H. apply D in H. tauto.
      + cbn [app]. intros a Ha. rewrite foot_eq. cbn [In]. destruct Ha as [Ha|[Ha|Ha]]; [auto|auto|]. destruct (X5 a Ha); auto.
      + cbn [app]. pose proof (x_where _ _ _ _ _ _ _ _ _ X1) as W. intros [H|[H|H]]; [| |auto].
        * destruct W as [W|W]; [apply S5; left; congruence|]. destruct Ah as (la & E & _). assert (n_at x < List.length h) by (apply nth_error_Some; congruence). lia.
        * destruct W as [W|W]; [apply S5; right; left; congruence|lia].
  Qed.

  Lemma hits_kids_frame h h' a ks : forall xs i, (forall c, In c (foots h ks xs) -> nth_error h' c = nth_error h c) -> hits_kids g h' a ks xs i = hits_kids g h a ks xs i.
  Proof.
    induction ks as [|k ks IH]; intros [|x xs] i F; cbn [hits_kids foots] in *; auto. f_equal; [apply hits_frame; intros c Hc; apply F, in_or_app; auto|apply IH; intros c Hc; apply F, in_or_app; auto].
  Qed.
  Lemma hits_kids_app h a ks1 ks2 : forall xs1 xs2 i, List.length ks1 = List.length xs1 ->
    hits_kids g h a (ks1 ++ ks2)%list (xs1 ++ xs2)%list i = (hits_kids g h a ks1 xs1 i ++ hits_kids g h a ks2 xs2 (i + List.length ks1))%list.
  Proof.
    induction ks1 as [|k ks1 IH]; intros [|x xs1] xs2 i H; try discriminate; cbn [app hits_kids List.length].
    - rewrite Nat.add_0_r. reflexivity.
    - rewrite IH, <- app_assoc by (cbn in H; lia). do 3 f_equal. lia.
  Qed.
  Lemma set_all_g tas : forall t, type_el t = true -> g (set_all t tas) = g t.
  Proof using Hg.
    induction tas as [|a tas IH]; intros t H; cbn [set_all each]; auto. unfold set_all in IH. rewrite IH; [apply Hg; auto|]. unfold type_el in *. destruct t. exact H.
  Qed.
  Lemma hoist_named t tas s : anon_el t = true -> g t = false ->
    hoist_el (set_all t tas) s = let '(t', ts, s') := hoist_el t s in (set_all t' tas, ts, s').
  Proof using Hg.
    intros A G. unfold anon_el in A. apply andb_true_iff in A. destruct A as [A _]. rewrite !hoist_el_eq, set_all_g, G by auto. rewrite set_all_kids.
    destruct (hoist_list (e_children t) s) as [[ks' ts] s']. rewrite set_all_with. reflexivity.
  Qed.
  Lemma locs_all_in its q : In q (locs its) -> exists it, In it its /\ i_ptr it = q.
  Proof. unfold locs. rewrite in_map_iff. intros (it & E & H). apply filter_In in H. exists it. tauto. Qed.

  Lemma rest_ok h h5 e e' x x' p r5 ks1 t ks2 xs1 y xs2 t1 tas u q :
    e_children e = (ks1 ++ t :: ks2)%list -> kids h x = (xs1 ++ y :: xs2)%list -> List.length xs1 = List.length ks1 -> Forall2 (rep h) ks1 xs1 -> Forall2 (rep h) ks2 xs2 ->
    anon_el t = true -> g t = false -> Forall (fun k => g k = false) ks2 ->
    e' = detached e u q (ks1 ++ ks2)%list -> load h5 p = Some x' -> rep h5 e' x' -> n_arr x' = n_arr x -> kids h5 x' = (xs1 ++ xs2)%list ->
    rep h5 (set_all t tas) t1 -> n_arr t1 = n_arr y -> n_len t1 = n_len y -> NoDup (foot h5 e' x' ++ foot h5 (set_all t tas) t1)%list ->
    (forall a, In a (foots h ks1 xs1 ++ foots h ks2 xs2 ++ n_arr y :: foots h (e_children t) (kids h y))%list -> nth_error h5 a = nth_error h a) ->
    (forall k, In k ks1 \/ In k ks2 -> kid_ok h5 k) -> (forall k, In k (e_children t) -> kid_ok h5 k) ->
    safe h5 r5 (foot h5 e' x' ++ foot h5 (set_all t tas) t1)%list [] -> ~ In (fst p) (foot h5 e' x' ++ foot h5 (set_all t tas) t1)%list -> fst p <> fst root -> (fst p = n_arr r5 -> snd p < n_len r5) ->
    forall s, let '(ks', ts, s') := hoist_list (e_children e) s in
    exists h' r' tn, each step (h5, s) (hits_kids g h (n_arr x) (e_children e) (kids h x) 0) = (h', s') /\
      ext h5 h' root r5 r' (kids h5 r5) tn (foot h5 e' x' ++ foot h5 (set_all t tas) t1)%list [] /\
      (exists ka kt kb, ks' = (ka ++ kt :: kb)%list /\ List.length ka = List.length ks1 /\
        let e2 := detached e u q (ka ++ kb)%list in let t2 := set_all kt tas in
        rep h' e2 x' /\ rep h' t2 t1 /\ Forall2 (rep h') ts tn /\ NoDup (foot h' e2 x' ++ foot h' t2 t1 ++ foots h' ts tn)%list /\
        grown h5 (foot h' e2 x' ++ foot h' t2 t1 ++ foots h' ts tn)%list (foot h5 e' x' ++ foot h5 (set_all t tas) t1)%list /\
        ~ In (n_arr r') (foot h' e2 x' ++ foot h' t2 t1 ++ foots h' ts tn)%list) /\
      load h' p = Some x'.
  Proof using Hg Hstep St agrow dec g grow root step.
    intros Ec Ex Hl B1 B2 An Gt G2 -> Lp Rx Xa Xk Rt Ta Tl N F5 IHk IHt Sf Np Npr Hpr s.
    set (e' := detached e u q (ks1 ++ ks2)%list) in *. set (t' := set_all t tas) in *.
    assert (Ec' : e_children e' = (ks1 ++ ks2)%list) by reflexivity. assert (Ect : e_children t' = e_children t) by apply set_all_kids.
    apply nodup_app_inv in N. destruct N as (N1 & N2 & N3). pose proof N1 as N1'. rewrite foot_eq, Xa, Xk, Ec', foots_app in N1' by auto.
    apply NoDup_cons_iff in N1'. destruct N1' as [M1 N1']. apply NoDup_cons_iff in N1'. destruct N1' as [M2 M3]. apply nodup_app_inv in M3. destruct M3 as (M3 & M4 & M5).
    assert (Efx : foot h5 e' x' = n_at x' :: n_arr x :: (foots h5 ks1 xs1 ++ foots h5 ks2 xs2)%list) by (rewrite foot_eq, Xa, Xk, Ec', foots_app by auto; reflexivity).
    pose proof Rx as Rx'. apply rep_eq in Rx'. destruct Rx' as (_ & _ & _ & Ax & Kx & Bx). rewrite Ec', Xk in Bx. apply Forall2_app_inv_l in Bx. destruct Bx as (xa & xb & C1 & C2 & Ex2).
    assert (Exa : xs1 = xa /\ xs2 = xb).
    { pose proof (Forall2_len _ _ _ C1) as El. rewrite <- Hl in El. clear -Ex2 El. revert xs1 Ex2 El. induction xa as [|z xa IH]; intros [|z' xs1] E El; try discriminate; cbn [app] in E; auto. injection E as -> E. cbn in El. destruct (IH xs1 E) as [-> ->]; auto. }
    destruct Exa as [<- <-]. clear Ex2.
    set (i := List.length ks1). set (itt := mkItem false (n_arr x, i) t' t1).
    set (its := (kid_items true (n_arr x) ks1 xs1 0 ++ itt :: kid_items false (n_arr x) ks2 xs2 (S i))%list).
    destruct (kid_items_maps true (n_arr x) ks1 xs1 0) as [I1 I2]; [auto|]. destruct (kid_items_maps false (n_arr x) ks2 xs2 (S i)) as [I3 I4]; [eapply Forall2_len; exact C2|].
    assert (Ie : map i_el its = (ks1 ++ t' :: ks2)%list) by (unfold its; rewrite map_app; cbn [map]; rewrite I1, I3; reflexivity).
    assert (In' : map i_node its = (xs1 ++ t1 :: xs2)%list) by (unfold its; rewrite map_app; cbn [map]; rewrite I2, I4; reflexivity).
    assert (Il : locs its = locs (kid_items true (n_arr x) ks1 xs1 0)) by (unfold its; rewrite locs_app, locs_cons, kid_items_none, app_nil_r; reflexivity).
    assert (Eff : foots h5 (ks1 ++ t' :: ks2)%list (xs1 ++ t1 :: xs2)%list = (foots h5 ks1 xs1 ++ foot h5 t' t1 ++ foots h5 ks2 xs2)%list) by (rewrite foots_app by auto; reflexivity).
    destruct Sf as (S1 & S2 & S3 & S4 & S5 & _). rewrite in_app_iff, Efx in S4, S5, Np. cbn [In] in S4, S5, Np. rewrite in_app_iff in S4, S5, Np.
    assert (D1 : forall a, In a (foots h5 ks1 xs1) \/ In a (foots h5 ks2 xs2) -> ~ In a (foot h5 t' t1)). { intros a Ha. apply N3. rewrite Efx. right. right. apply in_or_app. exact Ha. }
    assert (Nall : NoDup (foots h5 (ks1 ++ t' :: ks2)%list (xs1 ++ t1 :: xs2)%list)).
    { rewrite Eff. apply nodup_app; auto.
      - apply nodup_app; auto. intros a Ha Hb. exact (D1 a (or_intror Hb) Ha).
      - intros a Ha Hb. apply in_app_or in Hb. destruct Hb as [Hb|Hb]; [exact (D1 a (or_introl Ha) Hb)|exact (M5 a Ha Hb)]. }
    assert (Pit : processed h5 itt).
    { unfold itt, processed. cbn [i_el i_node i_ptr]. intros h6 s6 r6 F6 _ Sf6. pose proof (node_ok h5 t' t1 Rt N2) as Q. rewrite Ect in Q. specialize (Q IHt h6 s6 r6 (locs [mkItem false (n_arr x, i) t' t1]) F6 Sf6).
      rewrite hoist_el_eq. assert (Gt' : g t' = false). { unfold t'. rewrite set_all_g; auto. unfold anon_el in An. apply andb_true_iff in An. tauto. }
      rewrite Gt', Ect. destruct (hoist_list (e_children t) s6) as [[ks' ts] s']. destruct Q as (h' & r' & Q1 & Q2 & _). exists h', r', t1.
      split; [|split; [exact Q2|reflexivity]]. rewrite hits_eq, Gt', Ect. exact Q1. }
    assert (Pall : Forall (processed h5) its).
    { unfold its. apply Forall_app. split; [apply kids_processed; auto; discriminate|]. constructor; [exact Pit|].
      apply kids_processed; auto. intros _ k Hk. rewrite Forall_forall in G2. apply G2. exact Hk. }
    assert (Bn : n_arr x < List.length h5). { destruct Kx as (lc & K1 & _). rewrite <- Xa. apply nth_error_Some. congruence. }
    assert (Ln0 : List.length xs1 <= n_len x'). { rewrite <- (kids_length h5 x' Kx), Xk, app_length. lia. }
    assert (Cell : forall j, j < n_len x' -> load h5 (n_arr x, j) = nth_error (xs1 ++ xs2)%list j). { intros j Hj. rewrite <- Xk, <- Xa. eapply load_kid; eauto. }
    pose proof (processed_all h5 its Pall h5 s r5) as Q. rewrite Ie, In' in Q. specialize (Q Nall).
    assert (Q' : let '(ks', ts, s') := hoist_list (ks1 ++ t' :: ks2)%list s in exists (h' : heap) (r' : node) (xs' : list node),
      each step (h5, s) (flat_map (fun it : item => hits g h5 (i_el it) (i_ptr it) (i_node it)) its) = (h', s') /\
      outcome h5 h' r5 r' (foots h5 (ks1 ++ t' :: ks2)%list (xs1 ++ t1 :: xs2)%list) (locs its) ks' xs' ts /\ Forall2 (at_place h') its xs').
    { apply Q; auto.
      - apply Forall2_app; [auto|constructor; auto].
      - unfold its. apply Forall_app. split; [|constructor; [reflexivity|]].
        + apply kid_items_place. intros j Hj. cbn [Nat.add]. rewrite Cell by lia. apply nth_error_app1. auto.
        + clear. revert xs2. generalize (S i). induction ks2 as [|k ks IH]; intros n [|z zs]; cbn [kid_items]; constructor; [reflexivity|apply IH].
      - rewrite Il. apply kid_items_nodup.
      - rewrite Il. intros z Hz. apply kid_items_locs in Hz. destruct Hz as [-> _]. exact Bn.
      - rewrite Eff, Il. split; [auto|]. split; [auto|]. split; [auto|]. rewrite !in_app_iff. split; [tauto|]. split; [tauto|].
        intros z Hz. apply kid_items_locs in Hz. destruct Hz as [-> _]. split; [tauto|]. split; [tauto|]. rewrite !in_app_iff. intros [H|[H|H]]; [apply M2, in_or_app; auto| |apply M2, in_or_app; auto].
        apply (N3 (n_arr x)); [rewrite Efx; right; left; auto|auto]. }
    clear Q.
    (* the same pointers as before *)
    assert (Eh : flat_map (fun it : item => hits g h5 (i_el it) (i_ptr it) (i_node it)) its = hits_kids g h (n_arr x) (e_children e) (kids h x) 0).
    { unfold its. rewrite flat_map_app. cbn [flat_map]. rewrite !kid_items_hits, Ec, Ex, hits_kids_app by auto. cbn [hits_kids Nat.add]. fold i. f_equal; [|f_equal].
      - apply hits_kids_frame. intros a Ha. apply F5. apply in_or_app. auto.
      - unfold itt. cbn [i_el i_ptr i_node]. rewrite !hits_eq. assert (Gt' : g t' = false). { unfold t'. rewrite set_all_g; auto. unfold anon_el in An. apply andb_true_iff in An. tauto. }
        rewrite Gt', Gt, Ect, Ta. cbn [app].
        assert (Ekt : kids h5 t1 = kids h y). { unfold kids, cells. rewrite Ta, Tl, F5; [reflexivity|]. apply in_or_app. right. apply in_or_app. right. left. auto. }
        rewrite Ekt. apply hits_kids_frame. intros a Ha. apply F5. apply in_or_app. right. apply in_or_app. right. right. auto.
      - apply hits_kids_frame. intros a Ha. apply F5. apply in_or_app. right. apply in_or_app. auto. }
    rewrite Eh in Q'. clear Eh.
    (* the same walk *)
    rewrite Ec. assert (Ew : hoist_list (ks1 ++ t' :: ks2)%list s = let '(ka, t1', s1) := hoist_list ks1 s in let '(kt, t2', s2) := hoist_el t s1 in let '(kb, t3', s3) := hoist_list ks2 s2 in ((ka ++ set_all kt tas :: kb)%list, (t1' ++ t2' ++ t3')%list, s3)).
    { rewrite hoist_list_app. destruct (hoist_list ks1 s) as [[ka t1'] s1]. cbn [NormHoistSpec.hoist_list]. unfold t'. rewrite hoist_named by auto. destruct (hoist_el t s1) as [[kt t2'] s2]. destruct (hoist_list ks2 s2) as [[kb t3'] s3]. reflexivity. }
    assert (Ew2 : hoist_list (ks1 ++ t :: ks2)%list s = let '(ka, t1', s1) := hoist_list ks1 s in let '(kt, t2', s2) := hoist_el t s1 in let '(kb, t3', s3) := hoist_list ks2 s2 in ((ka ++ kt :: kb)%list, (t1' ++ t2' ++ t3')%list, s3)).
    { rewrite hoist_list_app. destruct (hoist_list ks1 s) as [[ka t1'] s1]. cbn [NormHoistSpec.hoist_list]. destruct (hoist_el t s1) as [[kt t2'] s2]. destruct (hoist_list ks2 s2) as [[kb t3'] s3]. reflexivity. }
    rewrite Ew in Q'. rewrite Ew2. clear Ew Ew2. pose proof (hoist_list_length St g dec ks1 s) as La. destruct (hoist_list ks1 s) as [[ka t1'] s1]. cbn [fst] in La. destruct (hoist_el t s1) as [[kt t2'] s2].
    pose proof (hoist_list_length St g dec ks2 s2) as Lb. destruct (hoist_list ks2 s2) as [[kb t3'] s3]. cbn [fst] in Lb. set (ts := (t1' ++ t2' ++ t3')%list) in *.
    destruct Q' as (h' & r' & xs' & Q1 & (tn & X1 & X2 & X3 & X4 & X5 & X6) & Q3). rewrite Ex. rewrite Ec, Ex in Q1. exists h', r', tn. split; [exact Q1|]. rewrite Il in X1. rewrite Eff in X1, X5.
    (* the new cells *)
    unfold its in Q3. apply Forall2_app_inv_l in Q3. destruct Q3 as (xa & xb & P1 & P2 & ->). inversion P2 as [|? z ? xc Hz P3]; subst. unfold at_place in Hz. cbn [i_in itt] in Hz. cbn [i_node itt] in Hz. subst z.
    apply kid_items_same in P3; [|eapply Forall2_len; exact C2]. subst xc. apply kid_items_placed in P1; [|auto]. destruct P1 as [P0 P1]. cbn [Nat.add] in P1.
    apply Forall2_app_inv_l in X2. destruct X2 as (xa' & xb' & Y1 & Y2 & Ey). inversion Y2 as [|? z ? xc Y3 Y4]; subst.
    assert (Exx : xa = xa' /\ t1 = z /\ xs2 = xc).
    { pose proof (Forall2_len _ _ _ Y1) as El. assert (El2 : List.length xa = List.length xa') by lia. clear -Ey El2. revert xa' Ey El2. induction xa as [|w xa IH]; intros [|w' xa'] E El; try discriminate; cbn [app] in E; [injection E; auto|]. injection E as -> E. cbn in El. destruct (IH xa' E) as (-> & -> & ->); auto. }
    destruct Exx as (<- & <- & <-). clear Ey Y2.
    assert (Wh := x_where _ _ _ _ _ _ _ _ _ X1).
    assert (Bfp : forall a, In a (foots h5 ks1 xs1 ++ foot h5 t' t1 ++ foots h5 ks2 xs2)%list -> n_at x' <> a /\ n_arr x <> a).
    { intros a Ha. rewrite !in_app_iff in Ha. split; intros <-.
      - destruct Ha as [Ha|[Ha|Ha]]; [apply M1; right; apply in_or_app; auto| |apply M1; right; apply in_or_app; auto]. apply (N3 (n_at x')); [rewrite Efx; left; auto|auto].
      - destruct Ha as [Ha|[Ha|Ha]]; [apply M2, in_or_app; auto| |apply M2, in_or_app; auto]. apply (N3 (n_arr x)); [rewrite Efx; right; left; auto|auto]. }
    assert (Bat : n_at x' < List.length h5). { destruct Ax as (la & E & _). apply nth_error_Some. congruence. }
    assert (Eat : nth_error h' (n_at x') = nth_error h5 (n_at x')).
    { apply (x_arr _ _ _ _ _ _ _ _ _ X1); [exact Bat| | | |].
      - intros H. destruct (Bfp _ H). auto.
      - intros H. apply in_map_iff in H. destruct H as (w & E & Hw). apply kid_items_locs in Hw. destruct Hw as [Hw _]. apply M1. left. congruence.
      - intros E. apply S4. left. left. auto.
      - intros E. apply S5. left. left. auto. }
    assert (Cell' : forall j, j < List.length (xa ++ xs2)%list -> load h' (n_arr x', 0 + j) = nth_error (xa ++ xs2)%list j).
    { intros j Hj. rewrite Xa. cbn [Nat.add]. rewrite app_length, P0 in Hj. destruct (le_lt_dec (List.length xa) j) as [H|H].
      - rewrite nth_error_app2 by lia. assert (Hn : n_len x' = List.length xs1 + List.length xs2) by (rewrite <- (kids_length h5 x' Kx), Xk, app_length; auto).
        destruct (nth_error xs2 (j - List.length xa)) as [w|] eqn:Ew; [|apply nth_error_None in Ew; lia].
        apply (x_load _ _ _ _ _ _ _ _ _ X1).
        + rewrite Cell by lia. rewrite nth_error_app2 by lia. rewrite <- P0. exact Ew.
        + cbn [fst]. intros H'. destruct (Bfp _ H'). auto.
        + intros H'. apply kid_items_locs in H'. cbn [snd] in H'. lia.
        + intros E. apply S4. left. right. left. rewrite <- E. reflexivity.
        + cbn [fst]. intros E. exfalso. apply S5. left. right. left. auto.
      - rewrite nth_error_app1 by auto. apply P1. auto. }
    destruct (kids_assemble h5 e' x' h' (ka ++ kb)%list (xa ++ xs2)%list Rx) as (K1 & K2 & K3); auto.
    { destruct Ax as (la & A1 & A2 & A3). exists la. rewrite Eat. auto. }
    { assert (Hn : n_len x' = List.length (xa ++ xs2)%list) by (rewrite <- (kids_length h5 x' Kx), Xk, !app_length; lia).
      destruct (nth_error h' (n_arr x')) as [[l'|l']|] eqn:E'.
      - exists l'. split; [auto|]. destruct (le_lt_dec (n_len x') (List.length l')) as [H|H]; [auto|exfalso].
        assert (Hj : n_len x' - 1 < List.length (xa ++ xs2)%list) by lia. specialize (Cell' _ Hj). unfold load, cells in Cell'. cbn [fst snd Nat.add] in Cell'. rewrite E' in Cell'.
        assert (E1 : nth_error l' (n_len x' - 1) = None) by (apply nth_error_None; lia). rewrite E1 in Cell'. symmetry in Cell'. apply nth_error_None in Cell'. lia.
      - exfalso. destruct (xa ++ xs2)%list as [|w l0] eqn:El.
        + assert (Ek0 : ks1 = []). { destruct xs1 as [|z1 xs1']; [|destruct xa; [discriminate P0|discriminate El]]. destruct ks1; [auto|discriminate Hl]. }
          rewrite Ek0 in X1. destruct Kx as (lc & KK & _). rewrite Xa in *. rewrite (x_arr _ _ _ _ _ _ _ _ _ X1) in E'; [congruence|auto| |intros []|intros E; apply S4; tauto|intros E; apply S5; tauto].
          intros H. rewrite Ek0 in Bfp. destruct (Bfp _ H). auto.
        + specialize (Cell' 0). cbn [List.length] in Cell'. specialize (Cell' (Nat.lt_0_succ _)). unfold load, cells in Cell'. cbn [fst snd Nat.add] in Cell'. rewrite E' in Cell'. discriminate Cell'.
      - exfalso. apply nth_error_None in E'. pose proof (x_len _ _ _ _ _ _ _ _ _ X1). rewrite Xa in E'. lia. }
    { rewrite <- (kids_length h5 x' Kx), Xk, !app_length. lia. }
    { apply Forall2_app; auto. }
    assert (Ed : with_children e' (ka ++ kb)%list = detached e u q (ka ++ kb)%list) by reflexivity. rewrite Ed in K1, K3.
    rewrite foots_app in X4, X5, X6 by (eapply Forall2_len; exact Y1). cbn [foots] in X4, X5, X6. rewrite foots_app in K3 by (eapply Forall2_len; exact Y1). rewrite Xa in K3.
    set (fa := foots h' ka xa) in *. set (fb := foots h' kb xs2) in *. set (ft := foot h' (set_all kt tas) t1) in *. set (fs := foots h' ts tn) in *.
    split; [|split].
    - eapply ext_weaken; [exact X1| |].
      + intros a Ha. rewrite Efx. rewrite !in_app_iff in *. cbn [In]. rewrite in_app_iff. tauto.
      + intros w Hw. right. apply kid_items_locs in Hw. destruct Hw as [-> _]. rewrite Efx. apply in_or_app. left. right. left. auto.
    - exists ka, kt, kb. split; [auto|]. split; [auto|]. cbn zeta. split; [exact K1|]. split; [exact Y3|]. split; [exact X3|]. rewrite K3. fold ft fs.
      assert (Gr : forall a, In a fa \/ In a fb \/ In a ft \/ In a fs -> n_at x' <> a /\ n_arr x <> a).
      { intros a Ha. destruct (X5 a) as [H|H]; [rewrite !in_app_iff; tauto|apply Bfp; auto|lia]. }
      split; [|split].
      + cbn [app]. constructor; [|constructor].
        * rewrite <- !app_assoc. cbn [In]. rewrite !in_app_iff. intros H. assert (H' : n_arr x = n_at x' \/ In (n_at x') fa \/ In (n_at x') fb \/ In (n_at x') ft \/ In (n_at x') fs) by tauto.
          destruct H' as [H'|H']; [apply M1; left; auto|]. apply Gr in H'. tauto.
        * rewrite !in_app_iff. intros H. assert (H' : In (n_arr x) fa \/ In (n_arr x) fb \/ In (n_arr x) ft \/ In (n_arr x) fs) by tauto. apply Gr in H'. tauto.
        * assert (Perm : Permutation ((fa ++ ft ++ fb) ++ fs)%list ((fa ++ fb) ++ ft ++ fs)%list). { rewrite <- !app_assoc. apply Permutation_app_head. apply Permutation_app_swap_app. }
          eapply Permutation_NoDup; [exact Perm|]. exact X4.
      + intros a Ha. cbn [app In] in Ha. rewrite Efx. cbn [app In]. rewrite !in_app_iff in *. destruct Ha as [Ha|[Ha|Ha]]; [tauto|tauto|]. destruct (X5 a) as [H|H]; [rewrite !in_app_iff; tauto| |auto]. rewrite !in_app_iff in H. tauto.
      + cbn [app In]. rewrite !in_app_iff. intros H. destruct H as [H|[H|H]].
        * destruct Wh as [Wh|Wh]; [apply S5; left; left; congruence|lia].
        * destruct Wh as [Wh|Wh]; [apply S5; left; right; left; congruence|lia].
        * apply X6. rewrite !in_app_iff. tauto.
    - apply (x_load _ _ _ _ _ _ _ _ _ X1); auto.
      + rewrite !in_app_iff. tauto.
      + intros H. apply kid_items_locs in H. destruct H as [H _]. apply Np. left. right. left. auto.
      + congruence.
  Qed.

  Lemma anon_index_app ks1 t ks2 : Forall (fun k => anon_el k = false) ks1 -> anon_el t = true -> anon_index (ks1 ++ t :: ks2)%list = List.length ks1.
  Proof. induction 1 as [|k ks H _ IH]; intros Ht; cbn [app anon_index List.length]; [rewrite Ht; auto|]. rewrite H, IH; auto. Qed.
  Lemma firstn_skipn_at {A} (ka : list A) kt kb : firstn (List.length ka) (ka ++ kt :: kb) = ka /\ skipn (S (List.length ka)) (ka ++ kt :: kb) = kb /\ firstn 1 (skipn (List.length ka) (ka ++ kt :: kb)) = [kt].
  Proof. induction ka as [|k ka (A1 & A2 & A3)]; [cbn; auto|]. cbn [List.length app firstn skipn] in *. split; [f_equal; auto|]. split; [exact A2|exact A3]. Qed.

  Lemma acted h0 e p x h s r tas u q s1 : rep h0 e x -> NoDup (foot h0 e x) -> (forall h1 k, In k (e_children e) -> kid_ok h1 k /\ forall k', In k' (e_children k) -> kid_ok h1 k') ->
    g e = true -> hit_ok g e -> dec e s = (Some (tas, (u, q)), s1) ->
    (forall a, In a (foot h0 e x) -> nth_error h a = nth_error h0 a) -> load h p = Some x -> safe h r (foot h0 e x) [] ->
    ~ In (fst p) (foot h0 e x) -> fst p <> fst root -> (fst p = n_arr r -> snd p < n_len r) ->
    let '(k', ts, s') := hoist_el e s in
    exists h' r' x' tn, each step (h, s) (hits g h0 e p x) = (h', s') /\ ext h h' root r r' (moved h r p x') tn (foot h0 e x) [p] /\
      rep h' k' x' /\ Forall2 (rep h') ts tn /\ NoDup (foot h' k' x' ++ foots h' ts tn)%list /\ grown h (foot h' k' x' ++ foots h' ts tn)%list (foot h0 e x) /\
      ~ In (n_arr r') (foot h' k' x' ++ foots h' ts tn)%list /\ load h' p = Some x'.
  Proof.
    intros R N IH Ge Ho Hd F L (S1 & S2 & S3 & S4 & S5 & _) Np Npr Hpr.
    assert (Ehf : hits g h e p x = hits g h0 e p x) by (apply hits_frame; exact F).
    pose proof (rep_frame e h0 h x R F) as [Rh Ef]. rewrite <- Ef in *.
    assert (G : good h e p x) by (split; [auto|split; [auto|split; [auto|auto]]]).
    pose proof Ho as (ks1 & t & ks2 & Ec & A1 & A2 & A3 & A4 & _).
    pose proof Rh as Rh'. apply rep_eq in Rh'. destruct Rh' as (_ & _ & _ & Ah & Kh & Bh). rewrite Ec in Bh. apply Forall2_app_inv_l in Bh. destruct Bh as (xs1 & xb & B1 & B2 & Ex). inversion B2 as [|? y ? xs2 By B3]; subst.
    assert (Hl : List.length xs1 = List.length ks1) by (symmetry; eapply Forall2_len; exact B1).
    destruct (hoist_ok h e p x r ks1 t ks2 xs1 y xs2 tas u q G Ec Ex Hl S1 S2 S3 S4 S5 Npr Hpr) as (x' & t1 & r5 & X1 & C1 & C2 & C3 & C4 & C5 & C6 & C7 & C8 & C9 & C10 & C11).
    set (h5 := hoist p (List.length ks1) tas u q h) in *.
    assert (Br : fst root < List.length h) by (eapply load_bound; eauto). assert (Ba : n_arr r < List.length h). { destruct S2 as (lc & K1 & _). apply nth_error_Some. congruence. }
    assert (Bp : fst p < List.length h) by (eapply load_bound; eauto).
    assert (Gx : ~ In (fst p) (foot h5 (detached e u q (ks1 ++ ks2)%list) x' ++ foot h5 (set_all t tas) t1)%list). { intros H. destruct (C9 _ H) as [H'|H']; [auto|lia]. }
    assert (Wh := x_where _ _ _ _ _ _ _ _ _ X1). assert (Hh := x_hdr _ _ _ _ _ _ _ _ _ X1). assert (Ln : n_len r5 = n_len r + 1) by (rewrite Hh; reflexivity).
    pose proof (rest_ok h h5 e _ x x' p r5 ks1 t ks2 xs1 y xs2 t1 tas u q Ec Ex Hl B1 B3 A2 A3 A4 eq_refl C1 C2 C3 C4 C5 C6 C7 C8 C11) as Q.
    assert (Hks : forall k, In k ks1 \/ In k ks2 -> In k (e_children e)). { intros k Hk. rewrite Ec. apply in_or_app. destruct Hk; [left; auto|right; right; auto]. }
    specialize (Q (fun k Hk => proj1 (IH h5 k (Hks k Hk)))).
    assert (Ht : In t (e_children e)) by (rewrite Ec; apply in_or_app; right; left; auto).
    specialize (Q (proj2 (IH h5 t Ht))).
    assert (Sf5 : safe h5 r5 (foot h5 (detached e u q (ks1 ++ ks2)%list) x' ++ foot h5 (set_all t tas) t1)%list []).
    { split; [exact (x_root _ _ _ _ _ _ _ _ _ X1)|]. split; [exact (x_ok _ _ _ _ _ _ _ _ _ X1)|]. split; [destruct Wh as [-> |Wh]; [auto|lia]|].
      split; [intros H; destruct (C9 _ H); [auto|lia]|]. split; [exact C10|]. intros z []. }
    specialize (Q Sf5 Gx Npr). assert (Hp5 : fst p = n_arr r5 -> snd p < n_len r5). { intros E. destruct Wh as [Wh|Wh]; [rewrite Ln; rewrite Wh in E; specialize (Hpr E); lia|lia]. }
    specialize (Q Hp5 s1). rewrite hoist_el_eq, Ge, Hd.
    assert (Es : step (h, s) p = (h5, s1)).
    { pose proof (Hstep h s e p x r G S1 S2 S3 S4 S5 Npr Hpr Ge Ho) as Es. rewrite Hd, Ec, anon_index_app in Es by auto. exact Es. }
    destruct (hoist_list (e_children e) s1) as [[ks' ts] s']. destruct Q as (h' & r' & tn & Q1 & Q2 & (ka & kt & kb & -> & La & D1 & D2 & D3 & D4 & D5 & D6) & Q4).
    rewrite Ec, anon_index_app, <- La by auto. cbn zeta. destruct (firstn_skipn_at ka kt kb) as (-> & -> & ->). cbn [map app].
    exists h', r', x', (t1 :: tn). assert (Eh : hits g h0 e p x = p :: hits_kids g h (n_arr x) (e_children e) (kids h x) 0).
    { rewrite <- Ehf. rewrite hits_eq, Ge. reflexivity. }
    split; [rewrite Eh; cbn [each]; rewrite Es; exact Q1|].
    split; [|split; [exact D1|split; [constructor; auto|cbn [foots]; split; [exact D4|split; [|split; [exact D6|exact Q4]]]]]].
    - change (t1 :: tn) with ([t1] ++ tn)%list. eapply ext_trans; [exact X1|rewrite <- (x_kids _ _ _ _ _ _ _ _ _ X1); exact Q2|auto|auto|auto| | | |].
      + intros a Ha. auto.
      + intros a Ha. destruct (C9 _ Ha); auto.
      + intros z Hz. auto.
      + intros z [].
    - intros a Ha. destruct (D5 a Ha) as [H|H]; [destruct (C9 _ H); auto|]. right. pose proof (x_len _ _ _ _ _ _ _ _ _ X1). lia.
  Qed.

  Lemma item_ok e : tidy g e -> forall h0, kid_ok h0 e /\ forall k, In k (e_children e) -> kid_ok h0 k.
  Proof.
    induction e as [n a sc c ks IHe] using elem_ind'. intros Ti h0. cbn [e_children].
    assert (IH : forall h1 k, In k ks -> kid_ok h1 k /\ forall k', In k' (e_children k) -> kid_ok h1 k').
    { intros h1 k Hk. apply IHe; auto. intros q d Hq. apply In_nth_error in Hk. destruct Hk as [i Hi]. apply (Ti (i :: q)). cbn [sub e_children]. rewrite Hi. exact Hq. }
    split; [|intros k Hk; apply IH; auto].
    intros p x b R N Hb h s r F At Sf. cbn [i_el i_node i_ptr] in *. set (e := Elem n a sc c ks) in *.
    assert (node : forall s0, let '(ks', ts, s') := hoist_list (e_children e) s0 in exists h' r', each step (h, s0) (hits_kids g h0 (n_arr x) (e_children e) (kids h0 x) 0) = (h', s') /\
      outcome h h' r r' (foot h0 e x) (locs [mkItem b p e x]) [with_children e ks'] [x] ts /\ at_place h' (mkItem b p e x) x).
    { intros s0. pose proof (node_ok h0 e x R N (fun k Hk => proj1 (IH h0 k Hk)) h s0 r (locs [mkItem b p e x]) F Sf) as Q. destruct (hoist_list (e_children e) s0) as [[ks' ts] s']. destruct Q as (h' & r' & Q1 & Q2 & Q3).
      exists h', r'. split; [exact Q1|]. split; [exact Q2|]. unfold at_place in *. cbn [i_in i_ptr i_node] in *. destruct b; [|auto]. apply Q3; [left; auto|exact At]. }
    destruct (g e) eqn:Ge.
    - assert (b = true) by (destruct b; [auto|specialize (Hb eq_refl); congruence]). subst b. assert (Ho : hit_ok g e) by (apply (Ti []); [reflexivity|exact Ge]).
      unfold at_place in At. cbn [i_in i_ptr] in At.
      assert (Sf0 : safe h r (foot h0 e x) []) by (destruct Sf as (S1 & S2 & S3 & S4 & S5 & S6); repeat (split; [assumption|]); intros z []).
      assert (Sl : fst p <> fst root /\ fst p <> n_arr r /\ ~ In (fst p) (foot h0 e x)) by (destruct Sf as (_ & _ & _ & _ & _ & S6); apply S6; left; auto). destruct Sl as (P1 & P2 & P3).
      destruct (dec e s) as [[[tas [u q]]|] s1] eqn:Hd.
      + pose proof (acted h0 e p x h s r tas u q s1 R N IH Ge Ho Hd F At Sf0 P3 P1 (fun E => match P2 E with end)) as Q.
        destruct (hoist_el e s) as [[k' ts] s']. destruct Q as (h' & r' & x' & tn & Q1 & Q2 & Q3 & Q4 & Q5 & Q6 & Q7 & Q8).
        exists h', r', x'. split; [exact Q1|]. split; [|exact Q8]. exists tn. unfold moved in Q2. rewrite (proj2 (Nat.eqb_neq _ _) P2) in Q2. split; [exact Q2|]. cbn [foots]. rewrite app_nil_r. split; [constructor; [exact Q3|constructor]|]. auto.
      + pose proof (rep_frame e h0 h x R F) as [Rh Ef]. pose proof Sf0 as (S1 & S2 & S3 & S4 & S5 & _). rewrite <- Ef in S4, S5, P3, N.
        assert (Es : step (h, s) p = (h, s1)).
        { assert (Gd : good h e p x) by (split; [auto|split; [auto|split; [auto|auto]]]). pose proof (Hstep h s e p x r Gd S1 S2 S3 S4 S5 P1 (fun E => match P2 E with end) Ge Ho) as Es. rewrite Hd in Es. exact Es. }
        rewrite hoist_el_eq, Ge, Hd. specialize (node s1). destruct (hoist_list (e_children e) s1) as [[ks' ts] s']. destruct node as (h' & r' & Q1 & Q2 & Q3). exists h', r', x. split; [|split; [exact Q2|exact Q3]].
        rewrite hits_eq, Ge. cbn [app each]. rewrite Es. exact Q1.
    - rewrite hoist_el_eq, Ge. specialize (node s). destruct (hoist_list (e_children e) s) as [[ks' ts] s']. destruct node as (h' & r' & Q1 & Q2 & Q3). exists h', r', x. split; [|split; [exact Q2|exact Q3]].
      rewrite hits_eq, Ge. exact Q1.
  Qed.
End Pass.
