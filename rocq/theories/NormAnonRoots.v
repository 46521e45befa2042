(* The two passes over several schemas. *)
From Verif Require Import Base ScopeModel ScopeSpec ScopeProofs TreeModel TreeSpec TreeProofs BuiltinModel XsdModel XsdProofs NormModel NormMem NormOps NormPath NormSpec NormPass NormDefaults NormHoistSpec NormHoistMem NormHoist NormHoistTop NormAnonSpec NormAnon NormAnonProofs NormCopyProofs SgProofs.
Local Open Scope string_scope.

Lemma firstn_In {A} n (l : list A) x : In x (firstn n l) -> In x l.
Proof. intros H. rewrite <- (firstn_skipn n l). apply in_or_app. auto. Qed.
Lemma skipn_In {A} n (l : list A) x : In x (skipn n l) -> In x l.
Proof. intros H. rewrite <- (firstn_skipn n l). apply in_or_app. auto. Qed.
Lemma Forall2_nth {A B} (R : A -> B -> Prop) l m : Forall2 R l m -> forall i x, nth_error l i = Some x -> exists y, nth_error m i = Some y /\ R x y.
Proof. induction 1; intros [|i] z Hz; cbn [nth_error] in *; try discriminate; [injection Hz as <-; eauto|eauto]. Qed.

Section Quiet.
  Variable St : Type.
  Variable g : elem -> bool.
  Variable dec : elem -> St -> option (list (string * string) * (string * string)) * St.
  Lemma hoist_list_quiet ks s : (forall k, In k ks -> forall s, hoist_el St g dec k s = (k, [], s)) -> hoist_list St g dec ks s = (ks, [], s).
  Proof. revert s. induction ks as [|k ks IH]; intros s H; cbn [hoist_list]; auto. rewrite H by (left; auto). rewrite IH; [auto|]. intros k' Hk'. apply H. right. auto. Qed.
  Lemma hoist_quiet e : quiet g e -> forall s, hoist_el St g dec e s = (e, [], s).
  Proof.
    induction e as [n a sc c ks IH] using elem_ind'. intros Q s. apply everywhere_eq in Q. destruct Q as [Q1 Q2]. cbn [e_children] in Q2. rewrite Forall_forall in Q2.
    rewrite hoist_el_eq, Q1. cbn [e_children]. rewrite hoist_list_quiet; [reflexivity|]. intros k Hk. apply IH; auto. exact (Q2 k Hk).
  Qed.
  Lemma room_first_gen free ks : forall n s, (forall ks1 k ks2, ks = (ks1 ++ k :: ks2)%list -> g k = true -> n = 0 /\ Forall (quiet g) ks1) -> room St g dec free n ks s.
  Proof.
    induction ks as [|k ks IH]; intros n s H; cbn [room]; auto. destruct (hoist_el St g dec k s) as [[k' ts] s'] eqn:E. split.
    - intros Hg. destruct (H [] k ks eq_refl Hg) as [-> _]. lia.
    - apply IH. intros ks1 k0 ks2 Ek Hg. destruct (H (k :: ks1) k0 ks2 ltac:(rewrite Ek; reflexivity) Hg) as [-> Hq]. apply Forall_cons_iff in Hq. destruct Hq as [Hq1 Hq2]. split; [|exact Hq2].
      rewrite hoist_quiet in E by auto. injection E as _ <- _. reflexivity.
  Qed.
  Lemma room_first free ks s : first_at_top g ks -> room St g dec free 0 ks s.
  Proof. intros H. apply room_first_gen. intros ks1 k ks2 E Hg. split; [auto|]. eapply H; eauto. Qed.

  (* nothing gets deeper *)
  Lemma heights_in k ks : In k ks -> height k <= heights ks.
  Proof. induction ks as [|z ks IH]; intros H; [destruct H|]. cbn [heights]. destruct H as [-> |H]; [lia|]. specialize (IH H). lia. Qed.
  Lemma heights_le ks m : (forall k, In k ks -> height k <= m) -> heights ks <= m.
  Proof. induction ks as [|z ks IH]; intros H; cbn [heights]; [lia|]. pose proof (H z (or_introl eq_refl)). specialize (IH (fun k Hk => H k (or_intror Hk))). lia. Qed.
  Lemma hoist_list_height ks m : (forall k, In k ks -> forall s, let '(k', ts, _) := hoist_el St g dec k s in height k' <= m /\ forall t, In t ts -> height t <= m) ->
    forall s, let '(ks', ts, _) := hoist_list St g dec ks s in (forall k', In k' ks' -> height k' <= m) /\ forall t, In t ts -> height t <= m.
  Proof.
    induction ks as [|k ks IH]; intros H s; cbn [hoist_list]; [split; intros t []|]. pose proof (H k (or_introl eq_refl) s) as Hk. destruct (hoist_el St g dec k s) as [[k' t1] s1].
    specialize (IH (fun k0 H0 => H k0 (or_intror H0)) s1). destruct (hoist_list St g dec ks s1) as [[r t2] s2]. destruct Hk, IH. split; [intros x [<- |Hx]; auto|]. intros t Ht. apply in_app_or in Ht. destruct Ht; auto.
  Qed.
  Lemma hoist_height e : forall s, let '(e', ts, _) := hoist_el St g dec e s in height e' <= height e /\ forall t, In t ts -> height t <= height e.
  Proof.
    induction e as [n a sc c ks IH] using elem_ind'. intros s. rewrite hoist_el_eq, (height_eq (Elem n a sc c ks)). cbn [e_children].
    destruct (if g (Elem n a sc c ks) then dec (Elem n a sc c ks) s else (None, s)) as [act s1].
    assert (Q' : let '(ks', ts, _) := hoist_list St g dec ks s1 in (forall k', In k' ks' -> height k' <= heights ks) /\ forall t, In t ts -> height t <= heights ks).
    { apply hoist_list_height. intros k Hk s0. specialize (IH k Hk s0). destruct (hoist_el St g dec k s0) as [[k' ts] s'']. pose proof (heights_in k ks Hk). destruct IH as [q1 q2]. split; [lia|intros t Ht; specialize (q2 t Ht); lia]. }
    clear IH.
    destruct (hoist_list St g dec ks s1) as [[ks' ts] s2]. destruct Q' as [Q1 Q2]. destruct act as [[tas [u q]]|].
    - cbn zeta. split.
      + rewrite height_eq. cbn [detached e_children]. apply le_n_S, heights_le. intros k Hk. apply Q1. apply in_app_or in Hk. destruct Hk as [Hk|Hk]; [eapply firstn_In|eapply skipn_In]; eauto.
      + intros t Ht. apply in_app_or in Ht. destruct Ht as [Ht|Ht]; [|specialize (Q2 t Ht); lia]. apply in_map_iff in Ht. destruct Ht as (t0 & <- & Ht). apply firstn_In, skipn_In in Ht. specialize (Q1 t0 Ht).
        rewrite height_eq, set_all_kids, <- height_eq. lia.
    - split; [|intros t Ht; specialize (Q2 t Ht); lia]. rewrite height_eq. cbn [with_children e_children]. apply le_n_S, heights_le. auto.
  Qed.
  Lemma hoist_root_height e s : height (fst (hoist_root St g dec e s)) <= height e.
  Proof.
    unfold hoist_root. rewrite (height_eq e).
    assert (Q' : let '(ks', ts, _) := hoist_list St g dec (e_children e) s in (forall k', In k' ks' -> height k' <= heights (e_children e)) /\ forall t, In t ts -> height t <= heights (e_children e)).
    { apply hoist_list_height. intros k Hk s0. pose proof (hoist_height k s0) as IH. destruct (hoist_el St g dec k s0) as [[k' ts] s'']. pose proof (heights_in k _ Hk). destruct IH as [q1 q2]. split; [lia|intros t Ht; specialize (q2 t Ht); lia]. }
    destruct (hoist_list St g dec (e_children e) s) as [[ks' ts] s2]. destruct Q' as [Q1 Q2]. cbn [fst]. rewrite height_eq. cbn [with_children e_children]. apply le_n_S, heights_le. intros k Hk. apply in_app_or in Hk. destruct Hk; auto.
  Qed.
End Quiet.

(* ---------- several roots, with a state ---------- *)
Section Fold.
  Variable St : Type.
  Variable f : ptr -> heap * St -> res (heap * St).
  Fixpoint over (roots : list ptr) (st : heap * St) : res (heap * St) :=
    match roots with
    | [] => Done st
    | r :: roots' => match f r st with Done st => over roots' st | Fails => Fails | Runs => Runs end
    end.
  Variable D : elem -> Prop.
  Variable R : elem -> St -> elem -> St -> Prop.
  Hypothesis P : forall h e p x s, good h e p x -> D e -> exists h' e' s', f p (h, s) = Done (h', s') /\ R e s e' s' /\ leaves h h' e e' p x.
  Lemma over_pass : forall roots es xs h s,
    Forall2 (fun p x => load h p = Some x) roots xs -> Forall2 (rep h) es xs -> NoDup roots -> NoDup (foots h es xs) ->
    (forall p, In p roots -> ~ In (fst p) (foots h es xs)) -> Forall D es ->
    exists h' es' xs' s', over roots (h, s) = Done (h', s') /\ chain R es s es' s' /\ Forall2 (fun p x => load h' p = Some x) roots xs' /\ Forall2 (rep h') es' xs' /\
      NoDup (foots h' es' xs') /\ grown h (foots h' es' xs') (foots h es xs) /\ frames h h' roots (foots h es xs).
  Proof.
    induction roots as [|p roots IH]; intros es xs h s L B Nr Nf Np HD; inversion L as [|? x ? xs0 Lp Lr]; subst.
    - inversion B; subst. exists h, [], [], s. cbn [over foots chain]. split; [auto|]. split; [auto|]. do 3 (split; [constructor|]). split; [intros a []|apply frames_refl].
    - inversion B as [|e ? es0 ? Re Br]; subst. cbn [foots] in *. destruct (nodup_app_inv _ _ Nf) as (N1 & N2 & N3). inversion HD as [|? ? D1 D2]; subst. inversion Nr as [|? ? Nr1 Nr2]; subst.
      assert (G : good h e p x). { split; [auto|]. split; [auto|]. split; [auto|]. intros H. apply (Np p); [left; auto|]. apply in_or_app. auto. }
      destruct (P h e p x s G D1) as (h1 & e1 & s1 & E1 & Q1 & (x1 & A1 & A2 & A3 & A4 & A5)). pose proof (same_but_frames _ _ _ _ A5) as (F1 & F2 & F3).
      assert (Fr : forall a, In a (foots h es0 xs0) -> nth_error h1 a = nth_error h a).
      { intros a Ha. apply F2; [eapply foots_bound; eauto|intros H; eapply N3; eauto|]. intros [<- |[]]. apply (Np p); [left; auto|]. apply in_or_app. auto. }
      destruct (reps_frame h h1 es0 xs0 Br Fr) as [B1 Ef].
      destruct (IH es0 xs0 h1 s1) as (h' & es' & xs' & s' & C1 & C2 & C3 & C4 & C5 & C6 & C7); auto.
      { clear IH. assert (Hin : forall q, In q roots -> ~ In (fst q) (foot h e x)) by (intros q Hq H; apply (Np q); [right; auto|apply in_or_app; auto]).
        clear -Lr F3 Hin Nr1. induction Lr as [|q y qs ys Hq Lr IHl]; constructor.
        - apply F3; auto; [apply Hin; left; auto|]. intros [<- |[]]. apply Nr1. left. auto.
        - apply IHl; [intros H; apply Nr1; right; auto|intros q' Hq'; apply Hin; right; auto]. }
      { rewrite Ef. auto. }
      { intros q Hq. rewrite Ef. intros H. apply (Np q); [right; auto|apply in_or_app; auto]. }
      rewrite Ef in *. destruct C7 as (G1 & G2 & G3).
      assert (Pr : forall a, In a (foot h1 e1 x1) -> ~ In a (foots h es0 xs0) /\ ~ In a (map fst roots)).
      { intros a Ha. split.
        - intros H. destruct (A4 a Ha) as [H1|H1]; [eapply N3; eauto|]. apply (foots_bound _ _ _ Br) in H. lia.
        - intros H. apply in_map_iff in H. destruct H as (q & <- & Hq). destruct (A4 _ Ha) as [H1|H1]; [apply (Np q); [right; auto|apply in_or_app; auto]|].
          assert (Hb : fst q < List.length h); [|lia]. clear -Lr Hq. induction Lr as [|q' y qs ys Hy Lr IHl]; [destruct Hq|]. destruct Hq as [-> |Hq]; [eapply load_bound; eauto|auto]. }
      assert (Fk : forall a, In a (foot h1 e1 x1) -> nth_error h' a = nth_error h1 a). { intros a Ha. apply G2; [eapply foot_bound; eauto| |]; apply Pr; auto. }
      destruct (rep_frame e1 h1 h' x1 A2 Fk) as [R1 E2].
      exists h', (e1 :: es'), (x1 :: xs'), s'. cbn [over foots chain]. rewrite E1. split; [exact C1|]. split; [exists s1; auto|].
      split; [constructor; [apply G3; [exact A1| |exact Nr1]; intros H; apply (Np p); [left; auto|apply in_or_app; auto]|exact C3]|]. split; [constructor; auto|]. split; [|split].
      + rewrite E2. apply nodup_app; auto. intros a H1 H2. destruct (C6 a H2) as [H|H]; [exact (proj1 (Pr a H1) H)|]. pose proof (foot_bound _ _ _ A2 a H1). lia.
      + rewrite E2. intros a Ha. apply in_app_or in Ha. destruct Ha as [Ha|Ha].
        * destruct (A4 a Ha) as [H|H]; [left; apply in_or_app; auto|auto].
        * destruct (C6 a Ha) as [H|H]; [left; apply in_or_app; auto|right; lia].
      + split; [lia|]. split.
        * intros a Ha Hn Hp. cbn [map In] in Hp. rewrite G2, F2; auto; try lia; try (intros H; apply Hn; apply in_or_app; auto; fail).
          intros [<- |[]]. apply Hp. left. auto.
        * intros q y Lq Hn Hq. cbn [In] in Hq. apply G3; [apply F3; auto| |auto]; try (intros H; apply Hn; apply in_or_app; auto; fail).
          intros [<- |[]]. apply Hq. left. auto.
  Qed.
  Lemma over_stands roots es h s : stands h roots es -> Forall D es -> exists h' es' s', over roots (h, s) = Done (h', s') /\ chain R es s es' s' /\ stands h' roots es'.
  Proof.
    intros (xs & L & B & Nr & Nf & Np) HD. destruct (over_pass roots es xs h s L B Nr Nf Np HD) as (h' & es' & xs' & s' & C1 & C2 & C3 & C4 & C5 & C6 & C7).
    exists h', es', s'. split; [auto|]. split; [auto|]. exists xs'. repeat (split; [assumption|]). intros p Hp H. destruct (C6 _ H) as [H1|H1]; [eapply Np; eauto|].
    assert (Hb : fst p < List.length h); [|lia]. clear -L Hp. induction L as [|q y qs ys Hy L IH]; [destruct Hp|]. destruct Hp as [-> |Hp]; [eapply load_bound; eauto|auto].
  Qed.
End Fold.

Section Growing.
  Variables grow agrow : nat -> nat -> nat.
  Definition name_one (fuel : nat) (p : ptr) (st : heap * nat) : res (heap * nat) :=
    match name_anonymous grow agrow fuel p st with
    | Done (h, n) => match set_choices_optional agrow fuel p h with Done h => Done (h, n) | Fails => Fails | Runs => Runs end
    | Fails => Fails
    | Runs => Runs
    end.
  Lemma name_all_over fuel roots : forall st, name_all grow agrow fuel roots st = over nat (name_one fuel) roots st.
  Proof.
    induction roots as [|p roots IH]; intros st; cbn [name_all over]; auto. unfold name_one at 1. destruct (name_anonymous grow agrow fuel p st) as [[h n]| |]; auto.
    destruct (set_choices_optional agrow fuel p h); auto.
  Qed.
  Definition named_optional (e : elem) (n : nat) (e' : elem) (n' : nat) : Prop := exists e1, name_tree e n = (e1, Done n') /\ only_attrs (made_optional e1) e1 e'.
  Lemma name_one_pass fuel h e p x s : good h e p x -> name_ready fuel e -> exists h' e' s', name_one fuel p (h, s) = Done (h', s') /\ named_optional e s e' s' /\ leaves h h' e e' p x.
  Proof.
    intros G (H1 & H2 & H3 & H4). pose proof (named_all grow agrow fuel h e p x s G H1 H2 (room_first _ _ _ _ _ _ H3)) as Q.
    destruct (named_without_error e s H2 H4) as [n' En]. rewrite En in Q. destruct Q as (h1 & E1 & L1). unfold name_one. rewrite E1.
    destruct (leaves_good _ _ _ _ _ _ G L1) as (x1 & G1 & Gr & Sb).
    destruct (optional_pass agrow fuel h1 _ p x1 G1) as (h2 & e2 & E2 & R2 & L2). { pose proof (hoist_root_height _ has_anon_el (name_dec (attr e "" "targetNamespace")) e (Done s)) as Hh. fold (name_tree e s) in Hh. lia. }
    exists h2, e2, n'. rewrite E2. split; [auto|]. split; [exists (fst (name_tree e s)); split; [rewrite <- En; destruct (name_tree e s); auto|auto]|].
    pose proof G1 as (K1 & K2 & K3 & K4). exact (leaves_trans _ _ _ _ _ _ _ _ _ G K1 K2 K3 Gr Sb L2).
  Qed.
  Lemma name_roots fuel roots es h n : stands h roots es -> Forall (name_ready fuel) es ->
    exists h' es' n', name_all grow agrow fuel roots (h, n) = Done (h', n') /\ stands h' roots es' /\ chain named_optional es n es' n'.
  Proof.
    intros S F. rewrite name_all_over. destruct (over_stands nat (name_one fuel) (name_ready fuel) named_optional (name_one_pass fuel) roots es h n S F) as (h' & es' & n' & A & B & C). exists h', es', n'. auto.
  Qed.
  Lemma copy_pass fuel : pass (copy_elt_names grow agrow fuel) (copy_ready fuel) (fun e e' => e' = copy_tree e).
  Proof.
    intros h e p x G (H1 & H2 & H3). destruct (copied grow agrow fuel h e p x G H1 H2 (room_first _ _ _ _ _ _ H3)) as (h' & A & B). exists h', (copy_tree e). auto.
  Qed.
  Lemma copy_roots fuel roots es h : stands h roots es -> Forall (copy_ready fuel) es ->
    exists h', on_each (copy_elt_names grow agrow fuel) roots h = Done h' /\ stands h' roots (map copy_tree es).
  Proof.
    intros S F. destruct (on_each_stands _ _ _ roots es h (copy_pass fuel) S F) as (h' & es' & A & B & C). exists h'. split; [auto|]. assert (E : es' = map copy_tree es); [|rewrite <- E; auto]. clear -B. induction B; cbn [map]; subst; auto.
  Qed.
End Growing.

(* ---------- choices only get minOccurs ---------- *)
Definition alike (d d' : elem) : Prop := e_name d' = e_name d /\ e_scope d' = e_scope d /\ forall n, n <> "minOccurs" -> attr d' "" n = attr d "" n.
Lemma optional_alike e e' : only_attrs (made_optional e) e e' -> forall q, match sub e q, sub e' q with Some d, Some d' => alike d d' | None, None => True | _, _ => False end.
Proof.
  intros H q. specialize (H q). destruct (sub e q) as [d|], (sub e' q) as [d'|]; auto. destruct H as (H1 & H2 & _ & H4 & H5). split; [auto|]. split; [auto|]. intros n Hn.
  assert (K : forall v, attr_get (attr_set (e_attrs d) "" "minOccurs" v) "" n = attr_get (e_attrs d) "" n).
  { intros v. apply attr_set_other. intros m K1 K2. apply name_match_iff in K1, K2. destruct K1 as [K1 _], K2 as [K2 _]. congruence. }
  unfold attr. destruct (string_dec (attr_get (e_attrs d') "" n) (attr_get (e_attrs d) "" n)) as [E|E]; [exact E|]. exfalso. apply E. rewrite H5; [reflexivity|]. intros O. apply E. rewrite (H4 O). apply K.
Qed.
Definition alikes (e e' : elem) : Prop := forall q, match sub e q, sub e' q with Some d, Some d' => alike d d' | None, None => True | _, _ => False end.
Lemma alikes_kids e e' : alikes e e' -> Forall2 alikes (e_children e) (e_children e').
Proof.
  intros H. assert (Hi : forall i, match nth_error (e_children e) i, nth_error (e_children e') i with Some k, Some k' => alikes k k' | None, None => True | _, _ => False end).
  { intros i. pose proof (H [i]) as H0. cbn [sub] in H0. destruct (nth_error (e_children e) i) as [k|] eqn:E1, (nth_error (e_children e') i) as [k'|] eqn:E2; auto.
    intros q. specialize (H (i :: q)). cbn [sub] in H. rewrite E1, E2 in H. exact H. }
  clear H. revert Hi. generalize (e_children e) (e_children e'). induction l as [|k l IH]; intros [|k' l'] Hi; [constructor|destruct (Hi 0)|destruct (Hi 0)|]. constructor; [exact (Hi 0)|]. apply IH. intros i. exact (Hi (S i)).
Qed.
Lemma alikes_sub e e' q d : alikes e e' -> sub e q = Some d -> exists d', sub e' q = Some d' /\ alikes d d'.
Proof.
  revert e e'. induction q as [|i q IH]; intros e e' H S; cbn [sub] in *; [injection S as <-; eauto|]. pose proof (alikes_kids e e' H) as K.
  destruct (nth_error (e_children e) i) as [k|] eqn:E; [|discriminate]. destruct (Forall2_nth _ _ _ K i k E) as (k' & E' & Hk). rewrite E'. eauto.
Qed.
Lemma alikes_sub' e e' q d' : alikes e e' -> sub e' q = Some d' -> exists d, sub e q = Some d /\ alikes d d'.
Proof.
  intros H S. pose proof (H q) as Hq. rewrite S in Hq. destruct (sub e q) as [d|] eqn:E; [|destruct Hq]. destruct (alikes_sub e e' q d H E) as (d1 & E1 & H1). exists d. split; [auto|]. rewrite S in E1. injection E1 as <-. exact H1.
Qed.
Lemma alikes_at e e' : alikes e e' -> alike e e'.
Proof. intros H. exact (H []). Qed.
Lemma alikes_anon e e' : alikes e e' -> anon_el e' = anon_el e.
Proof. intros H. apply alikes_at in H. destruct H as (H1 & _ & H3). unfold anon_el, type_el. rewrite H1, H3 by discriminate. reflexivity. Qed.
Lemma alikes_holder e e' : alikes e e' -> holder e' = holder e.
Proof.
  intros H. unfold holder. destruct (alikes_at _ _ H) as (-> & _). f_equal. unfold has_anon_el. pose proof (alikes_kids _ _ H) as K. induction K; cbn [existsb]; auto. rewrite (alikes_anon _ _ H0), IHK. reflexivity.
Qed.
Lemma alikes_refers tns n e e' : alikes e e' -> refers tns n e -> refers tns n e'.
Proof.
  intros H (upd & accum & H1 & H2 & H3). destruct (alikes_at _ _ H) as (E1 & E2 & E3). exists upd, accum. rewrite E1, E2. split; [auto|]. split; [auto|]. cbn zeta in *. rewrite E3; [auto|].
  intros ->. unfold updates in H1. repeat match type of H1 with (if ?b then _ else _) = _ => destruct b; [discriminate H1|] end. discriminate H1.
Qed.

Lemma in_order_nth n ts t : in_order n ts -> In t ts -> exists i, n < i <= n + List.length ts /\ attr t "" "name" = anon_name i.
Proof.
  intros H Ht. apply In_nth_error in Ht. destruct Ht as [j Hj]. exists (S n + j). assert (Lj : j < List.length ts) by (apply nth_error_Some; congruence). split; [lia|]. unfold in_order in H.
  assert (E : nth_error (map (fun t => attr t "" "name") ts) j = nth_error (map anon_name (seq (S n) (List.length ts))) j) by (rewrite H; auto).
  rewrite (map_nth_error _ _ _ Hj) in E. assert (Es : nth_error (seq (S n) (List.length ts)) j = Some (S n + j)) by (rewrite nth_error_nth' with (d := 0) by (rewrite seq_length; auto); rewrite seq_nth; auto).
  rewrite (map_nth_error _ _ _ Es) in E. congruence.
Qed.
Lemma named_optional_types e n e' n' : Forall (tidy has_anon_el) (e_children e) -> named_optional e n e' n' -> exists ts, named_types e e' n ts /\ n' = n + List.length ts.
Proof.
  intros T (e1 & E1 & O). pose proof (named_tree e n T) as Q. rewrite E1 in Q. destruct Q as (ks & ts & -> & A2 & A3 & A4 & A5 & A6 & A7 & A8).
  assert (AL : alikes (with_children e (ks ++ ts)) e') by exact (optional_alike _ _ O). pose proof (alikes_kids _ _ AL) as K. cbn [with_children e_children] in K. apply Forall2_app_inv_l in K. destruct K as (ks' & ts' & K1 & K2 & K3).
  exists ts'. assert (Lt : List.length ts' = List.length ts) by (symmetry; eapply Forall2_len; eauto). split; [|lia].
  assert (Io : in_order n ts').
  { unfold in_order in *. rewrite Lt, <- A4. clear -K2. induction K2; cbn [map]; auto. rewrite IHK2. f_equal. apply alikes_at in H. apply (proj2 (proj2 H)). discriminate. }
  assert (Ks : Forall2 alikes (ks ++ ts) (e_children e')) by (rewrite K3; apply Forall2_app; auto).
  constructor.
  - exists ks'. split; [exact K3|]. rewrite <- A2. clear -K1. induction K1; cbn [map]; auto. rewrite IHK1. f_equal. apply alikes_at in H. apply (proj1 H).
  - exact Io.
  - clear -A5 K2. induction K2; constructor; apply Forall_cons_iff in A5; destruct A5 as [[B1 B2] B3]; [|auto]. apply alikes_at in H. destruct H as (H1 & _ & H3). split; [unfold type_el; rewrite H1; exact B1|rewrite H3 by discriminate; exact B2].
  - lia.
  - clear -A7 Ks. induction Ks; constructor; apply Forall_cons_iff in A7; destruct A7 as [B1 B2]; [|auto]. intros q d Hq. destruct (alikes_sub' _ _ _ _ H Hq) as (d0 & H0 & Hd). rewrite (alikes_holder _ _ Hd). exact (B1 q d0 H0).
  - apply Forall_forall. intros t Ht. destruct (in_order_nth n ts' t Io Ht) as (i & Hi & ->). destruct (A8 i) as (k & q & d & Hk & Hq & Hd); [lia|].
    apply In_nth_error in Hk. destruct Hk as [j Hj]. destruct (Forall2_nth _ _ _ Ks j k Hj) as (k' & Hj' & Hk'). destruct (alikes_sub _ _ _ _ Hk' Hq) as (d' & Hd' & Ad). exists k', q, d'. split; [eapply nth_error_In; eauto|]. split; [auto|]. eapply alikes_refers; eauto.
Qed.

Lemma chain_named es : forall n es' n', Forall (fun e => Forall (tidy has_anon_el) (e_children e)) es -> chain named_optional es n es' n' -> exists tss, named_schemas es es' n tss /\ n' = n + List.length (List.concat tss).
Proof.
  induction es as [|e es IH]; intros n [|e' es'] n' T C; cbn [chain] in C; try (destruct C; fail).
  - exists []. split; [constructor|cbn; lia].
  - destruct C as (n1 & H & C). apply Forall_cons_iff in T. destruct T as [T1 T2]. destruct (named_optional_types e n e' n1 T1 H) as (ts & Hts & ->). destruct (IH _ es' n' T2 C) as (tss & Hs & ->).
    exists (ts :: tss). split; [constructor; auto|]. cbn [List.concat]. rewrite app_length. lia.
Qed.
Lemma named_schemas_order es es' n tss : named_schemas es es' n tss -> in_order n (List.concat tss).
Proof.
  induction 1; [reflexivity|]. unfold in_order in *. cbn [List.concat]. rewrite map_app, app_length, seq_app, map_app. destruct H as [_ H _ _ _ _]. unfold in_order in H. rewrite H, IHnamed_schemas. reflexivity.
Qed.
Lemma anon_name_inj i j : anon_name i = anon_name j -> i = j.
Proof. unfold anon_name. intros H. apply dec_inj. cbn [append] in H. congruence. Qed.
Lemma in_order_nodup n ts : in_order n ts -> NoDup (map (fun t => attr t "" "name") ts).
Proof. unfold in_order. intros ->. apply FinFun.Injective_map_NoDup; [|apply seq_NoDup]. intros i j. apply anon_name_inj. Qed.
Lemma named_together grow agrow fuel roots es h : stands h roots es -> Forall (name_ready fuel) es ->
  exists h' es' tss, name_all grow agrow fuel roots (h, 0) = Done (h', List.length (List.concat tss)) /\ stands h' roots es' /\ named_schemas es es' 0 tss /\
    NoDup (map (fun t => attr t "" "name") (List.concat tss)).
Proof.
  intros S F. destruct (name_roots grow agrow fuel roots es h 0 S F) as (h' & es' & n' & A & B & C).
  destruct (chain_named es 0 es' n') as (tss & D & ->); auto. { eapply Forall_impl; [|exact F]. intros e (_ & H & _). exact H. }
  exists h', es', tss. split; [exact A|]. split; [auto|]. split; [auto|]. eapply in_order_nodup, named_schemas_order; eauto.
Qed.
