(* From complete sets of types to the lemmas of SgClosed. *)
From Verif Require Import Base SortLib ScopeModel TreeModel EqualModel Utf8 Decimal BuiltinModel CodecModel XsdModel XsdProofs TypesModel TypesSpec TypesProofs NormAttr GraphModel GenModel SgModel SgProofs SgNames SgExamples SgFlat SgClosed SgFlatSpec.
Local Open Scope string_scope.

(* ---------- the way to the Builtin ---------- *)
Inductive path (st : store) : ty -> list nat -> Z -> Prop :=
| pa_builtin b : path st (TB b) [] b
| pa_step i d l b : nth_error st i = Some d -> path st (def_base d) l b -> path st (TPtr i) (i :: l) b.
Lemma path_ptr st i l b : path st (TPtr i) l b -> exists d m, nth_error st i = Some d /\ l = i :: m /\ path st (def_base d) m b.
Proof. inversion 1; subst. eauto. Qed.
Lemma path_det st t l b : path st t l b -> forall l' b', path st t l' b' -> l' = l /\ b' = b.
Proof.
  induction 1 as [b|i d l b Hd Hp IH]; intros l' b' H; [inversion H; auto|]. destruct (path_ptr _ _ _ _ H) as [d' [m [E1 [-> H3]]]]. assert (d' = d) as -> by congruence.
  destruct (IH _ _ H3) as [-> ->]. auto.
Qed.
Lemma path_of st t b : ancestor st t (TB b) -> exists l, path st t l b.
Proof.
  intros A. remember (TB b) as u eqn:E. induction A as [t|t u Hn Ha IH]; subst; [exists []; constructor|]. destruct (IH eq_refl) as [l Hl].
  destruct t as [| | |i]; try (cbn [base_of] in Hn; congruence). cbn [base_of] in *. destruct (nth_error st i) as [d|] eqn:Ed; [|congruence]. exists (i :: l). econstructor; eassumption.
Qed.
Lemma path_suffix st t l b : path st t l b -> forall j, In j l -> exists l', path st (TPtr j) l' b /\ List.length l' <= List.length l.
Proof.
  induction 1 as [b|i d l b Hd Hp IH]; intros j Hj; [destruct Hj|]. destruct Hj as [->|Hj]; [exists (j :: l); split; [econstructor; eassumption|lia]|].
  destruct (IH j Hj) as [l' [H1 H2]]. exists l'. split; [exact H1|cbn [List.length]; lia].
Qed.
Lemma path_nodup st t l b : path st t l b -> NoDup l /\ forall j, In j l -> j < List.length st.
Proof.
  induction 1 as [b|i d l b Hd Hp [IH1 IH2]]; [split; [constructor|intros ? []]|]. split.
  - constructor; [|exact IH1]. intros Hi. destruct (path_suffix _ _ _ _ Hp i Hi) as [l' [H1 H2]].
    assert (P : path st (TPtr i) (i :: l) b) by (econstructor; eassumption). destruct (path_det _ _ _ _ P _ _ H1) as [-> _]. cbn [List.length] in H2. lia.
  - intros j [<-|Hj]; [exact (nth_lt _ _ _ Hd)|exact (IH2 j Hj)].
Qed.
Lemma path_short st t l b : path st t l b -> List.length l <= List.length st.
Proof.
  intros H. destruct (path_nodup _ _ _ _ H) as [N B]. rewrite <- (seq_length (List.length st) 0). apply NoDup_incl_length; [exact N|]. intros j Hj. apply in_seq. specialize (B j Hj). lia.
Qed.
Fixpoint follow (fuel : nat) (st : store) (t : ty) : nat * Z :=
  match t with TB b => (0, b) | _ => match fuel with 0 => (0, 0%Z) | S f => let (n, b) := follow f st (base_of st t) in (S n, b) end end.
Lemma follow_path st t l b : path st t l b -> forall fuel, List.length l <= fuel -> follow fuel st t = (List.length l, b).
Proof.
  induction 1 as [b|i d l b Hd Hp IH]; intros fuel Hf; [destruct fuel; reflexivity|]. cbn [List.length] in *. destruct fuel as [|f]; [lia|]. cbn [follow base_of]. rewrite Hd, (IH f) by lia. reflexivity.
Qed.
Definition rank_of (st : store) (i : nat) : nat := fst (follow (List.length st) st (TPtr i)) - 1.
Definition root_of (st : store) (i : nat) : Z := snd (follow (List.length st) st (TPtr i)).
Lemma complete_good st : complete st -> good (rank_of st) (root_of st) st.
Proof.
  intros C.
  assert (P : forall i, i < List.length st -> exists l b, path st (TPtr i) l b).
  { intros i Hi. destruct (nth_error st i) as [d|] eqn:E; [|apply nth_error_None in E; lia]. destruct (C i d E) as [[b A] _]. destruct (path_of st _ b A) as [l Hl]. eauto. }
  assert (R : forall i l b, path st (TPtr i) l b -> rank_of st i = List.length l - 1 /\ root_of st i = b).
  { intros i l b H. unfold rank_of, root_of. rewrite (follow_path _ _ _ _ H) by exact (path_short _ _ _ _ H). auto. }
  split.
  - intros i Hi. destruct (P i Hi) as [l [b H]]. rewrite (proj1 (R i l b H)). pose proof (path_short _ _ _ _ H). lia.
  - intros i d E. destruct (C i d E) as [_ U]. destruct (P i (nth_lt _ _ _ E)) as [l [b H]]. destruct (R i l b H) as [R1 R2]. destruct (path_ptr _ _ _ _ H) as [d0 [l0 [E' [-> H4]]]]. assert (d0 = d) as -> by congruence. clear E'.
    unfold good_def. cbn [List.length] in R1. assert (Hb : known st (def_base d)) by (apply U; destruct d; left; reflexivity). split; [exact Hb|]. split; [|split].
    + destruct (def_base d) as [|x|n|j] eqn:Ed; cbn [rk]; try lia. destruct (R j l0 _ H4) as [R3 _]. destruct (path_ptr _ _ _ _ H4) as [d1 [l1 [_ [-> _]]]]. cbn [List.length] in *. lia.
    + destruct (def_base d) as [|x|n|j] eqn:Ed; cbn [known] in Hb; try contradiction; cbn [bt].
      * inversion H4; congruence.
      * destruct (R j l0 _ H4) as [_ R3]. congruence.
    + destruct d as [c|s]; [|exact I]. intros s u Hu. apply U. right. apply in_or_app. destruct s as [j|j]; cbn [slot_ty] in Hu.
      * left. destruct (nth_error (ct_elems c) j) as [e|] eqn:Ej; [|discriminate]. injection Hu as <-. apply in_map. eapply nth_error_In. exact Ej.
      * right. destruct (nth_error (ct_attrs c) j) as [e|] eqn:Ej; [|discriminate]. injection Hu as <-. apply in_map. eapply nth_error_In. exact Ej.
Qed.
Lemma slot_uses c s u : slot_ty c s = Some u -> In u (map el_type (ct_elems c) ++ map at_type (ct_attrs c))%list.
Proof.
  intros Hu. apply in_or_app. destruct s as [j|j]; cbn [slot_ty] in Hu.
  - left. destruct (nth_error (ct_elems c) j) as [e|] eqn:Ej; [|discriminate]. injection Hu as <-. apply in_map. eapply nth_error_In. exact Ej.
  - right. destruct (nth_error (ct_attrs c) j) as [e|] eqn:Ej; [|discriminate]. injection Hu as <-. apply in_map. eapply nth_error_In. exact Ej.
Qed.
Lemma uses_slot c u : In u (map el_type (ct_elems c) ++ map at_type (ct_attrs c))%list -> exists s, slot_ty c s = Some u.
Proof.
  intros H. apply in_app_or in H as [H|H]; apply in_map_iff in H as [x [<- H]]; apply In_nth_error in H as [j H]; [exists (SE j)|exists (SA j)]; cbn [slot_ty]; rewrite H; reflexivity.
Qed.
Lemma useful_plain s b : useful s b = false <-> plain s b.
Proof.
  unfold useful, plain, simple_doc. split.
  - intros H. apply orb_false_iff in H as [H H4]. apply orb_false_iff in H as [H H3]. apply orb_false_iff in H as [H1 H2].
    destruct (sd_union s); [|discriminate]. destruct (sd_enum s); [|discriminate]. destruct (sd_pattern s); [discriminate|].
    destruct (Z.eqb_spec (sd_maxlen s) 0); [|discriminate]. destruct (Z.eqb_spec (sd_minlen s) 0); [|discriminate]. cbn [negb] in *. auto 10.
  - intros [H1 [H2 [H3 [H4 [H5 [H6 H7]]]]]]. rewrite H1, H2, H3, H4, H5, H6, H7. reflexivity.
Qed.

Section Main.
  Variable fa : option (attribute -> bool).
  Hypothesis fa_name : forall a t, filtered fa (retype_at a t) = filtered fa a.
  Variable ft : option (xname -> bool).
  Variable allow : option (list xname).
  Variable h : nat -> nat.
  Variable Ac : Prop.
  Variable st0 : store.
  Hypothesis C0 : complete st0.
  Hypothesis H0 : Ac -> ranked h st0 /\ forall i, h i <= N.to_nat 1000.
  Notation r := (rank_of st0).
  Notation beta := (root_of st0).
  Definition us0 (i : nat) : bool := match nth_error st0 i with Some (DS s) => useful s (beta i) | _ => true end.
  Notation good := (good r beta).
  Notation low := (low h beta Ac us0).
  Notation evo := (evo fa beta (Q Ac us0)).
  Lemma low0 : low st0.
  Proof using C0 H0.
    intros A i d E. destruct (H0 A) as [K _]. split.
    - destruct (def_base d) as [| | |j] eqn:Eb; cbn [hk]; try lia. apply (K i d j E). rewrite <- Eb. destruct d; left; reflexivity.
    - unfold us0. rewrite E. destruct d as [c|s]; [|reflexivity]. split; [reflexivity|]. intros s u Hu. destruct u as [| | |j]; cbn [hk]; try lia. apply (K i (DC c) j E). right. exact (slot_uses _ _ _ Hu).
  Qed.
  Definition chosen (st : store) (types : list ty) (t : ty) : Prop := In t types /\ exists n, type_name st t = Some n /\ selected ft allow n = true.
  Lemma known_name st t : known st t -> type_name st t <> None.
  Proof. destruct t as [|b|n|i]; cbn [known type_name]; try contradiction; [discriminate|]. intros H. destruct (nth_error st i) eqn:E; [discriminate|]. apply nth_error_None in E. lia. Qed.
  Lemma known_frame st st' t : frame st st' -> known st t -> known st' t.
  Proof. intros F. destruct t; cbn [known]; auto. rewrite (frame_len _ _ F). auto. Qed.
  Lemma flatten_steps types : forall st p, good st -> low st -> evo st0 p st -> (forall t, In t types -> known st0 t) -> (forall x, In x p -> known st0 x) ->
    (Ac -> forall x, In x p -> settled us0 st p x) ->
    exists st' q, foldr (flatten_step fa ft allow) (st, p) types = Ret (st', (p ++ q)%list) /\ good st' /\ low st' /\ evo st0 (p ++ q) st' /\
      (forall x, In x (p ++ q)%list -> known st0 x) /\ (Ac -> forall x, In x (p ++ q)%list -> settled us0 st' (p ++ q) x) /\
      (forall t, chosen st0 types t -> exists v, In v q /\ turns fa beta st0 t v).
  Proof using fa_name C0 H0.
    induction types as [|t types IH]; intros st p G L V Ht Hp Hs; cbn [foldr].
    { exists st, []. rewrite !app_nil_r. do 6 (split; [try assumption; reflexivity|]). intros t [[] _]. }
    unfold flatten_step at 1. pose proof (ev_frame _ _ _ _ _ _ V) as F. rewrite (frame_name _ _ t F). destruct (type_name st0 t) as [n|] eqn:En; [|exfalso; exact (known_name _ _ (Ht t (or_introl eq_refl)) En)].
    destruct (selected ft allow n) eqn:Es.
    - assert (Kt : okty st t) by exact (known_frame _ _ _ F (Ht t (or_introl eq_refl))).
      assert (Hk : Ac -> hk h t <= max_depth). { intros A. destruct (H0 A) as [_ B]. unfold max_depth. destruct t as [| | |j]; cbn [hk]; try lia. specialize (B j). replace (N.to_nat 1001) with (S (N.to_nat 1000)) by lia. lia. }
      assert (fa_n : forall a t, filtered fa (with_ty_a a t) = filtered fa a) by exact fa_name.
      destruct (flatten1_ok fa r h beta Ac us0 fa_n max_depth st t G L Kt Hk) as [st1 [p1 [v [E1 R1]]]]. rewrite E1. cbn [andthen]. destruct R1 as [V1 G1 L1 T1 R1 B1 H1 A1 P1 Q1 S1].
      assert (Ev : match v with TNil => [] | _ => [v] end = [v]) by (destruct v; try reflexivity; destruct T1). rewrite Ev. clear Ev.
      pose proof (evo_trans fa beta fa_n _ _ _ _ _ _ V V1) as V2. apply (evo_more fa beta _ _ _ [v]) in V2.
      assert (Kn : forall x, okty st x -> known st0 x) by (intros x; destruct x; cbn [okty known]; auto; rewrite (frame_len _ _ F); auto).
      assert (D : exists st' q, foldr (flatten_step fa ft allow) (st1, (p ++ p1 ++ [v])%list) types = Ret (st', ((p ++ p1 ++ [v]) ++ q)%list) /\ good st' /\ low st' /\ evo st0 ((p ++ p1 ++ [v]) ++ q) st' /\
        (forall x, In x ((p ++ p1 ++ [v]) ++ q)%list -> known st0 x) /\ (Ac -> forall x, In x ((p ++ p1 ++ [v]) ++ q)%list -> settled us0 st' ((p ++ p1 ++ [v]) ++ q) x) /\
        (forall t, chosen st0 types t -> exists v, In v q /\ turns fa beta st0 t v)).
      { apply IH; auto.
        - rewrite app_assoc. exact V2.
        - intros x Hx. apply Ht. right. exact Hx.
        - intros x Hx. apply in_app_or in Hx as [Hx|Hx]; [exact (Hp x Hx)|]. apply Kn. apply in_app_or in Hx as [Hx|[<-|[]]]; [exact (P1 x Hx)|exact T1].
        - intros A x Hx. apply in_app_or in Hx as [Hx|Hx].
          + apply (settled_more us0 st1 (p ++ p1)); [intros y Hy; rewrite app_assoc; apply in_or_app; left; exact Hy|]. exact (settled_evo fa beta Ac us0 st p p1 st1 x A V1 (Hs A x Hx)).
          + apply (settled_more us0 st1 p1); [intros y Hy; apply in_or_app; right; apply in_or_app; left; exact Hy|]. destruct (S1 A) as [X Y]. apply in_app_or in Hx as [Hx|[<-|[]]]; [exact (Y x Hx)|exact X]. }
      destruct D as [st' [q [E2 [G2 [L2 [V3 [P2 [S2 D2]]]]]]]]. exists st', ((p1 ++ [v]) ++ q)%list. replace (p ++ (p1 ++ [v]) ++ q)%list with ((p ++ p1 ++ [v]) ++ q)%list by (rewrite <- !app_assoc; reflexivity).
      split; [exact E2|]. do 5 (split; [assumption|]). intros u [[<-|Hu] Hn].
      + exists v. split; [apply in_or_app; left; apply in_or_app; right; left; reflexivity|]. apply (turns_trans fa beta fa_n st0 st t t v F (ev_chain _ _ _ _ _ _ V)); [left; reflexivity|exact A1].
      + destruct (D2 u (conj Hu Hn)) as [w [W1 W2]]. exists w. split; [apply in_or_app; right; exact W1|exact W2].
    - destruct (IH st p G L V (fun x Hx => Ht x (or_intror Hx)) Hp Hs) as [st' [q [E2 [G2 [L2 [V3 [P2 [S2 D2]]]]]]]]. exists st', q. split; [exact E2|]. do 5 (split; [assumption|]).
      intros u [[<-|Hu] [m [Hm Hs']]]; [congruence|]. apply D2. split; [exact Hu|eauto].
  Qed.
  Lemma turns_kept u u' : known st0 u -> turns fa beta st0 u u' -> kept fa st0 u u'.
  Proof using C0.
    intros K [->|[A [B [D E]]]]; [left; reflexivity|]. right. split; [exact A|]. split; [exact B|]. split.
    - intros j s Hu Hs. destruct (D j s Hu Hs) as [X Y]. exists (beta j). split; [exact X|]. apply useful_plain. exact Y.
    - intros j c Hu Hc. destruct (E j c Hu Hc) as [X Y]. unfold bare in X. rewrite Forall_forall in X. split; [exact X|]. destruct Y as [Y|[k [Y1 Y2]]].
      + left. exists (beta j). split; [|exact Y]. rewrite Hu. exact (good_root r beta st0 (complete_good st0 C0) (TPtr j) (nth_lt _ _ _ Hc)).
      + right. cbn [is_simple] in Y1. destruct (nth_error st0 k) as [[?|s]|] eqn:Ek; try discriminate. exists k, s. rewrite Hu. auto.
  Qed.
  Lemma evo_flattened p st i d : evo st0 p st -> nth_error st0 i = Some d -> exists d', nth_error st i = Some d' /\ flattened fa st0 d d'.
  Proof using C0.
    intros [F Es Em Ek Ec] E. pose proof (frame_nth _ _ i F) as X. rewrite E in X. cbn [option_map] in X. destruct (nth_error st i) as [d'|] eqn:E'; [|discriminate]. injection X as X. exists d'. split; [reflexivity|].
    destruct (C0 i d E) as [_ U].
    destruct d as [c|s], d' as [c'|s']; cbn [erase_d] in X; try discriminate; injection X as X.
    - apply get_c_nth in E, E'. destruct (Ek i c c' E E') as [K1 K2]. cbn [flattened].
      assert (R : erase_c c = erase_c c') by (unfold erase_c, set_base, set_fields; cbn; congruence).
      split; [apply turns_kept; [apply U; left; reflexivity|exact K2]|].
      assert (X1 := f_equal ct_elems R). assert (X2 := f_equal ct_attrs R). cbn [erase_c set_base set_fields ct_elems ct_attrs] in X1, X2.
      assert (Le : forall j u u', nth_error (map el_type (ct_elems c)) j = Some u -> nth_error (map el_type (ct_elems c')) j = Some u' -> kept fa st0 u u').
      { intros j u u' Hu Hu'. rewrite nth_error_map in Hu, Hu'. apply turns_kept; [|exact (K1 (SE j) u u' Hu Hu')]. apply U. right. exact (slot_uses c (SE j) u Hu). }
      assert (La : forall j u u', nth_error (map at_type (ct_attrs c)) j = Some u -> nth_error (map at_type (ct_attrs c')) j = Some u' -> kept fa st0 u u').
      { intros j u u' Hu Hu'. rewrite nth_error_map in Hu, Hu'. apply turns_kept; [|exact (K1 (SA j) u u' Hu Hu')]. apply U. right. exact (slot_uses c (SA j) u Hu). }
      split; [|split].
      + clear -X1 Le. revert X1 Le. generalize (ct_elems c'). induction (ct_elems c) as [|x l IH]; intros [|y m] X Le; try discriminate; constructor.
        * pose proof (f_equal (hd (with_ty_e x TNil)) X) as X0. cbn [map hd] in X0. pose proof (Le 0 _ _ eq_refl eq_refl) as K. split; [exact K|]. destruct x, y. unfold with_ty_e in X0. cbn in X0. unfold retype_el. cbn. congruence.
        * apply (f_equal (@tl _)) in X. cbn [map tl] in X. apply IH; [assumption|]. intros j u u' Hu Hu'. exact (Le (S j) u u' Hu Hu').
      + clear -X2 La. revert X2 La. generalize (ct_attrs c'). induction (ct_attrs c) as [|x l IH]; intros [|y m] X La; try discriminate; constructor.
        * pose proof (f_equal (hd (with_ty_a x TNil)) X) as X0. cbn [map hd] in X0. pose proof (La 0 _ _ eq_refl eq_refl) as K. split; [exact K|]. destruct x, y. unfold with_ty_a in X0. cbn in X0. unfold retype_at. cbn. congruence.
        * apply (f_equal (@tl _)) in X. cbn [map tl] in X. apply IH; [assumption|]. intros j u u' Hu Hu'. exact (La (S j) u u' Hu Hu').
      + pose proof (f_equal ct_name R). pose proof (f_equal ct_doc R). pose proof (f_equal ct_anon R). pose proof (f_equal ct_mixed R). pose proof (f_equal ct_abstract R). pose proof (f_equal ct_extends R). cbn in *. auto 10.
    - apply get_s_nth in E, E'. cbn [flattened]. split; [destruct (Es i s s' E E') as [Y|Y]; [left; exact Y|right; eauto]|].
      destruct s, s'. unfold erase_s, with_doc_s, with_base_s in X. cbn in *. congruence.
  Qed.
  Theorem flatten_main types : (forall t, In t types -> known st0 t) -> exists st l,
    flatten_types fa ft allow st0 types = Ret (st, l) /\
    (forall i d, nth_error st0 i = Some d -> exists d', nth_error st i = Some d' /\ flattened fa st0 d d') /\ List.length st = List.length st0 /\
    (forall i b, ancestor st0 (TPtr i) (TB b) -> ancestor st (TPtr i) (TB b)) /\ (forall a u, ancestor st a u -> ancestor st0 a u) /\
    complete st /\ (forall x, In x l -> known st x) /\
    (forall t, chosen st0 types t -> exists v, kept fa st0 t v /\ listed st l v) /\
    (forall l1 v l2 w, l = (l1 ++ v :: l2)%list -> In w l1 -> type_name st w <> type_name st v) /\
    (Ac -> forall x, In x l -> ready st l x).
  Proof using fa_name C0 H0.
    intros Ht. destruct (flatten_steps types st0 [] (complete_good st0 C0) low0 (evo_refl fa beta _ st0) Ht) as [st [p [E [G [L [V [P [S D]]]]]]]]; [intros x []|intros _ x []|].
    cbn [app] in *. unfold flatten_types. rewrite E. cbn [andthen fst snd]. pose proof (ev_frame _ _ _ _ _ _ V) as F.
    assert (Pk : forall x, In x p -> known st x) by (intros x Hx; exact (known_frame _ _ _ F (P x Hx))).
    destruct (dedup_ok st p []) as [l El]; [intros v Hv; exact (known_name _ _ (Pk v Hv))|]. rewrite El. cbn [andthen]. exists st, l. split; [reflexivity|].
    destruct (dedup_from_nothing st p l El) as [D1 [D2 [D3 _]]].
    assert (Li : forall v, In v p -> listed st l v). { intros v Hv. destruct (D2 v Hv) as [n [w [Hn [Hw Hk]]]]. exists w. split; [exact Hw|congruence]. }
    assert (Sub : forall x, In x l -> In x p) by (intros x Hx; exact (subseq_in _ _ D1 x Hx)).
    assert (Ro : forall i b, ancestor st0 (TPtr i) (TB b) -> ancestor st (TPtr i) (TB b)).
    { intros i b A. assert (Hi : i < List.length st0). { inversion A as [|t u Hn Ha]; subst. cbn [base_of] in Hn. destruct (nth_error st0 i) eqn:Ei; [exact (nth_lt _ _ _ Ei)|congruence]. }
      pose proof (good_root r beta st0 (complete_good st0 C0) (TPtr i) Hi) as A0. destruct (path_of _ _ _ A) as [l1 Q1]. destruct (path_of _ _ _ A0) as [l2 Q2]. destruct (path_det _ _ _ _ Q1 _ _ Q2) as [_ <-].
      apply (good_root r beta st G (TPtr i)). cbn [okty]. rewrite (frame_len _ _ F). exact Hi. }
    split; [intros i d Hd; exact (evo_flattened p st i d V Hd)|]. split; [exact (frame_len _ _ F)|]. split; [exact Ro|]. split; [exact (ev_chain _ _ _ _ _ _ V)|]. split; [|split; [|split; [|split]]].
    - intros i d Hd. split; [eexists; apply (good_root r beta st G (TPtr i)); exact (nth_lt _ _ _ Hd)|]. intros u Hu. destruct (proj2 G i d Hd) as [K1 [_ [_ K4]]].
      destruct d as [c|s]; cbn [uses def_base] in *; [|destruct Hu as [<-|[]]; exact K1]. destruct Hu as [<-|Hu]; [exact K1|]. destruct (uses_slot c u Hu) as [s Hs]. exact (K4 s u Hs).
    - intros x Hx. exact (Pk x (Sub x Hx)).
    - intros t Hc. destruct (D t Hc) as [v [Hv Hr]]. exists v. split; [apply turns_kept; [apply Ht, Hc|exact Hr]|exact (Li v Hv)].
    - intros l1 v l2 w El' Hw Hn. destruct (type_name st v) as [n|] eqn:Ev; [|destruct (known_name st v); [apply Pk, Sub; rewrite El'; apply in_or_app; right; left; reflexivity|exact Ev]].
      exact (D3 l1 v l2 n El' Ev w Hw Hn).
    - intros A x Hx j Hj. specialize (S A x (Sub x Hx) j Hj).
      assert (Kj : known st (TPtr j)).
      { assert (Z : forall a u, ancestor st a u -> okty st a -> okty st u).
        { clear -G. intros a u H. induction H as [t|t u Hn Ha IH]; intros Ho; [exact Ho|]. apply IH. destruct t as [| | |k]; try (cbn [base_of] in Hn; congruence). cbn [base_of] in *. destruct (nth_error st k) as [d|] eqn:E; [|congruence]. apply (proj2 G k d E). }
        exact (Z x (TPtr j) Hj (Pk x (Sub x Hx))). }
      destruct (nth_error st j) as [[c|s]|] eqn:Ej; [| exact S|cbn [known] in Kj; apply nth_error_None in Ej; lia].
      destruct S as [S1 S2]. split; [|intros Hm; exact (Li _ (S2 Hm))]. intros u Hu. destruct (uses_slot c u Hu) as [s Hs]. destruct (S1 s u Hs) as [X Y]. split; [exact (Li u X)|].
      intros k s1 b -> Hk Hb Hpl. cbn [needed] in Y. assert (Lk := L A k _ Hk). destruct Lk as [_ Lk]. rewrite Y in Lk.
      assert (Eb : b = beta k). { pose proof (good_root r beta st G (TPtr k) (nth_lt _ _ _ Hk)) as A0. destruct (path_of _ _ _ Hb) as [l1 Q1]. destruct (path_of _ _ _ A0) as [l2 Q2]. destruct (path_det _ _ _ _ Q1 _ _ Q2) as [_ Eb]. symmetry. exact Eb. }
      subst b. apply useful_plain in Hpl. congruence.
  Qed.
End Main.

(* ---------- one simple type ---------- *)
Lemma joined_concat sep l : joined sep l = String.concat sep l.
Proof. induction l as [|x l IH]; [reflexivity|]. destruct l as [|y l]; [reflexivity|]. transitivity (x ++ sep ++ joined sep (y :: l)); [reflexivity|]. rewrite IH. reflexivity. Qed.
Lemma documented_doc s b : documented s b (if (sd_list s || match sd_union s with [] => false | _ => true end || non_trivial b)%bool then sd_doc s else match simple_doc s with Some d => d | None => sd_doc s end).
Proof.
  unfold documented, simple_doc. destruct (_ || _ || _)%bool; [reflexivity|]. destruct (sd_enum s) as [|x l] eqn:En; cbn [negb]; [|f_equal; apply joined_concat].
  destruct (sd_pattern s); [reflexivity|]. destruct (negb (sd_maxlen s =? 0)%Z); [reflexivity|]. destruct (negb (sd_minlen s =? 0)%Z); reflexivity.
Qed.
Theorem flatten_simple_type fa k st i s b : complete st -> nth_error st i = Some (DS s) -> ancestor st (TPtr i) (TB b) ->
  exists st' p v s', flatten1 fa (S k) st (TPtr i) = Ret (st', p, v) /\
    (plain s b -> v = TB b) /\ (~ plain s b -> v = TPtr i) /\
    nth_error st' i = Some (DS s') /\ sd_base s' = TB b /\ documented s b (sd_doc s') /\
    (forall x, In x p <-> is_simple st x = true /\ ancestor st (sd_base s) x) /\
    (forall j sj, In (TPtr j) p -> nth_error st' j = Some (DS sj) -> sd_base sj = TB b).
Proof.
  intros C E A. pose proof (complete_good st C) as G. destruct (flatten_simple_ok _ _ st i s G E) as [st' [p [v [F [S [Ev [[s' [Es' [Bs' Ds']]] [Pp Pb]]]]]]]].
  assert (U : forall t x y, ancestor st t (TB x) -> ancestor st t (TB y) -> x = y). { intros t x y A1 A2. destruct (path_of _ _ _ A1) as [l1 Q1]. destruct (path_of _ _ _ A2) as [l2 Q2]. destruct (path_det _ _ _ _ Q1 _ _ Q2) as [_ Eb]. symmetry. exact Eb. }
  assert (Eb : b = root_of st i) by exact (U _ _ _ A (good_root _ _ st G (TPtr i) (nth_lt _ _ _ E))). rewrite <- Eb in *.
  exists st', p, v, s'. split; [cbn [flatten1]; rewrite E; exact F|]. split; [intros Pl; apply useful_plain in Pl; rewrite Pl in Ev; exact Ev|].
  split; [intros Pl; destruct (useful s b) eqn:Us; [exact Ev|destruct Pl; apply useful_plain; exact Us]|]. split; [exact Es'|]. split; [exact Bs'|]. split; [rewrite Ds'; apply documented_doc|]. split.
  - intros x. rewrite Pp. split; [intros [_ X]; exact X|]. intros [X Y]. split; [|auto]. destruct x as [| | |j]; try discriminate. eauto.
  - intros j sj Hj Hs. destruct (Pb _ Hj) as [j' [s1 [[= <-] [X Y]]]]. assert (s1 = sj) as -> by congruence. rewrite Y. f_equal.
    assert (Aj : ancestor st (sd_base s) (TPtr j)) by (apply Pp; exact Hj). assert (Hb : sd_base s <> TNil). { intros Z. rewrite Z in Aj. inversion Aj; subst. cbn [base_of] in *. congruence. }
    assert (Ai : ancestor st (TPtr i) (TPtr j)) by (apply an_base; cbn [base_of]; rewrite E; cbn [def_base]; assumption).
    pose proof (Pp (TPtr j)) as [Z _]. destruct (Z Hj) as [_ [Sj _]]. cbn [is_simple] in Sj. destruct (nth_error st j) as [[?|sj0]|] eqn:Ej; try discriminate.
    exact (eq_sym (U _ _ _ A (an_trans _ _ _ _ Ai (good_root _ _ st G (TPtr j) (nth_lt _ _ _ Ej))))).
Qed.

Lemma flatten_all fa ft allow st types : (forall a t, filtered fa (retype_at a t) = filtered fa a) -> complete st -> (forall t, In t types -> known st t) ->
  exists st' l, flatten_types fa ft allow st types = Ret (st', l) /\
    (forall i d, nth_error st i = Some d -> exists d', nth_error st' i = Some d' /\ flattened fa st d d') /\ List.length st' = List.length st /\
    (forall i b, ancestor st (TPtr i) (TB b) -> ancestor st' (TPtr i) (TB b)) /\ complete st' /\ (forall x, In x l -> known st' x) /\
    (forall t n, In t types -> type_name st t = Some n -> selected ft allow n = true -> exists v, kept fa st t v /\ listed st' l v) /\
    (forall l1 v l2 w, l = (l1 ++ v :: l2)%list -> In w l1 -> type_name st' w <> type_name st' v).
Proof.
  intros F C K. destruct (flatten_main fa F ft allow (fun _ => 0) False st C (fun f => match f with end) types K) as [st' [l [E [D [L [R [_ [C' [Kn [Sl [U _]]]]]]]]]]].
  exists st', l. do 6 (split; [assumption|]). split; [|exact U]. intros t n Ht Hn Hs. apply Sl. split; [exact Ht|eauto].
Qed.
Lemma flatten_closed fa ft allow h st types : (forall a t, filtered fa (retype_at a t) = filtered fa a) -> complete st -> ranked h st -> (forall i, h i <= N.to_nat 1000) ->
  (forall t, In t types -> known st t) ->
  exists st' l, flatten_types fa ft allow st types = Ret (st', l) /\ forall t, In t l -> ready st' l t.
Proof.
  intros F C R H K. destruct (flatten_main fa F ft allow h True st C (fun _ => conj R H) types K) as [st' [l [E [_ [_ [_ [_ [_ [_ [_ [_ Z]]]]]]]]]]]. exists st', l. split; [exact E|exact (Z I)].
Qed.
Lemma flatten1_returns fa : (forall a t, filtered fa (retype_at a t) = filtered fa a) -> forall k st t, complete st -> known st t -> exists st' p v,
  flatten1 fa k st t = Ret (st', p, v) /\ kept fa st t v /\ forall x, In x p -> known st x.
Proof.
  intros F k st t C K. destruct (flatten1_ok fa (rank_of st) (fun _ => 0) (root_of st) False (fun _ => true) F k st t (complete_good st C)) as [st' [p [v [E R]]]]; [intros []|exact K|intros []|].
  exists st', p, v. split; [exact E|]. destruct R as [_ _ _ _ _ _ _ U P _ _]. split; [exact (turns_kept fa st C t v K U)|exact P].
Qed.
Lemma selected_picked ft allow n : selected ft allow n = true <-> picked ft allow n.
Proof.
  unfold selected, picked, filtered. rewrite !andb_true_iff, !negb_true_iff, String.eqb_neq. split.
  - intros [[H1 H2] H3]. split; [exact H1|]. split; [intros f ->; exact H2|]. intros ns ->. unfold mem_name in H3. apply existsb_exists in H3 as (m & H & E). apply xname_eqb_eq in E. congruence.
  - intros (H1 & H2 & H3). split; [split; [exact H1|]|]; [destruct ft; auto|]. destruct allow as [ns|]; [|reflexivity]. apply existsb_exists. exists n. split; [exact (H3 ns eq_refl)|apply xname_eqb_eq; reflexivity].
Qed.
Lemma flatten_picked fa ft allow st types : (forall a t, filtered fa (retype_at a t) = filtered fa a) -> complete st -> (forall t, In t types -> known st t) ->
  exists st' l, flatten_types fa ft allow st types = Ret (st', l) /\
    (forall i d, nth_error st i = Some d -> exists d', nth_error st' i = Some d' /\ flattened fa st d d') /\ List.length st' = List.length st /\
    (forall i b, ancestor st (TPtr i) (TB b) -> ancestor st' (TPtr i) (TB b)) /\ complete st' /\ (forall x, In x l -> known st' x) /\
    (forall t n, In t types -> type_name st t = Some n -> picked ft allow n -> exists v, kept fa st t v /\ listed st' l v) /\
    (forall l1 v l2 w, l = (l1 ++ v :: l2)%list -> In w l1 -> type_name st' w <> type_name st' v).
Proof.
  intros F C K. destruct (flatten_all fa ft allow st types F C K) as [st' [l [E [D [L [R [C' [Kn [Sl U]]]]]]]]]. exists st', l. do 6 (split; [assumption|]). split; [|exact U]. intros t n Ht Hn Hs. apply (Sl t n Ht Hn). apply selected_picked. exact Hs.
Qed.
