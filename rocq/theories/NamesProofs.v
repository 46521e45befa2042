(* Proofs about UseFieldNames. *)
From Verif Require Import Base ScopeModel TreeModel EqualModel BuiltinModel XsdModel XsdProofs TypesModel TypesSpec GenModel SgModel SgFlatSpec SgExpandSpec SgGenSpec NamesModel NamesSpec.
Local Open Scope string_scope.

Lemma named_same n d : same_type d (named n d).
Proof. destruct d; cbn; repeat split. Qed.
Lemma named_anon n d : anonymous (named n d) = false.
Proof. destruct d; reflexivity. Qed.
Lemma named_name n d : def_name (named n d) = n.
Proof. destruct d; reflexivity. Qed.

Section All.
  Variable st0 : store.
  Variable all l : list ty.

  (* how far the types have been named *)
  Definition became (k : nat) (d d' : def) : Prop := d' = d \/ (anonymous d = true /\ exists n, called st0 l n k /\ d' = named n d).
  Definition along (st st' : store) : Prop := List.length st' = List.length st /\ forall k d, nth_error st k = Some d -> exists d', nth_error st' k = Some d' /\ became k d d'.
  Lemma along_refl st : along st st.
  Proof. split; [reflexivity|]. intros k d H. exists d. split; [exact H|left; reflexivity]. Qed.
  Lemma along_trans a b c : along a b -> along b c -> along a c.
  Proof.
    intros [L1 H1] [L2 H2]. split; [congruence|]. intros k d Hk. destruct (H1 k d Hk) as (d1 & Hd1 & B1). destruct (H2 k d1 Hd1) as (d2 & Hd2 & B2). exists d2. split; [exact Hd2|].
    destruct B1 as [->|(An & n & C & ->)]; [exact B2|]. destruct B2 as [->|(An2 & _)]; [right; eauto|]. rewrite named_anon in An2. discriminate.
  Qed.
  Lemma along_set st k d n : nth_error st k = Some d -> anonymous d = true -> called st0 l n k -> along st (set_nth k (named n d) st).
  Proof.
    intros Hk An C. split; [apply set_nth_length|]. intros j d' Hj. rewrite nth_error_set_nth by (apply nth_error_Some; congruence). destruct (Nat.eqb_spec j k) as [->|N].
    - rewrite Hk in Hj. injection Hj as <-. exists (named n d). split; [reflexivity|]. right. eauto.
    - exists d'. split; [exact Hj|left; reflexivity].
  Qed.
  Lemma along_same st st' k d : along st st' -> nth_error st k = Some d -> exists d', nth_error st' k = Some d' /\ same_type d d'.
  Proof. intros [_ H] Hk. destruct (H k d Hk) as (d' & Hd & B). exists d'. split; [exact Hd|]. destruct B as [->|(_ & n & _ & ->)]; [destruct d; cbn; repeat split|apply named_same]. Qed.
  Lemma along_named st st' k d : along st st' -> nth_error st k = Some d -> anonymous d = false -> nth_error st' k = Some d.
  Proof. intros [_ H] Hk A. destruct (H k d Hk) as (d' & Hd & B). destruct B as [->|(A' & _)]; [exact Hd|congruence]. Qed.
  Definition settled (st : store) (k : nat) : Prop := forall d, nth_error st k = Some d -> anonymous d = false.
  Lemma settled_along st st' k : along st st' -> settled st k -> settled st' k.
  Proof.
    intros A S d' Hd'. destruct (nth_error st k) as [d|] eqn:Hk; [|apply nth_error_None in Hk; destruct A as [L _]; assert (k < List.length st') by (apply nth_error_Some; congruence); lia].
    rewrite (along_named _ _ _ _ A Hk (S d Hk)) in Hd'. injection Hd' as <-. apply (S d Hk).
  Qed.
  Lemma set_settled st k d n : nth_error st k = Some d -> settled (set_nth k (named n d) st) k.
  Proof. intros Hk d'. rewrite nth_error_set_nth by (apply nth_error_Some; congruence). rewrite Nat.eqb_refl. intros [= <-]. apply named_anon. Qed.
  Definition complex_at st k := exists c, nth_error st k = Some (DC c).
  Lemma complex_back st st' k : along st st' -> complex_at st' k -> complex_at st k.
  Proof.
    intros A [c Hc]. destruct (nth_error st k) as [d|] eqn:Hk; [|apply nth_error_None in Hk; destruct A as [L _]; assert (k < List.length st') by (apply nth_error_Some; congruence); lia].
    destruct (along_same _ _ _ _ A Hk) as (d' & Hd & S). rewrite Hd in Hc. injection Hc as ->. destruct d as [c0|]; [exists c0; assumption|destruct S].
  Qed.

  (* ---------- one element, one attribute ---------- *)
  Lemma elem_step used st e : (forall k, el_type e = TPtr k -> called st0 l (el_name e) k) ->
    along st (name_elem used st e) /\ forall k, el_type e = TPtr k -> settled (name_elem used st e) k \/ (complex_at st k /\ In (el_name e) used).
  Proof.
    intros C. unfold name_elem. destruct (el_type e) as [| | |k] eqn:T; try (split; [apply along_refl|intros; discriminate]). specialize (C k eq_refl).
    destruct (nth_error st k) as [[c|s]|] eqn:Hk.
    - destruct (ct_anon c) eqn:An; cbn [negb].
      + destruct (existsb (xname_eqb (el_name e)) used) eqn:U.
        * split; [apply along_refl|]. intros k' [= <-]. right. split; [exists c; exact Hk|]. apply existsb_exists in U as (x & I & E). apply xname_eqb_eq in E. rewrite E. exact I.
        * split; [exact (along_set st k (DC c) _ Hk An C)|]. intros k' [= <-]. left. exact (set_settled st k (DC c) _ Hk).
      + split; [apply along_refl|]. intros k' [= <-]. left. intros d. rewrite Hk. intros [= <-]. exact An.
    - destruct (sd_anon s) eqn:An; cbn [negb].
      + split; [exact (along_set st k (DS s) _ Hk An C)|]. intros k' [= <-]. left. exact (set_settled st k (DS s) _ Hk).
      + split; [apply along_refl|]. intros k' [= <-]. left. intros d. rewrite Hk. intros [= <-]. exact An.
    - split; [apply along_refl|]. intros k' [= <-]. left. intros d. rewrite Hk. discriminate.
  Qed.
  Lemma attr_step st a : (forall k, at_type a = TPtr k -> called st0 l (at_name a) k) ->
    along st (name_attr st a) /\ forall k, at_type a = TPtr k -> settled (name_attr st a) k.
  Proof.
    intros C. unfold name_attr. destruct (at_type a) as [| | |k] eqn:T; try (split; [apply along_refl|intros; discriminate]). specialize (C k eq_refl).
    destruct (nth_error st k) as [d|] eqn:Hk; [|split; [apply along_refl|]; intros k' [= <-] d; rewrite Hk; discriminate].
    destruct (anonymous d) eqn:An; cbn [negb].
    - split; [exact (along_set st k d _ Hk An C)|]. intros k' [= <-]. exact (set_settled st k d _ Hk).
    - split; [apply along_refl|]. intros k' [= <-] d'. rewrite Hk. intros [= <-]. exact An.
  Qed.
  Lemma elem_steps used : forall es st, (forall e k, In e es -> el_type e = TPtr k -> called st0 l (el_name e) k) ->
    let st' := fold_left (name_elem used) es st in
    along st st' /\ forall e k, In e es -> el_type e = TPtr k -> settled st' k \/ (complex_at st k /\ In (el_name e) used).
  Proof.
    cbv zeta. induction es as [|e es IH]; intros st C; [split; [apply along_refl|intros ? ? []]|]. cbn [fold_left].
    destruct (elem_step used st e (fun k => C e k (or_introl eq_refl))) as [A1 S1]. destruct (IH (name_elem used st e) (fun e' k I => C e' k (or_intror I))) as [A2 S2].
    split; [exact (along_trans _ _ _ A1 A2)|]. intros e' k [<-|I] T.
    - destruct (S1 k T) as [S|S]; [left; exact (settled_along _ _ _ A2 S)|right; exact S].
    - destruct (S2 e' k I T) as [S|[S U]]; [left; exact S|right; split; [exact (complex_back _ _ _ A1 S)|exact U]].
  Qed.
  Lemma attr_steps : forall ats st, (forall a k, In a ats -> at_type a = TPtr k -> called st0 l (at_name a) k) ->
    let st' := fold_left name_attr ats st in along st st' /\ forall a k, In a ats -> at_type a = TPtr k -> settled st' k.
  Proof.
    cbv zeta. induction ats as [|a ats IH]; intros st C; [split; [apply along_refl|intros ? ? []]|]. cbn [fold_left].
    destruct (attr_step st a (fun k => C a k (or_introl eq_refl))) as [A1 S1]. destruct (IH (name_attr st a) (fun e' k I => C e' k (or_intror I))) as [A2 S2].
    split; [exact (along_trans _ _ _ A1 A2)|]. intros a' k [<-|I] T; [exact (settled_along _ _ _ A2 (S1 k T))|exact (S2 a' k I T)].
  Qed.
  (* ---------- one type ---------- *)
  Lemma names_in_use st used : mapo (type_name st) all = Some used -> forall n, In n used -> exists t, In t all /\ type_name st t = Some n.
  Proof.
    revert used. induction all as [|t ts IH]; intros used; [intros [= <-] n []|]. cbn [mapo]. destruct (type_name st t) as [m|] eqn:T; [|discriminate]. destruct (mapo (type_name st) ts) as [u|]; [|discriminate].
    intros [= <-] n [<-|I]; [exists t; split; [left; reflexivity|exact T]|]. destruct (IH u eq_refl n I) as (t' & I' & T'). exists t'. split; [right; exact I'|exact T'].
  Qed.
  Definition left_over st n k : Prop := complex_at st k /\ exists t, In t all /\ type_name st t = Some n.
  Lemma type_step st st' t : along st0 st -> In t l -> use_names st all t = Ret st' ->
    along st st' /\ (forall n k, elem_called st0 [t] n k -> settled st' k \/ left_over st n k) /\ (forall n k, attr_called st0 [t] n k -> settled st' k).
  Proof.
    intros A0 It. unfold use_names. destruct (mapo (type_name st) all) as [used|] eqn:U; [|discriminate].
    assert (None' : forall P : store -> Prop, (forall i, t <> TPtr i) \/ (exists i, t = TPtr i /\ get_c st i = None) -> along st st /\ (forall n k, elem_called st0 [t] n k -> settled st k \/ left_over st n k) /\ (forall n k, attr_called st0 [t] n k -> settled st k)).
    { intros _ N. split; [apply along_refl|]. assert (X : forall i c, t = TPtr i -> nth_error st0 i = Some (DC c) -> False).
      { intros i c -> Hc. destruct N as [N|(j & [= <-] & G)]; [exact (N i eq_refl)|]. destruct (along_same _ _ _ _ A0 Hc) as (d' & Hd & S). unfold get_c in G. rewrite Hd in G. destruct d'; [discriminate|destruct S]. }
      split; intros n k (i & c & e & [E|[]] & Hc & _); destruct (X i c E Hc). }
    destruct t as [|b|m|i]; try (intros [= <-]; apply (None' (fun _ => True)); left; congruence). destruct (get_c st i) as [c|] eqn:G; [|intros [= <-]; apply (None' (fun _ => True)); right; eauto].
    intros [= <-]. clear None'. assert (Gc : nth_error st i = Some (DC c)) by (unfold get_c in G; destruct (nth_error st i) as [[?|?]|]; congruence).
    (* the fields are those of the start *)
    assert (exists c0, nth_error st0 i = Some (DC c0) /\ ct_elems c0 = ct_elems c /\ ct_attrs c0 = ct_attrs c) as (c0 & Hc0 & Ee & Ea).
    { destruct (nth_error st0 i) as [d|] eqn:Hi; [|apply nth_error_None in Hi; destruct A0 as [L _]; assert (i < List.length st) by (apply nth_error_Some; congruence); lia].
      destruct (along_same _ _ _ _ A0 Hi) as (d' & Hd & S). rewrite Gc in Hd. injection Hd as <-. destruct d as [c0|]; [|destruct S]. exists c0. destruct S as (_ & _ & S1 & S2 & _). auto. }
    destruct (elem_steps used (ct_elems c) st) as [A1 S1]. { intros e k I T. left. exists i, c0, e. rewrite Ee. auto. }
    set (st1 := fold_left (name_elem used) (ct_elems c) st) in *. destruct (attr_steps (ct_attrs c) st1) as [A2 S2]. { intros a k I T. right. exists i, c0, a. rewrite Ea. auto. }
    split; [exact (along_trans _ _ _ A1 A2)|]. split.
    - intros n k (j & c' & e & [[= <-]|[]] & Hc & I & Hn & T). rewrite Hc0 in Hc. injection Hc as <-. rewrite Ee in I. destruct (S1 e k I T) as [S|[S Us]]; [left; exact (settled_along _ _ _ A2 S)|]. right. split; [exact S|]. rewrite Hn in Us. exact (names_in_use st used U n Us).
    - intros n k (j & c' & a & [[= <-]|[]] & Hc & I & Hn & T). rewrite Hc0 in Hc. injection Hc as <-. rewrite Ea in I. exact (S2 a k I T).
  Qed.
  (* ---------- all types ---------- *)
  Lemma all_steps : forall l1 st st', (forall t, In t l1 -> In t l) -> along st0 st -> use_all st all l1 = Ret st' ->
    along st st' /\ (forall n k, elem_called st0 l1 n k -> settled st' k \/ exists st1, along st st1 /\ along st1 st' /\ left_over st1 n k) /\ (forall n k, attr_called st0 l1 n k -> settled st' k).
  Proof.
    induction l1 as [|t l1 IH]; intros st st' Il A0.
    - intros [= <-]. split; [apply along_refl|]. split; intros n k (i & c & e & [] & _).
    - unfold use_all. cbn [foldr]. destruct (use_names st all t) as [st1| | |] eqn:U; try discriminate. cbn [andthen]. intros H. fold (use_all st1 all l1) in H.
      destruct (type_step st st1 t A0 (Il t (or_introl eq_refl)) U) as (A1 & E1 & B1). destruct (IH st1 st' (fun t' I => Il t' (or_intror I)) (along_trans _ _ _ A0 A1) H) as (A2 & E2 & B2).
      split; [exact (along_trans _ _ _ A1 A2)|]. split.
      + intros n k (i & c & e & [Ht|I] & R).
        * destruct (E1 n k) as [S|S]; [exists i, c, e; split; [left; exact Ht|exact R]|left; exact (settled_along _ _ _ A2 S)|]. right. exists st. split; [apply along_refl|]. split; [exact (along_trans _ _ _ A1 A2)|exact S].
        * destruct (E2 n k) as [S|(s & X & Y & S)]; [exists i, c, e; split; [exact I|exact R]|left; exact S|]. right. exists s. split; [exact (along_trans _ _ _ A1 X)|]. split; [exact Y|exact S].
      + intros n k (i & c & a & [Ht|I] & R); [apply (settled_along _ _ _ A2), (B1 n k); exists i, c, a; split; [left; exact Ht|exact R]|apply (B2 n k); exists i, c, a; split; [exact I|exact R]].
  Qed.
End All.

Section Results.
  Variable st : store.
  Variable all l : list ty.
  Variable st' : store.
  Hypothesis H : use_all st all l = Ret st'.
  Let steps : along st l st st' /\ (forall n k, elem_called st l n k -> settled st' k \/ exists st1, along st l st st1 /\ along st l st1 st' /\ left_over all st1 n k) /\ (forall n k, attr_called st l n k -> settled st' k) :=
    all_steps st all l l st st' (fun t I => I) (along_refl st l st) H.

  Theorem kept : List.length st' = List.length st /\ forall k d, nth_error st k = Some d -> exists d', nth_error st' k = Some d' /\ same_type d d' /\
    (d' = d \/ (anonymous d = true /\ anonymous d' = false /\ called st l (def_name d') k)).
  Proof.
    destruct steps as (A & _). destruct A as [L A]. split; [exact L|]. intros k d Hk. destruct (A k d Hk) as (d' & Hd & B). exists d'. split; [exact Hd|].
    destruct B as [->|(An & n & C & ->)]; [split; [destruct d; cbn; repeat split|left; reflexivity]|]. split; [apply named_same|]. right. rewrite named_anon, named_name. auto.
  Qed.
  Lemma name_then s1 t n : along st l st s1 -> along st l s1 st' -> type_name s1 t = Some n -> type_name st' t = Some n \/ type_name st t = Some n.
  Proof.
    intros [L1 A1] [L2 A2]. destruct t as [|b|m|j]; cbn [type_name]; try (left; assumption). destruct (nth_error s1 j) as [d1|] eqn:H1; [|discriminate]. cbn [option_map]. intros [= <-].
    destruct (A2 j d1 H1) as (d2 & H2 & B2). rewrite H2. cbn [option_map]. destruct B2 as [->|(An & _)]; [left; reflexivity|]. right.
    destruct (nth_error st j) as [d0|] eqn:H0; [|apply nth_error_None in H0; assert (j < List.length s1) by (apply nth_error_Some; congruence); lia]. cbn [option_map].
    destruct (A1 j d0 H0) as (d1' & H1' & B1). rewrite H1 in H1'. injection H1' as <-. destruct B1 as [->|(_ & m & _ & ->)]; [reflexivity|]. rewrite named_anon in An. discriminate.
  Qed.
  Theorem still_anonymous k : is_anon st' k -> (forall n, ~ attr_called st l n k) /\
    (forall n, elem_called st l n k -> is_complex st (TPtr k) = true /\ exists t, In t all /\ (type_name st' t = Some n \/ type_name st t = Some n)).
  Proof.
    intros (d' & Hd & An). destruct steps as (A & E & B). split.
    - intros n C. rewrite (B n k C d' Hd) in An. discriminate.
    - intros n C. destruct (E n k C) as [S|(s1 & A1 & A2 & Cx & t & It & T)]; [rewrite (S d' Hd) in An; discriminate|]. split.
      + destruct (complex_back _ _ _ _ _ A1 Cx) as [c Hc]. unfold is_complex. rewrite Hc. reflexivity.
      + exists t. split; [exact It|]. exact (name_then s1 t n A1 A2 T).
  Qed.
  Theorem all_named : one_name st all l -> forall k n, is_anon st k -> called st l n k -> exists d', nth_error st' k = Some d' /\ def_name d' = n /\ anonymous d' = false.
  Proof.
    intros O k n An C. destruct (O k n An C) as [On Oc]. assert (S : settled st' k).
    { destruct steps as (A & E & B). destruct C as [C|C]; [|exact (B n k C)]. destruct (E n k C) as [S|(s1 & A1 & A2 & Cx & t & It & T)]; [exact S|].
      destruct (complex_back _ _ _ _ _ A1 Cx) as [c Hc]. assert (X : is_complex st (TPtr k) = true) by (unfold is_complex; rewrite Hc; reflexivity). destruct (Oc X) as [O1 O2].
      specialize (O1 t It). destruct t as [|b|m|j]; cbn [type_name] in *; try congruence. destruct A1 as [L1 A1]. destruct (nth_error s1 j) as [d1|] eqn:H1; [|discriminate]. cbn [option_map] in T. injection T as T.
      destruct (nth_error st j) as [d0|] eqn:H0; [|apply nth_error_None in H0; assert (j < List.length s1) by (apply nth_error_Some; congruence); lia].
      destruct (A1 j d0 H0) as (d1' & H1' & B1). rewrite H1 in H1'. injection H1' as <-. destruct B1 as [->|(An1 & m & Cm & ->)]; [cbn [option_map] in O1; congruence|]. rewrite named_name in T. subst m.
      assert (Ej : j = k) by (apply O2; [exists d0; auto|exact Cm]). subst j. apply (settled_along st l _ _ _ A2). intros d. rewrite H1. intros [= <-]. apply named_anon. }
    destruct steps as (A & _). destruct An as (d & Hk & An). destruct A as [L A]. destruct (A k d Hk) as (d' & Hd & B). exists d'. split; [exact Hd|]. specialize (S d' Hd). split; [|exact S].
    destruct B as [->|(_ & m & Cm & ->)]; [congruence|]. rewrite named_name. exact (On m Cm).
  Qed.

  (* ---------- generable stays generable ---------- *)
  Lemma same_base d d' : same_type d d' -> def_base d' = def_base d /\ uses d' = uses d.
  Proof. destruct d, d'; cbn; try contradiction; [intros (_ & -> & -> & -> & _)|intros (-> & _)]; auto. Qed.
  Lemma back k d' : nth_error st' k = Some d' -> exists d, nth_error st k = Some d /\ same_type d d'.
  Proof.
    intros Hd. destruct kept as [L K]. destruct (nth_error st k) as [d|] eqn:Hk; [|apply nth_error_None in Hk; assert (k < List.length st') by (apply nth_error_Some; congruence); lia].
    destruct (K k d Hk) as (x & Hx & S & _). rewrite Hd in Hx. injection Hx as <-. eauto.
  Qed.
  Lemma base_same t : base_of st' t = base_of st t.
  Proof.
    destruct t as [| | |k]; try reflexivity. cbn [base_of]. destruct kept as [L K]. destruct (nth_error st k) as [d|] eqn:Hk.
    - destruct (K k d Hk) as (d' & -> & S & _). apply (same_base d d' S).
    - apply nth_error_None in Hk. rewrite (proj2 (nth_error_None st' k)) by lia. reflexivity.
  Qed.
  Lemma ancestor_same t u : ancestor st t u <-> ancestor st' t u.
  Proof. split; induction 1 as [|t u N _ IH]; try apply an_self; apply an_base; rewrite ?base_same in *; assumption. Qed.
  Theorem stays_generable h : generable h st -> names_unused st l -> generable h st'.
  Proof.
    intros [Gc Ga Gr Gm Gt Gl] U. destruct kept as [L K]. split.
    - intros i d' Hd. destruct (back i d' Hd) as (d & Hk & S). destruct (same_base d d' S) as [_ Su]. destruct (Gc i d Hk) as [(b & A) Ku]. split; [exists b; apply ancestor_same; exact A|]. rewrite Su. intros u I. specialize (Ku u I). destruct u; try exact Ku. cbn [known] in *. lia.
    - intros i d' t Hd. destruct (back i d' Hd) as (d & Hk & _). destruct (K i d Hk) as (x & Hx & _ & B). rewrite Hd in Hx. injection Hx as <-. destruct t as [|b|m|j]; cbn [type_name]; try (intros; exact I).
      + intros [= E]. destruct B as [->|(An & _ & C)]; [exact (Ga i d (TB b) Hk (f_equal Some E))|]. assert (An' : is_anon st i) by (exists d; auto). destruct (U i _ An' C) as (_ & _ & _ & Ub). exact (Ub b E).
      + destruct (nth_error st' j) as [e'|] eqn:He; [|discriminate]. cbn [option_map]. intros [= E]. destruct (back j e' He) as (e & Hj & _). destruct (K j e Hj) as (x & Hx & _ & B'). rewrite He in Hx. injection Hx as <-.
        destruct B as [->|(An & _ & C)], B' as [->|(An' & _ & C')].
        * apply (Ga i d (TPtr j) Hk). cbn [type_name]. rewrite Hj. cbn. congruence.
        * assert (X : is_anon st j) by (exists e; auto). destruct (U j _ X C') as (_ & _ & Un & _). destruct (Un i d Hk). congruence.
        * assert (X : is_anon st i) by (exists d; auto). destruct (U i _ X C) as (_ & _ & Un & _). destruct (Un j e Hj). congruence.
        * assert (X : is_anon st i) by (exists d; auto). assert (X' : is_anon st j) by (exists e; auto). destruct (U i _ X C) as (_ & Uk & _). rewrite <- E in Uk. exact (Uk j X' C').
    - intros i d' j Hd. destruct (back i d' Hd) as (d & Hk & S). rewrite (proj2 (same_base d d' S)). apply (Gr i d j Hk).
    - intros i c' j b' Hi Hm Hb Hj. destruct (back i _ Hi) as (d & Hk & S). destruct d as [c|]; [|destruct S]. destruct (back j _ Hj) as (e & He & S'). destruct e as [b|]; [|destruct S'].
      destruct S as (_ & Sb & _ & _ & _ & _ & Sm). destruct S' as (_ & _ & _ & _ & _ & _ & Sm'). rewrite Sm in Hm. rewrite Sb in Hb. destruct (Gm i c j b Hk Hm Hb He) as [G|G]; [left; congruence|]. right. intros k s Hs A.
      destruct (back k _ Hs) as (x & Hx & Sx). destruct x as [|s0]; [destruct Sx|]. apply (G k s0 Hx). apply ancestor_same. exact A.
    - intros i d' u b Hd Iu A. destruct (back i d' Hd) as (d & Hk & S). rewrite (proj2 (same_base d d' S)) in Iu. apply (Gt i d u b Hk Iu). apply ancestor_same. exact A.
    - intros i s' b Hi Hl A. destruct (back i _ Hi) as (d & Hk & S). destruct d as [|s]; [destruct S|]. destruct S as (_ & _ & Sl & _). rewrite Sl in Hl. apply (Gl i s b Hk Hl). apply ancestor_same. exact A.
  Qed.
End Results.

Lemma nth_same {A} : forall l l' : list A, (forall k, nth_error l k = nth_error l' k) -> l = l'.
Proof. induction l as [|a l IH]; intros [|b l'] E; [reflexivity|discriminate (E 0)|discriminate (E 0)|]. f_equal; [injection (E 0); auto|apply IH; intros k; exact (E (S k))]. Qed.
(* the order of the types does not matter if there are no conflicts *)
Lemma called_perm st l l' n k : Permutation.Permutation l l' -> called st l n k -> called st l' n k.
Proof. intros P [(i & c & e & I & R)|(i & c & a & I & R)]; [left; exists i, c, e|right; exists i, c, a]; (split; [eapply Permutation.Permutation_in; eassumption|exact R]). Qed.
Theorem any_order st all l l' st1 st2 : Permutation.Permutation l l' -> one_name st all l -> use_all st all l = Ret st1 -> use_all st all l' = Ret st2 -> st1 = st2.
Proof.
  intros P O H1 H2. assert (O' : one_name st all l').
  { intros k n An C. apply (called_perm _ _ _ _ _ (Permutation.Permutation_sym P)) in C. destruct (O k n An C) as [O1 O2]. split; [intros n' C'; apply O1, (called_perm _ _ _ _ _ (Permutation.Permutation_sym P)), C'|].
    intros X. destruct (O2 X) as [O3 O4]. split; [exact O3|]. intros k' An' C'. apply (O4 k' An'), (called_perm _ _ _ _ _ (Permutation.Permutation_sym P)), C'. }
  destruct (kept _ _ _ _ H1) as [L1 K1]. destruct (kept _ _ _ _ H2) as [L2 K2]. apply nth_same. intros k. destruct (nth_error st k) as [d|] eqn:Hk.
  2: { apply nth_error_None in Hk. rewrite !(proj2 (nth_error_None _ k)) by lia. reflexivity. }
  destruct (K1 k d Hk) as (d1 & Hd1 & S1 & B1). destruct (K2 k d Hk) as (d2 & Hd2 & S2 & B2). rewrite Hd1, Hd2. f_equal.
  assert (Eq : forall a b, same_type d a -> same_type d b -> def_name a = def_name b -> anonymous a = anonymous b -> a = b).
  { clear. intros a b. destruct d as [c|s], a as [a|a], b as [b|b]; cbn; try contradiction; destruct a, b; cbn; intros; repeat match goal with X : _ /\ _ |- _ => destruct X end; subst; reflexivity. }
  assert (Nm : forall n, is_anon st k -> called st l n k -> def_name d1 = n /\ anonymous d1 = false /\ def_name d2 = n /\ anonymous d2 = false).
  { intros n An C. destruct (all_named _ _ _ _ H1 O k n An C) as (x & Hx & E1 & E2). destruct (all_named _ _ _ _ H2 O' k n An (called_perm _ _ _ _ _ P C)) as (y & Hy & E3 & E4). rewrite Hd1 in Hx. rewrite Hd2 in Hy. injection Hx as <-. injection Hy as <-. auto. }
  destruct B1 as [E1|(An & _ & C)]; [destruct B2 as [E2|(An & _ & C)]; [congruence|apply (called_perm _ _ _ _ _ (Permutation.Permutation_sym P)) in C]|];
  (destruct (Nm _ (ex_intro _ d (conj Hk An)) C) as (F1 & F2 & F3 & F4); apply Eq; [exact S1|exact S2|congruence|congruence]).
Qed.
(* it returns unless a type is nil *)
Lemma length_use_names st all t : (forall u, In u all -> type_name st u <> None) -> exists st', use_names st all t = Ret st'.
Proof.
  intros N. unfold use_names. assert (exists used, mapo (type_name st) all = Some used) as [used ->].
  { induction all as [|u us IH]; [exists []; reflexivity|]. cbn [mapo]. pose proof (N u (or_introl eq_refl)) as Nu. destruct (type_name st u); [|congruence]. destruct IH as (xs0 & Hxs); [intros v I; apply N; right; exact I|]. rewrite Hxs. eauto. }
  destruct t as [| | |i]; eauto. destruct (get_c st i); eauto.
Qed.
Theorem returns st all l : (forall u, In u all -> type_name st u <> None) -> exists st', use_all st all l = Ret st'.
Proof.
  revert st. assert (G : forall l1 st0 st, (forall t, In t l1 -> In t l) -> (forall u, In u all -> type_name st u <> None) -> along st0 l st0 st -> exists st', use_all st all l1 = Ret st').
  { induction l1 as [|t l1 IH]; intros st0 st Il N A; [exists st; reflexivity|]. destruct (length_use_names st all t N) as [st1 H1]. destruct (type_step st0 all l st st1 t A (Il t (or_introl eq_refl)) H1) as (A1 & _).
    destruct (IH st0 st1) as [st' H']; [intros; apply Il; right; assumption| |exact (along_trans _ _ _ _ _ A A1)|exists st'; unfold use_all; cbn [foldr]; rewrite H1; exact H'].
    intros u I. specialize (N u I). destruct u as [| | |j]; cbn [type_name] in *; try assumption. destruct A1 as [L1 _]. intros X. destruct (nth_error st1 j) eqn:E; [discriminate|]. apply nth_error_None in E. rewrite (proj2 (nth_error_None st j)) in N by lia. apply N. reflexivity. }
  intros st N. apply (G l st st); auto. apply along_refl.
Qed.
