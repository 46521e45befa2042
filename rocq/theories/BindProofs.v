(* Values survive being written and read back. *)
From Verif Require Import Base ScopeModel TreeModel EqualModel BuiltinModel XsdModel XsdProofs TypesModel GenModel SgModel SgStruct SgTags BindModel BindSpec.
Local Open Scope string_scope.

Lemma find_unique {A} (c : A -> bool) l u : In u l -> c u = true -> (forall w, In w l -> c w = true -> w = u) -> find c l = Some u.
Proof.
  intros I C U. induction l as [|a l IH]; [destruct I|]. cbn [find]. destruct (c a) eqn:E; [rewrite (U a (or_introl eq_refl) E); reflexivity|].
  destruct I as [->|I]; [congruence|]. apply IH; [exact I|]. intros w H. apply U. right. exact H.
Qed.
Lemma map_nodup_inj {A B} (f : A -> B) l a b : NoDup (map f l) -> In a l -> In b l -> f a = f b -> a = b.
Proof.
  induction l as [|x l IH]; [intros _ []|]. cbn [map]. intros N Ha Hb E. inversion N as [|? ? N1 N2]; subst.
  destruct Ha as [->|Ha], Hb as [->|Hb]; auto; exfalso; apply N1; [rewrite E|rewrite <- E]; apply in_map; assumption.
Qed.
Lemma Forall2_concat {A B C} (R : B -> C -> Prop) (f : A -> list B) : forall l ys, Forall2 R (flat_map f l) ys -> exists yss, ys = concat yss /\ Forall2 (fun a y => Forall2 R (f a) y) l yss.
Proof.
  induction l as [|a l IH]; cbn [flat_map]; intros ys H; [inversion H; subst; exists []; split; [reflexivity|constructor]|].
  apply Forall2_app_inv_l in H as (y1 & y2 & H1 & H2 & ->). destruct (IH _ H2) as (yss & -> & F). exists (y1 :: yss). split; [reflexivity|constructor; assumption].
Qed.
Lemma Forall2_len {A B} (R : A -> B -> Prop) l m : Forall2 R l m -> List.length l = List.length m.
Proof. induction 1; cbn; congruence. Qed.
Lemma foldo_filter {A B} (f : A -> B -> option A) (p : B -> bool) : forall l a, (forall b a, In b l -> p b = false -> f a b = Some a) -> foldo f a l = foldo f a (filter p l).
Proof.
  induction l as [|b l IH]; intros a H; [reflexivity|]. cbn [foldo filter]. destruct (p b) eqn:E.
  - cbn [foldo]. destruct (f a b); [|reflexivity]. apply IH. intros; apply H; [right|]; assumption.
  - rewrite (H b a (or_introl eq_refl) E). apply IH. intros; apply H; [right|]; assumption.
Qed.
Lemma set_nth_id {A} : forall (l : list A) j x, nth_error l j = Some x -> set_nth j x l = l.
Proof. induction l as [|a l IH]; intros [|j] x H; cbn in *; try discriminate; [congruence|]. f_equal. auto. Qed.
Lemma nth_ext_eq {A} : forall (l m : list A), (forall j, nth_error l j = nth_error m j) -> l = m.
Proof.
  induction l as [|a l IH]; intros [|b m] H; [reflexivity| | |]; try (specialize (H 0); discriminate).
  pose proof (H 0) as H0. injection H0 as <-. f_equal. apply IH. intros j. exact (H (S j)).
Qed.

Section Round.
  Variable exported : string -> bool.
  Variable structs : string -> option spec.
  Variable Leaf : Type.
  Variable print : string -> Leaf -> string.
  Variable read : string -> Leaf -> string -> option Leaf.
  Variable zero_leaf : string -> Leaf.
  Variable is_empty : string -> Leaf -> bool.
  Variable zero : gexpr -> val Leaf.
  Variable good : string -> Leaf -> Prop.
  Variable declares : xattr -> bool.
  Variable clean : string -> string.
  Variable converts : string -> string -> Prop.
  Notation val := (val Leaf).
  Notation VLeaf := (VLeaf Leaf).
  Notation VStruct := (VStruct Leaf).
  Notation VSlice := (VSlice Leaf).
  Notation leaf := (leaf structs).
  Notation struct_of := (struct_of structs).
  Notation has_type := (has_type structs Leaf good).
  Notation fits := (fits structs converts).
  Notation shallow := (shallow structs).
  Notation marshal := (marshal exported structs Leaf print is_empty).
  Notation unmarshal := (unmarshal exported structs Leaf read zero).
  Notation into := (into structs Leaf zero).
  Notation update := (update Leaf).
  Notation reads_back := (reads_back declares clean).
  Hypothesis Hz : zero_ok structs Leaf zero_leaf zero.
  Hypothesis Hrefl : forall t, converts t t.
  Hypothesis Hcodec : forall from to x, converts from to -> good to x -> read to (zero_leaf from) (clean (print to x)) = Some x.
  Hypothesis Hempty : forall t x, good t x -> is_empty t x = true -> x = zero_leaf t.
  Hypothesis Hbind : forall n s, structs n = Some s -> bindable exported structs declares converts s.

  Lemma val_ind' (P : val -> Prop) : (forall x, P (VLeaf x)) -> (forall l, Forall P l -> P (VStruct l)) -> (forall l, Forall P l -> P (VSlice l)) -> forall v, P v.
  Proof.
    intros H1 H2 H3. fix IH 1. intros [x|l|l]; [apply H1|apply H2|apply H3]; induction l as [|v l IHl]; constructor; auto.
  Qed.
  Lemma leaf_struct e : leaf e = true -> struct_of e = None.
  Proof. destruct e as [n|e]; cbn; [|reflexivity]. destruct (structs n); congruence. Qed.
  Lemma fits_refl e : fits e e.
  Proof. unfold fits. destruct (leaf e) eqn:E; [|reflexivity]. split; [reflexivity|apply Hrefl]. Qed.
  Lemma into_leaf rd e old : leaf e = true -> into rd e old = rd e old.
  Proof. intros H. destruct e; cbn [BindModel.into]; rewrite H; reflexivity. Qed.
  Lemma into_id rd n old : into rd (EId n) old = rd (EId n) old.
  Proof. cbn [BindModel.into]. destruct (leaf (EId n)); reflexivity. Qed.
  Lemma into_arr rd e l : leaf (EArr e) = false -> into rd (EArr e) (VSlice l) = option_map (fun w => VSlice (l ++ [w])) (into rd e (zero e)).
  Proof. intros H. cbn [BindModel.into]. rewrite H. reflexivity. Qed.

  Lemma foldo_update {X} (g : X -> val -> option val) j : forall xs cur w w', nth_error cur j = Some w -> foldo (fun w x => g x w) w xs = Some w' ->
    foldo (fun vs x => update vs j (g x)) cur xs = Some (set_nth j w' cur).
  Proof.
    induction xs as [|x xs IH]; cbn [foldo]; intros cur w w' H E; [injection E as <-; rewrite set_nth_id; auto|].
    unfold BindModel.update at 1. rewrite H. destruct (g x w) as [w1|] eqn:G; [|discriminate].
    assert (L : j < List.length cur) by (apply nth_error_Some; congruence).
    rewrite (IH (set_nth j w1 cur) w1 w'); [|rewrite nth_error_set_nth, Nat.eqb_refl by exact L; reflexivity|exact E].
    f_equal. apply nth_ext_eq. intros k. rewrite !nth_error_set_nth by (rewrite ?set_nth_length; exact L). destruct (Nat.eqb k j); reflexivity.
  Qed.
  Lemma foldo_one (c : finfo -> bool) (g : finfo -> val -> option val) u : forall l cur, In u l -> NoDup (map fi_idx l) -> c u = true -> (forall w, In w l -> fi_idx w <> fi_idx u -> c w = false) ->
    foldo (fun vs i => if c i then update vs (fi_idx i) (g i) else Some vs) cur l = update cur (fi_idx u) (g u).
  Proof.
    assert (N0 : forall l cur, (forall w, In w l -> c w = false) -> foldo (fun vs i => if c i then update vs (fi_idx i) (g i) else Some vs) cur l = Some cur).
    { induction l as [|w l IH]; intros cur H; [reflexivity|]. cbn [foldo]. rewrite (H w (or_introl eq_refl)). apply IH. intros; apply H; right; assumption. }
    induction l as [|w l IH]; intros cur I N C U; [destruct I|]. cbn [map] in N. inversion N as [|? ? N1 N2]; subst. cbn [foldo]. destruct I as [->|I].
    - rewrite C. destruct (update cur (fi_idx u) (g u)) as [cur'|]; [|reflexivity]. apply N0. intros w Hw. apply U; [right; exact Hw|]. intros E. apply N1. rewrite <- E. apply in_map. exact Hw.
    - rewrite (U w (or_introl eq_refl)); [|intros E; apply N1; rewrite E; apply in_map; exact I]. apply IH; auto. intros; apply U; [right|]; assumption.
  Qed.

  Lemma elements_flat_map {A} (f : A -> list node) l : elements (flat_map f l) = flat_map (fun x => elements (f x)) l.
  Proof. unfold elements. induction l as [|x l IH]; [reflexivity|]. cbn [flat_map]. rewrite filter_app, IH. reflexivity. Qed.
  Lemma marshal_elements : forall v name e, elements (marshal v name e) = marshal v name e.
  Proof.
    apply (val_ind' (fun v => forall name e, elements (marshal v name e) = marshal v name e)).
    - reflexivity.
    - intros l _ name e. cbn [BindModel.marshal]. destruct (struct_of e) as [s|]; [|reflexivity]. destruct (marshal_info exported s); reflexivity.
    - intros l IH name e. cbn [BindModel.marshal]. rewrite elements_flat_map. induction IH as [|v l H _ IHl]; [reflexivity|]. cbn [flat_map]. rewrite H, IHl. reflexivity.
  Qed.
  Lemma texts_elements l : elements l = l -> texts l = "".
  Proof.
    induction l as [|[s|n a k] l IH]; intros H; [reflexivity| |].
    - exfalso. cbn [elements filter is_element] in H. assert (I : In (NText s) (elements l)) by (unfold elements; rewrite H; left; reflexivity). apply filter_In in I as [_ I]. discriminate.
    - cbn [texts fold_right]. apply IH. cbn [elements filter is_element] in H. injection H as H. exact H.
  Qed.
  Lemma marshal_texts v name e : texts (marshal v name e) = "".
  Proof. apply texts_elements, marshal_elements. Qed.

  (* ---------- one struct ---------- *)
  Section Struct.
    Variables (as_t : sfield -> gexpr) (fs : list sfield) (is us : list finfo) (vs : list val).
    Hypothesis T : told_apart structs declares converts as_t fs is us.
    Hypothesis V : Forall2 (fun f v => has_type (as_t f) v) fs vs.
    (* so far the fields in p have their value, the others are zero *)
    Definition state (p : nat -> bool) (cur : list val) : Prop :=
      List.length cur = List.length vs /\
      forall j f v, nth_error fs j = Some f -> nth_error vs j = Some v -> nth_error cur j = Some (if p j then v else zero (sf_expr f)).
    Definition plus (p : nat -> bool) (j : nat) : nat -> bool := fun k => (p k || Nat.eqb j k)%bool.
    Lemma state_ext p q cur : (forall k, p k = q k) -> state p cur -> state q cur.
    Proof. intros E [L H]. split; [exact L|]. intros j f v Hf Hv. rewrite <- E. auto. Qed.
    Lemma field_val j f : nth_error fs j = Some f -> exists v, nth_error vs j = Some v /\ has_type (as_t f) v.
    Proof. revert j. clear - V. induction V as [|f' v fs' vs' H F IH]; intros [|j] E; cbn in *; try discriminate; [injection E as <-; eauto|eauto]. Qed.
    Lemma state_set p cur j f v : state p cur -> nth_error fs j = Some f -> nth_error vs j = Some v -> state (plus p j) (set_nth j v cur).
    Proof.
      intros [L H] Hf Hv. split; [rewrite set_nth_length; exact L|]. intros k g w Hg Hw.
      assert (J : j < List.length cur) by (rewrite L; apply nth_error_Some; congruence). rewrite nth_error_set_nth by exact J. unfold plus.
      rewrite Nat.eqb_sym. destruct (Nat.eqb_spec j k) as [->|N]; [rewrite Bool.orb_true_r; congruence|]. rewrite Bool.orb_false_r. auto.
    Qed.
    Lemma state_zero p cur j f : state p cur -> nth_error fs j = Some f -> nth_error vs j = Some (zero (sf_expr f)) -> state (plus p j) cur.
    Proof.
      intros [L H] Hf Hv. split; [exact L|]. intros k g w Hg Hw. rewrite (H k g w Hg Hw). unfold plus. destruct (Nat.eqb_spec j k) as [<-|N]; [|rewrite Bool.orb_false_r; reflexivity].
      rewrite Bool.orb_true_r. destruct (p j); [reflexivity|]. congruence.
    Qed.
    Lemma state_all p cur : state p cur -> (forall j, j < List.length fs -> p j = true) -> cur = vs.
    Proof.
      intros [L H] A. apply nth_ext_eq. intros j. destruct (nth_error fs j) as [f|] eqn:E.
      - destruct (field_val j f E) as (v & Hv & _). rewrite (H j f v E Hv), A; [congruence|]. apply nth_error_Some. congruence.
      - assert (Lf : List.length fs = List.length vs) by exact (Forall2_len _ _ _ V). apply nth_error_None in E. rewrite (proj2 (nth_error_None cur j)), (proj2 (nth_error_None vs j)); [reflexivity|lia|lia].
    Qed.
    (* what an info and its partner say *)
    Lemma partner i : In i is -> exists u f v, In u us /\ fi_idx u = fi_idx i /\ fi_mode u = fi_mode i /\ fi_ns u = fi_ns i /\ fi_name u = fi_name i /\ fi_type u = fi_type i /\
      nth_error fs (fi_idx i) = Some f /\ nth_error vs (fi_idx i) = Some v /\ has_type (fi_type i) v /\ fits (sf_expr f) (fi_type i) /\ shallow (sf_expr f) /\
      (is_attr i = true -> plain_attr structs (sf_expr f)) /\ (is_text i = true -> leaf (sf_expr f) = true) /\ (fi_ptr i = false -> fi_type i = sf_expr f).
    Proof.
      intros I. destruct (ta_same _ _ _ _ _ _ _ T i I) as (u & U & E1 & E2 & E3 & E4 & E5). destruct (ta_idx _ _ _ _ _ _ _ T u U) as (f & F1 & F0 & F2 & F3 & F4 & F5). rewrite E1 in F1. rewrite E5 in F0, F2.
      destruct (field_val _ _ F1) as (v & V1 & V2). exists u, f, v. rewrite <- F0 in V2. unfold is_attr, is_text in *. rewrite E2 in F4, F5. repeat (split; [assumption|]). intros P. exact (ta_plain _ _ _ _ _ _ _ T i f I P F1).
    Qed.
    Lemma omitted_zero i f v : In i is -> nth_error fs (fi_idx i) = Some f -> has_type (fi_type i) v -> omitted Leaf is_empty i v = true -> v = zero (sf_expr f).
    Proof.
      intros I F H O. unfold omitted in O. apply andb_true_iff in O as [O E]. apply andb_true_iff in O as [_ P]. apply Bool.negb_true_iff in P.
      rewrite (ta_plain _ _ _ _ _ _ _ T i f I P F) in E, H. destruct Hz as (Z1 & Z2 & _). inversion H as [e x L G|e l L G|n s gs l G1 G2 G3]; subst; cbn [empty] in E.
      - rewrite Z1 by assumption. f_equal. apply Hempty; assumption.
      - destruct l; [|discriminate]. rewrite Z2 by assumption. reflexivity.
      - discriminate.
    Qed.
    (* all the blocks in turn *)
    Lemma blocks {X} (c : finfo -> bool) (blk : finfo -> list X -> Prop) (step : list val -> X -> option (list val)) :
      (forall i xs cur, In i is -> c i = false -> blk i xs -> foldo step cur xs = Some cur) ->
      (forall i xs p cur, In i is -> c i = true -> blk i xs -> state p cur -> p (fi_idx i) = false -> exists cur', foldo step cur xs = Some cur' /\ state (plus p (fi_idx i)) cur') ->
      forall l xss, incl l is -> NoDup (map fi_idx l) -> Forall2 blk l xss -> forall p cur, state p cur -> (forall i, In i l -> c i = true -> p (fi_idx i) = false) ->
      exists cur', foldo step cur (concat xss) = Some cur' /\ state (fun k => (p k || existsb (fun i => (c i && Nat.eqb (fi_idx i) k)%bool) l)%bool) cur'.
    Proof.
      intros B0 B1 l xss Il N F. induction F as [|i xs l xss H F IH]; intros p cur S D.
      - exists cur. split; [reflexivity|]. eapply state_ext; [|exact S]. intros k. cbn [existsb]. rewrite Bool.orb_false_r. reflexivity.
      - cbn [map] in N. inversion N as [|? ? N1 N2]; subst. cbn [concat]. assert (Ii : In i is) by (apply Il; left; reflexivity). assert (Il' : incl l is) by (intros z Hz'; apply Il; right; exact Hz').
        rewrite foldo_app. destruct (c i) eqn:C.
        + destruct (B1 i xs p cur Ii C H S (D i (or_introl eq_refl) C)) as (cur1 & E1 & S1). rewrite E1.
          destruct (IH Il' N2 (plus p (fi_idx i)) cur1 S1) as (cur2 & E2 & S2).
          { intros w Hw Cw. unfold plus. rewrite (D w (or_intror Hw) Cw). destruct (Nat.eqb_spec (fi_idx i) (fi_idx w)) as [E|]; [|reflexivity]. exfalso. apply N1. rewrite E. apply in_map. exact Hw. }
          exists cur2. split; [exact E2|]. eapply state_ext; [|exact S2]. intros k. unfold plus. cbn [existsb]. rewrite C. cbn [andb]. rewrite Bool.orb_assoc. reflexivity.
        + rewrite (B0 i xs cur Ii C H). destruct (IH Il' N2 p cur S) as (cur2 & E2 & S2); [intros w Hw; apply D; right; exact Hw|]. exists cur2. split; [exact E2|].
          eapply state_ext; [|exact S2]. intros k. cbn [existsb]. rewrite C. reflexivity.
    Qed.
    (* ---------- attributes ---------- *)
    Notation step_attr := (step_attr structs Leaf read zero us).
    Lemma matches_own u a : aname a = info_name u -> matches (aname a) u = true.
    Proof. intros ->. unfold matches, info_name. cbn [nlocal nspace]. rewrite !String.eqb_refl, Bool.orb_true_r. reflexivity. Qed.
    Lemma step_own cur u a : In u us -> is_attr u = true -> aname a = info_name u -> step_attr cur a = update cur (fi_idx u) (attr_into structs Leaf read zero (avalue a) (fi_type u)).
    Proof.
      intros U A E. unfold BindModel.step_attr. apply (foldo_one (fun i => (is_attr i && matches (aname a) i)%bool) (fun i => attr_into structs Leaf read zero (avalue a) (fi_type i)) u us cur U (ta_uonce _ _ _ _ _ _ _ T)).
      - rewrite A, (matches_own u a E). reflexivity.
      - intros w W N. destruct (is_attr w) eqn:Aw; [|reflexivity]. cbn [andb]. unfold matches. rewrite E. cbn [info_name nlocal nspace].
        destruct (ta_attrs _ _ _ _ _ _ _ T w u W U N Aw A) as [H|(H1 & H2 & H3)].
        + apply String.eqb_neq in H. rewrite H. reflexivity.
        + apply String.eqb_neq in H1, H3. rewrite H1, H3. apply Bool.andb_false_r.
    Qed.
    Lemma step_decl cur a : declares a = true -> step_attr cur a = Some cur.
    Proof.
      intros D. unfold BindModel.step_attr. assert (H : forall u, In u us -> (is_attr u && matches (aname a) u)%bool = false).
      { intros u U. destruct (is_attr u) eqn:A; [|reflexivity]. exact (ta_decl _ _ _ _ _ _ _ T u a U A D). }
      revert H. generalize us as l. intros l. induction l as [|u l IH]; intros H; [reflexivity|]. cbn [foldo]. rewrite (H u (or_introl eq_refl)). apply IH. intros; apply H; right; assumption.
    Qed.
    Definition attr_steps (i : finfo) (xs : list xattr) : Prop := xs = map (clean_attr clean) (attr_block Leaf print is_empty vs i).
    Lemma foldo_own {X} u (f : list val -> X -> option (list val)) (g : X -> val -> option val) xs : (forall cur x, In x xs -> f cur x = update cur (fi_idx u) (g x)) ->
      forall cur, foldo f cur xs = foldo (fun vs x => update vs (fi_idx u) (g x)) cur xs.
    Proof. induction xs as [|x xs IH]; intros H cur; [reflexivity|]. cbn [foldo]. rewrite (H cur x (or_introl eq_refl)). destruct (update cur (fi_idx u) (g x)); [|reflexivity]. apply IH. intros; apply H; right; assumption. Qed.
    Lemma attr_value from to v : has_type to v -> fits from to -> plain_attr structs from ->
      foldo (fun w s => attr_into structs Leaf read zero (clean s) to w) (zero from) (attr_texts Leaf print v to) = Some v.
    Proof.
      intros H F P. destruct Hz as (Z1 & Z2 & _). unfold BindSpec.fits in F. destruct (leaf from) eqn:L.
      - destruct F as [L2 Cv]. inversion H as [e x L1 G|e l L1 G|n s gs l G1 G2 G3]; subst; [|congruence|cbn in L2; rewrite G1 in L2; discriminate].
        cbn [attr_texts foldo]. rewrite Z1 by exact L. unfold attr_into. rewrite into_leaf by exact L2. rewrite (leaf_struct _ L2). unfold leaf_into. rewrite Hcodec by assumption. reflexivity.
      - subst to. destruct P as [P|(e & -> & Le)]; [congruence|]. inversion H as [e' x L1 G|e' l L1 G|n s gs l G1 G2 G3]; subst; [congruence|]. cbn [attr_texts item]. rewrite Z2 by exact L.
        assert (K : forall l pre, Forall (has_type e) l -> foldo (fun w s => attr_into structs Leaf read zero (clean s) (EArr e) w) (VSlice pre) (flat_map (fun w => attr_texts Leaf print w e) l) = Some (VSlice (pre ++ l))).
        { clear l H G. induction l as [|w l IH]; intros pre Fl; [cbn [flat_map foldo]; rewrite app_nil_r; reflexivity|]. inversion Fl as [|? ? W Fl']; subst. cbn [flat_map].
          inversion W as [e' x L2 G|e' l' L2 G|n s gs l' G1 G2 G3]; subst; [|congruence|cbn in Le; rewrite G1 in Le; discriminate].
          cbn [attr_texts app foldo]. unfold attr_into at 1. rewrite into_arr by exact L. rewrite into_leaf by exact Le. rewrite (leaf_struct _ Le), Z1 by exact Le. unfold leaf_into.
          rewrite Hcodec by (try apply Hrefl; assumption). cbn [option_map]. rewrite IH by exact Fl'. rewrite <- app_assoc. reflexivity. }
        exact (K l [] G).
    Qed.
    Lemma attr_step i xs p cur : In i is -> is_attr i = true -> attr_steps i xs -> state p cur -> p (fi_idx i) = false -> exists cur', foldo step_attr cur xs = Some cur' /\ state (plus p (fi_idx i)) cur'.
    Proof.
      intros I A -> S P. destruct (partner i I) as (u & f & v & U & E1 & E2 & E3 & E4 & E5 & F1 & V1 & V2 & Ft & _ & Pa & _). unfold attr_block. rewrite A, V1.
      destruct (omitted Leaf is_empty i v) eqn:O; [exists cur; split; [reflexivity|]; apply (state_zero p cur _ f S F1); rewrite <- (omitted_zero i f v I F1 V2 O); exact V1|].
      exists (set_nth (fi_idx i) v cur). split; [|exact (state_set p cur _ f v S F1 V1)]. rewrite map_map. unfold clean_attr. cbn [aname avalue].
      assert (Au : is_attr u = true) by (unfold is_attr in *; rewrite E2; exact A). assert (Nu : info_name u = info_name i) by (unfold info_name; congruence).
      rewrite (foldo_own u step_attr (fun a => attr_into structs Leaf read zero (avalue a) (fi_type i))).
      - rewrite E1. assert (M : forall w w' l, foldo (fun w s => attr_into structs Leaf read zero (clean s) (fi_type i) w) w l = Some w' ->
          foldo (fun w a => attr_into structs Leaf read zero (avalue a) (fi_type i) w) w (map (fun x => mkAttr (info_name i) (clean x)) l) = Some w').
        { intros w w' l. revert w. induction l as [|s l IH]; intros w; [auto|]. cbn [map foldo avalue]. destruct (attr_into structs Leaf read zero (clean s) (fi_type i) w); [apply IH|auto]. }
        apply (foldo_update (fun a => attr_into structs Leaf read zero (avalue a) (fi_type i)) (fi_idx i) _ cur (zero (sf_expr f))); [pose proof (proj2 S _ f v F1 V1) as X; rewrite P in X; exact X|]. apply M. apply attr_value; auto.
      - intros cur' a Ha. apply in_map_iff in Ha as (s & <- & _). rewrite (step_own cur' u); [rewrite E5; reflexivity|exact U|exact Au|cbn [aname]; congruence].
    Qed.
    (* ---------- children ---------- *)
    Notation kstep := (fun cur k => step_kid Leaf us cur (k, unmarshal k)).
    Definition ok_val (v : val) : Prop := forall from to name d ys, has_type to v -> fits from to -> shallow from -> Forall2 (reads_back d) (marshal v name to) ys ->
      Forall (fun y => exists a k, y = NElem (mkName (wire_space d name) (nlocal name)) a k) ys /\
      foldo (fun w y => unmarshal y to w) (zero from) ys = Some v /\ ((forall e, from = EArr e -> leaf from = true) -> exists y, ys = [y]).
    Hypothesis IHv : Forall ok_val vs.
    Lemma target_ok u d : In u us -> is_elem u = true -> target us (mkName (wire_space d (info_name u)) (fi_name u)) = Some u.
    Proof.
      intros U A. unfold target. rewrite (find_unique (fun i => (is_elem i && matches (mkName (wire_space d (info_name u)) (fi_name u)) i)%bool) us u U); [reflexivity| |].
      - rewrite A. unfold matches, wire_space, info_name. cbn [nlocal nspace]. rewrite String.eqb_refl. destruct (String.eqb (fi_ns u) "") eqn:E; [reflexivity|]. cbn [andb orb]. apply String.eqb_refl.
      - intros w W H. apply andb_true_iff in H as [Aw M]. destruct (Nat.eq_dec (fi_idx w) (fi_idx u)) as [E|N]; [exact (map_nodup_inj fi_idx us w u (ta_uonce _ _ _ _ _ _ _ T) W U E)|]. exfalso.
        unfold matches in M. cbn [nlocal nspace] in M. apply andb_true_iff in M as [M1 M2]. apply String.eqb_eq in M1. destruct (ta_elems _ _ _ _ _ _ _ T w u W U N Aw A) as [H|(H1 & H2 & H3)]; [congruence|].
        apply Bool.orb_true_iff in M2 as [M2|M2]; apply String.eqb_eq in M2; [congruence|]. unfold wire_space, info_name in M2. cbn [nspace] in M2. apply String.eqb_neq in H2. rewrite H2 in M2. congruence.
    Qed.
    Variable d : string.
    Notation kblock := (kid_block Leaf print is_empty vs (map marshal vs)).
    Definition kid_steps (i : finfo) (xs : list node) : Prop := Forall2 (reads_back d) (elements (kblock i)) xs.
    Lemma kid_step i xs p cur : In i is -> is_elem i = true -> kid_steps i xs -> state p cur -> p (fi_idx i) = false -> exists cur', foldo kstep cur xs = Some cur' /\ state (plus p (fi_idx i)) cur'.
    Proof.
      intros I A K S P. destruct (partner i I) as (u & f & v & U & E1 & E2 & E3 & E4 & E5 & F1 & V1 & V2 & Ft & Sh & _). unfold kid_steps, kid_block in K. rewrite V1, nth_error_map, V1 in K. cbn [option_map] in K.
      assert (B : Forall2 (reads_back d) (if omitted Leaf is_empty i v then [] else marshal v (info_name i) (fi_type i)) xs) by (unfold is_elem in A; destruct (fi_mode i); try discriminate; destruct (omitted Leaf is_empty i v); try exact K; rewrite marshal_elements in K; exact K). clear K.
      destruct (omitted Leaf is_empty i v) eqn:O.
      { inversion B; subst. exists cur. split; [reflexivity|]. apply (state_zero p cur _ f S F1). rewrite <- (omitted_zero i f v I F1 V2 O). exact V1. }
      assert (Ok : ok_val v) by (rewrite Forall_forall in IHv; apply IHv; exact (nth_error_In _ _ V1)). destruct (Ok _ _ _ _ _ V2 Ft Sh B) as (N1 & R & _).
      exists (set_nth (fi_idx i) v cur). split; [|exact (state_set p cur _ f v S F1 V1)].
      assert (Au : is_elem u = true) by (unfold is_elem in *; rewrite E2; exact A). assert (Nu : info_name u = info_name i) by (unfold info_name; congruence).
      rewrite (foldo_own u kstep (fun y => unmarshal y (fi_type i))).
      - rewrite E1. apply (foldo_update (fun y => unmarshal y (fi_type i)) (fi_idx i) xs cur (zero (sf_expr f))); [pose proof (proj2 S _ f v F1 V1) as X; rewrite P in X; exact X|exact R].
      - intros cur' y Hy. rewrite Forall_forall in N1. destruct (N1 y Hy) as (a & k & ->). unfold step_kid. cbn [fst snd]. change (nlocal (info_name i)) with (fi_name i). rewrite <- Nu, <- E4. rewrite (target_ok u d U Au). rewrite E5. reflexivity.
    Qed.
    Lemma kid_skip i xs cur : In i is -> is_elem i = false -> kid_steps i xs -> foldo kstep cur xs = Some cur.
    Proof.
      intros I A K. destruct (partner i I) as (u & f & v & U & E1 & E2 & E3 & E4 & E5 & F1 & V1 & V2 & Ft & Sh & _). unfold kid_steps, kid_block in K. rewrite V1 in K. unfold is_elem in A. destruct (fi_mode i); try discriminate A.
      - inversion K; subst. reflexivity.
      - destruct v; inversion K; subst; reflexivity.
    Qed.
    Lemma texts_app a b : texts (a ++ b) = texts a ++ texts b.
    Proof. induction a as [|[s|n at' k] a IH]; cbn [texts app fold_right]; [reflexivity| |exact IH]. fold (texts (a ++ b)). fold (texts a). rewrite IH, sapp_assoc. reflexivity. Qed.
    Lemma kid_text_none i : is_text i = false -> texts (kblock i) = "".
    Proof.
      intros A. unfold kid_block. unfold is_text in A. destruct (fi_mode i); try discriminate A; try reflexivity; destruct (nth_error vs (fi_idx i)) as [v|] eqn:V1; try reflexivity; rewrite nth_error_map, V1; cbn [option_map]; destruct (omitted Leaf is_empty i v); try reflexivity; apply marshal_texts.
    Qed.
    Lemma kid_text i x : is_text i = true -> nth_error vs (fi_idx i) = Some (VLeaf x) -> kblock i = [NText (print (expr_text (fi_type i)) x)].
    Proof. intros A V1. unfold kid_block. rewrite V1. unfold is_text in A. destruct (fi_mode i); try discriminate A. reflexivity. Qed.
    Lemma texts_blocks l : (forall i, In i l -> is_text i = false) -> texts (flat_map kblock l) = "".
    Proof.
      intros H. induction l as [|i l IH]; [reflexivity|]. cbn [flat_map]. rewrite texts_app, (kid_text_none i (H i (or_introl eq_refl))). cbn [append]. apply IH. intros; apply H; right; assumption.
    Qed.
    Lemma text_unique i i' : In i is -> In i' is -> is_text i = true -> is_text i' = true -> i = i'.
    Proof.
      intros I I' A A'. destruct (partner i I) as (u & f & v & U & E1 & E2 & _). destruct (partner i' I') as (u' & f' & v' & U' & E1' & E2' & _).
      assert (u = u') as <-. { apply (ta_text _ _ _ _ _ _ _ T); auto; unfold is_text in *; congruence. }
      apply (map_nodup_inj fi_idx is i i' (ta_once _ _ _ _ _ _ _ T) I I'). congruence.
    Qed.
    Lemma texts_one l i x : incl l is -> NoDup (map fi_idx l) -> In i l -> is_text i = true -> nth_error vs (fi_idx i) = Some (VLeaf x) -> texts (flat_map kblock l) = print (expr_text (fi_type i)) x.
    Proof.
      intros Il N Ii A V1. induction l as [|w l IH]; [destruct Ii|]. cbn [flat_map]. rewrite texts_app. cbn [map] in N. inversion N as [|? ? N1 N2]; subst.
      assert (Il' : incl l is) by (intros z Hz'; apply Il; right; exact Hz'). destruct Ii as [->|Ii].
      - rewrite (kid_text i x A V1). cbn [texts fold_right]. rewrite (texts_blocks l); [rewrite !sapp_nil_r; reflexivity|].
        intros z Hz'. destruct (is_text z) eqn:Az; [|reflexivity]. exfalso. apply N1. rewrite (text_unique i z (Il i (or_introl eq_refl)) (Il' z Hz') A Az). apply in_map. exact Hz'.
      - rewrite (kid_text_none w); [cbn [append]; apply IH; auto|].
        destruct (is_text w) eqn:Aw; [|reflexivity]. exfalso. apply N1. rewrite (text_unique w i (Il w (or_introl eq_refl)) (Il' i Ii) Aw A). apply in_map. exact Ii.
    Qed.
    Lemma us_is u : In u us -> exists i, In i is /\ fi_idx i = fi_idx u /\ fi_mode i = fi_mode u /\ fi_type i = fi_type u.
    Proof.
      intros U. destruct (ta_idx _ _ _ _ _ _ _ T u U) as (f & F1 & _). destruct (ta_all _ _ _ _ _ _ _ T _ _ F1) as (i & I & E). destruct (ta_same _ _ _ _ _ _ _ T i I) as (w & W & E1 & E2 & _ & _ & E5).
      assert (w = u) as -> by (apply (map_nodup_inj fi_idx us w u (ta_uonce _ _ _ _ _ _ _ T) W U); congruence). exists i. auto.
    Qed.
    (* the struct as a whole *)
    Lemma struct_ok attrs' kids' : filter (fun x => negb (declares x)) attrs' = map (clean_attr clean) (flat_map (attr_block Leaf print is_empty vs) is) ->
      Forall2 (reads_back d) (elements (flat_map kblock is)) (elements kids') -> ((exists t, In (NText t) (flat_map kblock is)) -> texts kids' = clean (texts (flat_map kblock is))) ->
      match foldo step_attr (map (fun f => zero (sf_expr f)) fs) attrs' with
      | None => None
      | Some vs => match foldo (step_kid Leaf us) vs (combine kids' (map unmarshal kids')) with
                   | None => None
                   | Some vs => option_map VStruct (step_text Leaf read us (texts kids') vs)
                   end
      end = Some (VStruct vs).
    Proof.
      intros Ha Hk Ht. pose proof (ta_once _ _ _ _ _ _ _ T) as N.
      assert (S0 : state (fun _ => false) (map (fun f => zero (sf_expr f)) fs)).
      { split; [rewrite map_length; exact (Forall2_len _ _ _ V)|]. intros j f v Hf _. rewrite nth_error_map, Hf. reflexivity. }
      rewrite (foldo_filter step_attr (fun x => negb (declares x))) by (intros b a _ Db; apply step_decl; destruct (declares b); [reflexivity|discriminate]). rewrite Ha.
      assert (Ea : map (clean_attr clean) (flat_map (attr_block Leaf print is_empty vs) is) = concat (map (fun i => map (clean_attr clean) (attr_block Leaf print is_empty vs i)) is)).
      { rewrite flat_map_concat_map, concat_map, map_map. reflexivity. }
      rewrite Ea. destruct (blocks is_attr attr_steps step_attr) with (l := is) (xss := map (fun i => map (clean_attr clean) (attr_block Leaf print is_empty vs i)) is) (p := fun _ : nat => false) (cur := map (fun f => zero (sf_expr f)) fs) as (c1 & E1 & S1).
      { intros i xs cur _ A ->. unfold attr_block. rewrite A. reflexivity. }
      { exact attr_step. }
      { apply incl_refl. }
      { exact N. }
      { clear. induction is; constructor; [reflexivity|assumption]. }
      { exact S0. }
      { reflexivity. }
      rewrite E1. rewrite elements_flat_map in Hk. apply Forall2_concat in Hk as (yss & Ek & Fk).
      assert (Ec : forall l cur, foldo (step_kid Leaf us) cur (combine l (map unmarshal l)) = foldo kstep cur l).
      { induction l as [|k l IH]; intros cur; [reflexivity|]. cbn [map combine foldo]. destruct (step_kid Leaf us cur (k, unmarshal k)); [apply IH|reflexivity]. }
      rewrite Ec. rewrite (foldo_filter kstep is_element) by (intros [t|n at' k] cur _ Hk'; [reflexivity|discriminate Hk']). change (filter is_element kids') with (elements kids'). rewrite Ek.
      assert (Disj : forall (c1 c2 : finfo -> bool), (forall i, c1 i = true -> c2 i = false) -> forall i, In i is -> c2 i = true -> existsb (fun j => (c1 j && Nat.eqb (fi_idx j) (fi_idx i))%bool) is = false).
      { intros a b X i I Bi. apply Bool.not_true_iff_false. intros Y. apply existsb_exists in Y as (j & J & Y). apply andb_true_iff in Y as [Y1 Y2]. apply Nat.eqb_eq in Y2.
        assert (j = i) as -> by exact (map_nodup_inj fi_idx is j i N J I Y2). rewrite (X i Y1) in Bi. discriminate. }
      destruct (blocks is_elem kid_steps kstep kid_skip kid_step is yss (incl_refl _) N Fk _ _ S1) as (c2 & E2 & S2).
      { intros i I Ei. cbn [orb]. apply (Disj is_attr is_elem); auto. intros w. unfold is_attr, is_elem. destruct (fi_mode w); auto; discriminate. }
      rewrite E2. unfold step_text. destruct (find is_text us) as [u|] eqn:Fu.
      - apply find_some in Fu as [U Au]. destruct (us_is u U) as (i & I & J1 & J2 & J3). assert (Ai : is_text i = true) by (unfold is_text in *; congruence).
        destruct (partner i I) as (u' & f & v & _ & _ & _ & _ & _ & _ & F1 & V1 & V2 & Ft & _ & _ & Tx & _). specialize (Tx Ai). unfold BindSpec.fits in Ft. rewrite Tx in Ft. destruct Ft as [L2 Cv].
        inversion V2 as [e x L1 G|e l L1 G|n s gs l G1 G2 G3]; subst; [|congruence|match goal with E : EId _ = fi_type i |- _ => rewrite <- E in L2; cbn in L2; rewrite G1 in L2; discriminate end].
        assert (Pi : (false || existsb (fun j => (is_attr j && Nat.eqb (fi_idx j) (fi_idx i))%bool) is || existsb (fun j => (is_elem j && Nat.eqb (fi_idx j) (fi_idx i))%bool) is)%bool = false).
        { rewrite (Disj is_attr is_text), (Disj is_elem is_text); auto; intros w; unfold is_attr, is_text, is_elem; destruct (fi_mode w); auto; discriminate. }
        pose proof (proj2 S2 _ f _ F1 V1) as X. cbn beta in X. match type of X with context [if ?b then _ else _] => replace b with false in X by (symmetry; exact Pi) end. unfold BindModel.update. rewrite <- J1, X, <- J3. destruct Hz as (Z1 & _). rewrite Z1 by exact Tx. cbn [leaf_into].
        rewrite Ht by (exists (print (expr_text (fi_type i)) x); apply in_flat_map; exists i; split; [exact I|rewrite (kid_text i x Ai V1); left; reflexivity]). rewrite (texts_one is i x (incl_refl _) N I Ai V1). rewrite Hcodec by assumption. cbn [option_map]. do 2 f_equal.
        apply (state_all _ _ (state_set _ _ _ f _ S2 F1 V1)). intros j Hj. unfold plus. destruct (nth_error fs j) as [g|] eqn:Eg; [|apply nth_error_Some in Hj; congruence].
        destruct (ta_all _ _ _ _ _ _ _ T j g Eg) as (w & W & Ew). destruct (fi_mode w) eqn:M.
        + apply Bool.orb_true_iff. left. apply Bool.orb_true_iff. right. apply existsb_exists. exists w. split; [exact W|]. unfold is_elem. rewrite M, Ew, Nat.eqb_refl. reflexivity.
        + apply Bool.orb_true_iff. left. apply Bool.orb_true_iff. left. cbn [orb]. apply existsb_exists. exists w. split; [exact W|]. unfold is_attr. rewrite M, Ew, Nat.eqb_refl. reflexivity.
        + apply Bool.orb_true_iff. right. assert (w = i) as -> by (apply text_unique; auto; unfold is_text; rewrite M; reflexivity). apply Nat.eqb_eq. exact Ew.
        + apply Bool.orb_true_iff. left. apply Bool.orb_true_iff. right. apply existsb_exists. exists w. split; [exact W|]. unfold is_elem. rewrite M, Ew, Nat.eqb_refl. reflexivity.
      - cbn [option_map]. do 2 f_equal. apply (state_all _ _ S2). intros j Hj. destruct (nth_error fs j) as [g|] eqn:Eg; [|apply nth_error_Some in Hj; congruence].
        destruct (ta_all _ _ _ _ _ _ _ T j g Eg) as (w & W & Ew). destruct (fi_mode w) eqn:M.
        + apply Bool.orb_true_iff. right. apply existsb_exists. exists w. split; [exact W|]. unfold is_elem. rewrite M, Ew, Nat.eqb_refl. reflexivity.
        + apply Bool.orb_true_iff. left. cbn [orb]. apply existsb_exists. exists w. split; [exact W|]. unfold is_attr. rewrite M, Ew, Nat.eqb_refl. reflexivity.
        + exfalso. destruct (partner w W) as (u & _ & _ & U & _ & E2' & _). assert (Y := find_none _ _ Fu u U). unfold is_text in Y. rewrite E2', M in Y. discriminate.
        + apply Bool.orb_true_iff. right. apply existsb_exists. exists w. split; [exact W|]. unfold is_elem. rewrite M, Ew, Nat.eqb_refl. reflexivity.
    Qed.
  End Struct.

  Lemma all_ok : forall v, ok_val v.
  Proof.
    apply val_ind'.
    - intros x from to name d ys H F _ B. destruct Hz as (Z1 & _). inversion H as [e y L2 G| |]; subst. assert (L : leaf from = true). { unfold BindSpec.fits in F. destruct (leaf from) eqn:Lf; [reflexivity|]. rewrite F in L2. congruence. } unfold BindSpec.fits in F. rewrite L in F. destruct F as [_ Cv].
      cbn [BindModel.marshal] in B. inversion B as [|? y ? ys' R B']; subst. inversion B'; subst. inversion R as [? ? ? ? a' kids' Fa Fk Ft]; subst.
      split; [constructor; [eauto|constructor]|]. split; [|eauto]. cbn [foldo BindModel.unmarshal]. rewrite into_leaf by exact L2. rewrite (leaf_struct _ L2), Z1 by exact L. unfold leaf_into. rewrite Ft by (eexists; left; reflexivity). cbn [texts fold_right]. rewrite sapp_nil_r, Hcodec by assumption. reflexivity.
    - intros l IH from to name d ys H F _ B. inversion H as [| |n s fs l' G1 G2 G3]; subst. assert (L : leaf (EId n) = false) by (cbn; rewrite G1; reflexivity). assert (from = EId n) as ->. { unfold BindSpec.fits in F. destruct (leaf from); [destruct F; congruence|auto]. } clear F.
      destruct (Hbind n s G1) as (fs' & is & us & K1 & K2 & K3 & K4). assert (fs' = fs) as -> by congruence.
      cbn [BindModel.marshal BindModel.struct_of] in B. rewrite G1, K2 in B. cbv zeta in B. inversion B as [|? y ? ys' R B']; subst. inversion B'; subst. inversion R as [? ? ? ? a' kids' Fa Fk Ft]; subst.
      split; [constructor; [eauto|constructor]|]. split; [|eauto]. cbn [foldo BindModel.unmarshal]. rewrite into_id. cbn [BindModel.struct_of]. rewrite G1, K3. destruct Hz as (_ & _ & Z3). rewrite (Z3 n s fs G1 G2).
      rewrite (struct_ok _ fs is us l K4 G3 IH _ a' kids' Fa Fk Ft). reflexivity.
    - intros l IH from to name d ys H F Sh B. inversion H as [|e l' L G|]; subst. assert (from = EArr e) as ->. { unfold BindSpec.fits in F. destruct (leaf from); [destruct F; congruence|auto]. } clear F. destruct Hz as (_ & Z2 & _).
      assert (Se : shallow e /\ forall e', e = EArr e' -> leaf e = true).
      { destruct e as [n|e1]; [split; [exact I|discriminate]|]. cbn in Sh. destruct Sh as [Sh|Sh]; [cbn in L; congruence|]. split; [|intros; exact Sh]. destruct e1; [exact I|]. left. exact Sh. }
      destruct Se as [Se Ne]. cbn [BindModel.marshal item] in B. apply Forall2_concat in B as (yss & -> & Fb). rewrite Z2 by exact L.
      assert (M : forall l yss pre, Forall ok_val l -> Forall (has_type e) l -> Forall2 (fun a y => Forall2 (reads_back d) (marshal a name e) y) l yss ->
        Forall (fun y => exists a k, y = NElem (mkName (wire_space d name) (nlocal name)) a k) (concat yss) /\ foldo (fun w y => unmarshal y (EArr e) w) (VSlice pre) (concat yss) = Some (VSlice (pre ++ l))).
      { clear l yss IH H G Fb. induction l as [|w l IHl]; intros yss pre Ok Ty Fb; inversion Fb as [|? y ? ys' R B']; subst; [cbn [concat foldo]; rewrite app_nil_r; split; constructor|].
        inversion Ok as [|? ? O1 O2]; subst. inversion Ty as [|? ? T1 T2]; subst. destruct (O1 e e name d y T1 (fits_refl e) Se R) as (N1 & R1 & One). destruct (One Ne) as (y0 & ->).
        destruct (IHl ys' (pre ++ [w])%list O2 T2 B') as [N2 R2]. cbn [concat app]. split; [inversion N1; subst; constructor; assumption|]. cbn [foldo] in R1 |- *.
        destruct (unmarshal y0 e (zero e)) as [w'|] eqn:Eu; [|discriminate]. injection R1 as ->.
        assert (Es : unmarshal y0 (EArr e) (VSlice pre) = Some (VSlice (pre ++ [w]))).
        { destruct y0 as [s|n a k]; [discriminate|]. cbn [BindModel.unmarshal] in Eu |- *. rewrite into_arr by exact L. cbv zeta in Eu. rewrite Eu. reflexivity. }
        rewrite Es, R2, <- app_assoc. reflexivity. }
      destruct (M l yss [] IH G Fb) as [M1 M2]. split; [exact M1|]. split; [exact M2|]. intros X. rewrite (X e eq_refl) in L. discriminate.
  Qed.

  (* a value is written as one element, and reading that element gives it back *)
  Theorem round_trip n v name d : has_type (EId n) v -> exists y, marshal v name (EId n) = [y] /\ forall y', reads_back d y y' -> unmarshal y' (EId n) (zero (EId n)) = Some v.
  Proof.
    intros H. assert (Y : exists y, marshal v name (EId n) = [y]).
    { inversion H as [e x L G| |m s fs l G1 G2 G3]; subst; [eexists; reflexivity|]. destruct (Hbind n s G1) as (fs' & is & us & K1 & K2 & _). cbn [BindModel.marshal BindModel.struct_of]. rewrite G1, K2. eexists. reflexivity. }
    destruct Y as [y Y]. exists y. split; [exact Y|]. intros y' R. destruct (all_ok v (EId n) (EId n) name d [y'] H (fits_refl _) I) as (_ & E & _); [rewrite Y; constructor; [exact R|constructor]|].
    cbn [foldo] in E. destruct (unmarshal y' (EId n) (zero (EId n))); congruence.
  Qed.
End Round.
