(* A type that no other refers to is left alone by gen. *)
From Verif Require Import Base SortLib ScopeModel TreeModel EqualModel BuiltinModel CodecModel XsdModel XsdProofs TypesModel TypesSpec TypesProofs GraphModel GenModel SgModel SgStruct SgProofs SgNames SgFlatSpec SliceModel SgGen.
Local Open Scope string_scope.

Section Frame.
  Variable k : nat.
  Definition aloof (st : store) : Prop := forall j d, nth_error st j = Some d -> ~ In (TPtr k) (uses d).
  Variable d0 : def.
  Definition alone (st : store) : Prop := nth_error st k = Some d0 /\ aloof st.

  Lemma nth_set {A} i (x : A) : forall l j, nth_error (set_nth i x l) j = if Nat.eqb j i then match nth_error l j with Some _ => Some x | None => None end else nth_error l j.
  Proof.
    induction i as [|i IH]; intros [|y l] [|j]; cbn [set_nth nth_error Nat.eqb]; auto. destruct (Nat.eqb j i); reflexivity.
  Qed.
  Lemma alone_put st i d : alone st -> i <> k -> ~ In (TPtr k) (uses d) -> alone (set_nth i d st).
  Proof.
    intros [A B] N U. split.
    - rewrite nth_set. destruct (Nat.eqb k i) eqn:E; [apply Nat.eqb_eq in E; congruence|exact A].
    - intros j e H. rewrite nth_set in H. destruct (Nat.eqb j i); [destruct (nth_error st j); [injection H as <-; exact U|discriminate]|exact (B j e H)].
  Qed.
  Lemma get_c_nth st i c : get_c st i = Some c -> nth_error st i = Some (DC c).
  Proof. unfold get_c. destruct (nth_error st i) as [[x|x]|]; try discriminate. congruence. Qed.
  Lemma get_s_nth st i s : get_s st i = Some s -> nth_error st i = Some (DS s).
  Proof. unfold get_s. destruct (nth_error st i) as [[x|x]|]; try discriminate. congruence. Qed.
  Lemma alone_base st t : alone st -> base_of st t <> TPtr k.
  Proof.
    intros [_ B] H. destruct t as [| | |i]; try discriminate. cbn [base_of] in H. destruct (nth_error st i) as [d|] eqn:E; [|discriminate]. apply (B i d E). destruct d; left; exact H.
  Qed.
  Lemma alone_slot st i c s u : alone st -> get_c st i = Some c -> slot_ty c s = Some u -> u <> TPtr k.
  Proof.
    intros [_ B] H S ->. apply get_c_nth in H. apply (B i _ H). right. apply in_or_app. destruct s as [j|j]; cbn [slot_ty] in S.
    - left. destruct (nth_error (ct_elems c) j) as [e|] eqn:E; [|discriminate]. injection S as S. rewrite <- S. apply in_map. exact (nth_error_In _ _ E).
    - right. destruct (nth_error (ct_attrs c) j) as [e|] eqn:E; [|discriminate]. injection S as S. rewrite <- S. apply in_map. exact (nth_error_In _ _ E).
  Qed.
  Lemma in_set_nth {A} i (x y : A) : forall l, In y (set_nth i x l) -> y = x \/ In y l.
  Proof. induction i as [|i IH]; intros [|z l]; cbn [set_nth In]; auto; intros [H|H]; auto. destruct (IH l H); auto. Qed.
  Lemma slot_set_uses c s v : v <> TPtr k -> ~ In (TPtr k) (uses (DC c)) -> ~ In (TPtr k) (uses (DC (slot_set c s v))).
  Proof.
    intros V U H. destruct s as [j|j]; cbn [slot_set] in H.
    - destruct (nth_error (ct_elems c) j) as [e|]; [|exact (U H)]. cbn [uses set_fields ct_base ct_elems ct_attrs] in *. destruct H as [H|H]; [apply U; left; exact H|].
      apply in_app_or in H as [H|H]; [|apply U; right; apply in_or_app; right; exact H]. apply in_map_iff in H as (x & E & H). apply in_set_nth in H as [->|H]; [exact (V E)|].
      apply U. right. apply in_or_app. left. rewrite <- E. apply in_map. exact H.
    - destruct (nth_error (ct_attrs c) j) as [e|]; [|exact (U H)]. cbn [uses set_fields ct_base ct_elems ct_attrs] in *. destruct H as [H|H]; [apply U; left; exact H|].
      apply in_app_or in H as [H|H]; [apply U; right; apply in_or_app; left; exact H|]. apply in_map_iff in H as (x & E & H). apply in_set_nth in H as [->|H]; [exact (V E)|].
      apply U. right. apply in_or_app. right. rewrite <- E. apply in_map. exact H.
  Qed.
  Definition clear (l : list ty) : Prop := ~ In (TPtr k) l.
  Lemma clear_app a b : clear a -> clear b -> clear (a ++ b).
  Proof. intros A B H. apply in_app_or in H as [H|H]; auto. Qed.
  Lemma clear_one t : t <> TPtr k -> clear [t].
  Proof. intros N [H|[]]. auto. Qed.

  (* ---------- flattening ---------- *)
  Lemma chain_clear st : alone st -> forall f base bi ch ch' b, base <> TPtr k -> bi <> TPtr k -> clear ch -> chain_loop f st base bi ch = Ret (ch', b) -> clear ch' /\ b <> TPtr k.
  Proof.
    intros A. induction f as [|f IH]; intros base bi ch ch' b B I C H; cbn [chain_loop] in H; destruct base as [|z|n|j]; try (injection H as <- <-; split; [exact C|first [exact I|discriminate]]); try discriminate.
    - revert H. apply IH; [apply alone_base; exact A|discriminate|apply clear_app; [exact C|apply clear_one; discriminate]].
    - revert H. apply IH; [apply alone_base; exact A|discriminate|apply clear_app; [exact C|apply clear_one; exact B]].
  Qed.
  Lemma alone_rebase st v b : alone st -> v <> TPtr k -> b <> TPtr k -> alone (rebase st v b).
  Proof.
    intros A V B. destruct v as [| | |i]; try exact A. cbn [rebase]. destruct (get_s st i) as [s|]; [|exact A]. apply alone_put; [exact A|congruence|]. intros [H|[]]. cbn in H. exact (B H).
  Qed.
  Lemma simple_clear st i st' p v : alone st -> i <> k -> flatten_simple st i = Ret (st', p, v) -> alone st' /\ clear p /\ v <> TPtr k.
  Proof.
    intros A N H. unfold flatten_simple, chain_of in H. destruct (chain_loop _ st (base_of st (TPtr i)) TNil []) as [[ch b]| | |] eqn:E; try discriminate. cbn [andthen] in H.
    apply (chain_clear st A) in E as [C B]; [|apply alone_base; exact A|discriminate|intros []].
    set (st1 := fold_left (fun st v => rebase st v b) ch st) in H. assert (A1 : alone st1).
    { unfold st1. clear H st1. revert st A C. induction ch as [|x ch IH]; intros st A C; [exact A|]. cbn [fold_left]. apply IH; [apply alone_rebase; auto; intros ->; apply C; left; reflexivity|intros X; apply C; right; exact X]. }
    assert (A2 : alone (rebase st1 (TPtr i) b)) by (apply alone_rebase; auto; congruence). set (st2 := rebase st1 (TPtr i) b) in *.
    assert (Cp : clear (filter (is_simple st1) ch)) by (intros X; apply filter_In in X as [X _]; exact (C X)). set (p1 := filter (is_simple st1) ch) in *.
    destruct (get_s st2 i) as [s|] eqn:Es; [|discriminate]. assert (Bs : sd_base s <> TPtr k). { intros X. apply get_s_nth in Es. apply (proj2 A2 i _ Es). left. exact X. }
    assert (Ni : TPtr i <> TPtr k) by congruence.
    destruct (sd_list s || _)%bool; [injection H as <- <- <-; auto|]. destruct (non_trivial_ty (sd_base s)); [injection H as <- <- <-; auto|].
    destruct (simple_doc s) as [d|]; injection H as <- <- <-; auto. split; [|auto]. apply alone_put; [exact A2|exact N|]. intros [X|[]]. cbn in X. exact (Bs X).
  Qed.
  Lemma visit_clear rec i sp s sp' : (forall st t st' p v, alone st -> t <> TPtr k -> rec st t = Ret (st', p, v) -> alone st' /\ clear p /\ v <> TPtr k) -> i <> k ->
    alone (fst sp) -> clear (snd sp) -> visit rec i sp s = Ret sp' -> alone (fst sp') /\ clear (snd sp').
  Proof.
    intros R N A C H. destruct sp as [st pushed]. cbn [fst snd] in *. cbn [visit] in H. destruct (get_c st i) as [c|] eqn:E; [|discriminate]. destruct (slot_ty c s) as [u|] eqn:Eu; [|discriminate].
    destruct (rec st u) as [[[st1 p] v]| | |] eqn:Er; try discriminate. cbn [andthen] in H. apply R in Er as (A1 & C1 & V1); [|exact A|exact (alone_slot st i c s u A E Eu)].
    destruct (get_c st1 i) as [c1|] eqn:E1; [|destruct v; discriminate]. destruct v as [|z|n|j]; try discriminate;
      (injection H as <-; cbn [fst snd]; split; [apply alone_put; [exact A1|exact N|]; apply slot_set_uses; [exact V1|]; apply get_c_nth in E1; exact (proj2 A1 i _ E1)|apply clear_app; [exact C|apply clear_app; [exact C1|apply clear_one; exact V1]]]).
  Qed.
  Variable fa : option (attribute -> bool).
  Lemma flatten1_clear : forall f st t st' p v, alone st -> t <> TPtr k -> flatten1 fa f st t = Ret (st', p, v) -> alone st' /\ clear p /\ v <> TPtr k.
  Proof.
    induction f as [|f IH]; intros st t st' p v A N H; cbn [flatten1] in H; [injection H as <- <- <-; split; [exact A|split; [intros []|exact N]]|].
    destruct t as [|z|n|i]; try discriminate; [injection H as <- <- <-; split; [exact A|split; [intros []|discriminate]]|].
    assert (Ni : i <> k) by congruence. destruct (nth_error st i) as [[c|s]|] eqn:E; [| |discriminate].
    - assert (Bc : ct_base c <> TPtr k). { intros X. apply (proj2 A i _ E). left. exact X. } destruct (unpacks fa st c).
      { destruct (ct_base c) as [|z|n|j] eqn:Eb; try (apply (IH _ _ _ _ _ A Bc H)). injection H as <- <- <-. split; [exact A|split; [intros []|discriminate]]. }
      destruct (foldr (visit (flatten1 fa f) i) (st, []) (slots c)) as [[st1 p1]| | |] eqn:Ef; try discriminate. cbn [andthen] in H.
      assert (F : alone (fst (st1, p1)) /\ clear (snd (st1, p1))).
      { revert Ef. apply (foldr_inv _ (fun sp => alone (fst sp) /\ clear (snd sp))); [|split; [exact A|intros []]]. intros a b a' _ [A1 C1]. apply visit_clear; auto. }
      destruct F as [A1 C1]. cbn [fst snd] in A1, C1. destruct (get_c st1 i) as [c1|] eqn:E1; [|discriminate]. destruct (flatten1 fa f st1 (ct_base c1)) as [[[st2 p2] b]| | |] eqn:E2; try discriminate. cbn [andthen] in H.
      apply IH in E2 as (A2 & C2 & B2); [|exact A1|intros X; apply get_c_nth in E1; apply (proj2 A1 i _ E1); left; exact X].
      destruct (get_c st2 i) as [c2|] eqn:E3; [|destruct b; discriminate]. assert (U2 : ~ In (TPtr k) (uses (DC (set_base c2 b)))).
      { intros [X|X]; [exact (B2 X)|]. apply get_c_nth in E3. apply (proj2 A2 i _ E3). right. exact X. }
      assert (G : alone (put_c st2 i (set_base c2 b)) /\ clear (p1 ++ p2 ++ (if ct_mixed (set_base c2 b) then [b] else [])) /\ TPtr i <> TPtr k).
      { split; [apply alone_put; auto|]. split; [|congruence]. apply clear_app; [exact C1|]. apply clear_app; [exact C2|]. destruct (ct_mixed _); [apply clear_one; exact B2|intros []]. }
      destruct b as [|z|n|j]; try discriminate; injection H as <- <- <-; exact G.
    - apply (simple_clear st i); auto.
  Qed.
  Lemma dedup_sub st : forall l seen l', dedup st seen l = Ret l' -> incl l' l.
  Proof.
    induction l as [|v l IH]; intros seen l' H; cbn [dedup] in H; [injection H as <-; apply incl_refl|]. destruct (type_name st v) as [n|]; [|discriminate].
    destruct (mem_name n seen); [apply incl_tl, (IH _ _ H)|]. destruct (dedup st (n :: seen) l) as [r| | |] eqn:E; try discriminate. injection H as <-. apply IH in E. intros x [<-|Hx]; [left; reflexivity|right; apply E; exact Hx].
  Qed.
  Variables (ft : option (xname -> bool)) (allow : option (list xname)).
  Hypothesis Self : nlocal (def_name d0) = "_self".
  Lemma flatten_clear st types st' l : alone st -> flatten_types fa ft allow st types = Ret (st', l) -> alone st' /\ clear l.
  Proof.
    intros A H. unfold flatten_types in H. destruct (foldr (flatten_step fa ft allow) (st, []) types) as [[st1 res]| | |] eqn:E; try discriminate. cbn [andthen fst snd] in H.
    assert (G : alone (fst (st1, res)) /\ clear (snd (st1, res))).
    { revert E. apply (foldr_inv _ (fun sp => alone (fst sp) /\ clear (snd sp))); [|split; [exact A|intros []]]. intros [sa ra] t a' _ [A1 C1] S. cbn [fst snd] in A1, C1. cbn [flatten_step] in S. destruct (type_name sa t) as [n|] eqn:En; [|discriminate].
      destruct (selected ft allow n) eqn:Sel; [|injection S as <-; auto]. assert (Nt : t <> TPtr k).
      { intros ->. cbn [type_name] in En. rewrite (proj1 A1) in En. cbn [option_map] in En. injection En as <-. unfold selected in Sel. rewrite Self in Sel. discriminate. }
      destruct (flatten1 fa max_depth sa t) as [[[sb p] v]| | |] eqn:Ef; try discriminate. cbn [andthen] in S. apply flatten1_clear in Ef as (A2 & C2 & V2); auto. injection S as <-. cbn [fst snd]. split; [exact A2|].
      apply clear_app; [exact C1|]. apply clear_app; [exact C2|]. destruct v; [intros []| | |]; apply clear_one; exact V2. }
    destruct G as [A1 C1]. cbn [fst snd] in A1, C1. destruct (dedup st1 [] res) as [l1| | |] eqn:Ed; try discriminate. cbn [andthen] in H. injection H as <- <-. split; [exact A1|]. intros X. exact (C1 (dedup_sub _ _ _ _ Ed _ X)).
  Qed.
  (* ---------- inherited fields ---------- *)
  Lemma bases_clear st : alone st -> forall f base s s', base <> TPtr k -> clear (snd s) -> add_bases f st base s = Ret s' -> clear (snd s').
  Proof.
    intros A. induction f as [|f IH]; intros base s s' B C H; destruct base as [|z|n|j]; cbn [add_bases] in H; try (injection H as <-; exact C); try (destruct (type_name _ _); discriminate);
      (destruct (type_name st _) as [m|]; [|discriminate]; revert H; apply IH; [apply alone_base; exact A|]; destruct (lookup m (fst s)); [exact C|cbn [snd]; apply clear_app; [exact C|apply clear_one; exact B]]).
  Qed.
  Lemma expand_one_alone st t st' : alone st -> t <> TPtr k -> expand_one st t = Ret st' -> alone st'.
  Proof.
    intros A N H. destruct t as [| | |i]; try discriminate. cbn [expand_one] in H. destruct (get_c st i) as [c|] eqn:E; [|discriminate]. apply get_c_nth in E. pose proof (proj2 A i _ E) as U.
    destruct (ct_base c) as [|z|n|j] eqn:Eb; try (injection H as <-; exact A). destruct (get_c st j) as [b|] eqn:Ej; [|injection H as <-; exact A]. apply get_c_nth in Ej. pose proof (proj2 A j _ Ej) as Uj.
    unfold merged_fields in H. injection H as <-. apply alone_put; [exact A|congruence|]. unfold uses, set_extends, set_fields. cbn [ct_base ct_elems ct_attrs]. intros [X|X]; [apply U; left; exact X|].
    apply in_app_or in X as [X|X]; apply in_map_iff in X as (x & Ex & X); apply in_app_or in X as [X|X].
    - apply filter_In in X as [X _]. apply Uj. right. apply in_or_app. left. rewrite <- Ex. apply in_map. exact X.
    - apply U. right. apply in_or_app. left. rewrite <- Ex. apply in_map. exact X.
    - apply U. right. apply in_or_app. right. rewrite <- Ex. apply in_map. exact X.
    - apply filter_In in X as [X _]. apply Uj. right. apply in_or_app. right. rewrite <- Ex. apply in_map. exact X.
  Qed.
  Lemma expand_alone st l st' : alone st -> clear l -> expand_types st l = Ret st' -> alone st'.
  Proof.
    intros A C H. unfold expand_types in H. destruct (SgModel.index_types st l) as [ix| | |]; try discriminate. cbn [andthen] in H.
    destruct (foldr _ (ix, l) l) as [[ix' all]| | |] eqn:E; try discriminate. cbn [andthen] in H.
    assert (Ca : clear (snd (ix', all))). { revert E. apply (foldr_inv _ (fun s => clear (snd s))); [|exact C]. intros a b a' _ Hc. apply (bases_clear st A); [apply alone_base; exact A|exact Hc]. }
    cbn [snd] in Ca. destruct (edges st ix' all) as [es| | |]; try discriminate. cbn [andthen] in H. destruct (flatten (build es)) as [order|]; [|discriminate].
    revert H. apply (foldr_inv _ alone); [|exact A]. intros a b a' _ Ha Hx. destruct (nth_error all (Z.to_nat b)) as [t|] eqn:Et; [|discriminate]. apply (expand_one_alone a t); auto. intros ->. exact (Ca (nth_error_In _ _ Et)).
  Qed.
  (* ---------- declarations ---------- *)
  Variables (public : xname -> string) (fe : option (element -> bool)) (helpers : list Z).
  Lemma subseq_incl {A} (l m : list A) x : subseq l m -> In x l -> In x m.
  Proof. induction 1; cbn [In]; [auto| |]; tauto. Qed.
  Lemma inherit_alone st i c : alone st -> i <> k -> nth_error st i = Some (DC c) -> alone (put_c st i (inherit st c)).
  Proof.
    intros A N E. pose proof (proj2 A i _ E) as U. apply alone_put; [exact A|exact N|]. unfold inherit. destruct (ct_base c) as [|z|n|j] eqn:Eb; try exact U. destruct (get_c st j) as [b|] eqn:Ej; [|exact U].
    apply get_c_nth in Ej. pose proof (proj2 A j _ Ej) as Uj. unfold uses, set_fields. cbn [ct_base ct_elems ct_attrs]. intros [X|X]; [apply U; left; congruence|].
    apply in_app_or in X as [X|X]; apply in_map_iff in X as (x & Ex & X).
    - assert (G : In x (ct_elems c) \/ In x (ct_elems b)). { destruct (existsb el_wild (ct_elems c)); auto. destruct (find el_wild (ct_elems b)) as [e|] eqn:Ef; auto. apply in_app_or in X as [X|[<-|[]]]; auto. right. exact (proj1 (find_some _ _ Ef)). }
      destruct G as [G|G]; [apply U|apply Uj]; right; apply in_or_app; left; rewrite <- Ex; apply in_map; exact G.
    - destruct (merge_spec (ct_attrs b) (ct_attrs c)) as (ext & Em & Sb & _). rewrite Em in X. apply in_app_or in X as [X|X]; [apply U|apply Uj; apply (subseq_incl _ _ _ Sb) in X]; right; apply in_or_app; right; rewrite <- Ex; apply in_map; exact X.
  Qed.
  Lemma gen_type_alone hs st t st' l : alone st -> t <> TPtr k -> gen_type public fa fe hs st t = Ret (st', l) -> alone st'.
  Proof.
    intros A N H. destruct t as [|z|n|i]; cbn [gen_type] in H; try discriminate; try (injection H as <- _; exact A). destruct (nth_error st i) as [[c|s]|] eqn:E; [| |discriminate].
    - unfold gen_complex in H. destruct (chardata public hs st c) as [g| | |]; try discriminate. cbn [andthen] in H. cbv zeta in H. destruct (filter_fields fa fe (inherit st c)) as [ats els].
      destruct (foldr _ g els) as [g1| | |]; try discriminate. cbn [andthen] in H. destruct (foldr _ g1 ats) as [g2| | |]; try discriminate. cbn [andthen] in H. injection H as <- _. apply inherit_alone; [exact A|congruence|exact E].
    - destruct (if sd_list s then _ else _) as [x| | |]; try discriminate. cbn [andthen] in H. injection H as <- _. exact A.
  Qed.
  Lemma after_error_alone hs st t : alone st -> t <> TPtr k -> alone (after_error public hs st t).
  Proof.
    intros A N. destruct t as [|z|n|i]; try exact A. cbn [after_error]. destruct (get_c st i) as [c|] eqn:E; [|exact A]. apply get_c_nth in E. destruct (chardata public hs st c); try exact A. apply inherit_alone; [exact A|congruence|exact E].
  Qed.
  Lemma schema_alone g types g' : alone (fst (fst g)) -> gen_schema public fa fe ft allow helpers g types = Ret g' -> alone (fst (fst g')).
  Proof.
    intros A H. destruct g as [[st errs] specs]. cbn [fst] in A. cbn [gen_schema] in H. destruct (flatten_types fa ft allow st types) as [[s1 l]| | |] eqn:Ef; try discriminate. cbn [andthen fst snd] in H. apply flatten_clear in Ef as [A1 C1]; [|exact A].
    destruct (expand_types s1 l) as [s2| | |] eqn:Ee; try discriminate. cbn [andthen] in H. apply expand_alone in Ee; auto. revert H. apply (foldr_inv _ (fun g => alone (fst (fst g)))); [|exact Ee].
    intros [[sa ea] pa] t a' Ht Aa S. cbn [fst] in Aa. cbn [gen_step] in S. assert (Nt : t <> TPtr k) by (intros ->; exact (C1 Ht)). destruct (gen_type public fa fe helpers sa t) as [[sb l2]| | |] eqn:Eg; try discriminate.
    - injection S as <-. exact (gen_type_alone _ _ _ _ _ Aa Nt Eg).
    - destruct (type_name sa t); [|discriminate]. injection S as <-. apply after_error_alone; auto.
  Qed.
  Theorem gen_alone slices st schemas c : alone st -> gen public fa fe ft allow helpers slices st schemas = Ret (inr c) -> alone (co_store c).
  Proof.
    intros A H. unfold gen in H. destruct (foldr (gen_schema public fa fe ft allow helpers) (st, [], []) schemas) as [[[s1 errs] specs]| | |] eqn:E; try discriminate. cbn [andthen] in H. destruct errs; [|discriminate].
    assert (A1 : alone (fst (fst (s1, @nil xname, specs)))) by (revert E; apply (foldr_inv _ (fun g => alone (fst (fst g)))); [|exact A]; intros a b a' _; apply schema_alone).
    cbn [fst] in A1. destruct (foldr _ [] specs) as [names| | |]; try discriminate. cbn [andthen] in H. destruct (foldr _ [] _) as [ds| | |]; try discriminate. cbn [andthen] in H. injection H as <-. exact A1.
  Qed.
End Frame.
