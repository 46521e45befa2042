(* The steps of HandleSOAPArrayType one after the other, with the arrays that copies share. *)
From Verif Require Import Base ScopeModel TreeModel EqualModel EqualSpec EqualProofs BuiltinModel XsdModel XsdProofs TypesModel TypesSpec TypesProofs TypesOrder NormAttr GenModel SgModel SgFlat SgFlatSpec SgFlatten SgExpandSpec SoapModel SoapSpec SoapProofs.
Local Open Scope string_scope.
Set Default Proof Using "Type".

(* what one step does to the store *)
Definition stepped (st st' : store) (i : nat) : Prop :=
  st' = st \/ exists c els, nth_error st i = Some (DC c) /\
    (st' = set_nth i (DC (set_fields c els (ct_attrs c))) st \/
     exists j b pre a ats, ct_base c = TPtr j /\ nth_error (set_nth i (DC (set_fields c els (ct_attrs c))) st) j = Some (DC b) /\ upto_array (ct_attrs c) = (pre, Some a) /\
       without_array (ct_attrs b) ats /\
       st' = (set_nth i (DC (set_base (set_fields c els pre) (TPtr (List.length st)))) st ++ [DC (set_fields b (ct_elems b) ats)])%list).
Lemma set_same {A} (l : list A) : forall i x, nth_error l i = Some x -> set_nth i x l = l.
Proof. induction l as [|y l IH]; intros [|i] x H; cbn in *; try discriminate; [congruence|]. f_equal. exact (IH i x H). Qed.
Lemma array_shape st es i st' : soap_array st es (TPtr i) = Ret st' -> stepped st st' i.
Proof.
  cbn [soap_array]. unfold get_c at 1. destruct (nth_error st i) as [[c|s]|] eqn:Ei; try (intros [= <-]; left; reflexivity).
  assert (i < List.length st) as Li by (apply nth_error_Some; congruence).
  destruct (upto_array (ct_attrs c)) as [pre [a|]] eqn:U; [|intros [= <-]; left; reflexivity].
  destruct (String.eqb _ _); [intros [= <-]; left; reflexivity|]. destruct (find_type _ _ _ _) as [f|]; [|discriminate].
  destruct (match f with Some b => override_wildcard st i b | None => Ret st end) as [s| | |] eqn:Eo; cbn [andthen]; try discriminate.
  assert (exists els, s = set_nth i (DC (set_fields c els (ct_attrs c))) st) as [els Es].
  { assert (st = set_nth i (DC (set_fields c (ct_elems c) (ct_attrs c))) st) as Same by (symmetry; apply set_same; rewrite Ei; destruct c; reflexivity).
    destruct f as [b|]; [|injection Eo as <-; eexists; exact Same]. apply override_shape in Eo as [->|[c1 [w [A1 [_ ->]]]]]; [eexists; exact Same|].
    assert (c1 = c) as -> by congruence. eexists. reflexivity. }
  intros H. right. exists c, els. split; [exact Ei|]. revert H. unfold get_c at 1. rewrite Es, set_nth_same by exact Li. cbn [set_fields ct_base].
  destruct (ct_base c) as [| | |j] eqn:Ej; try (intros [= <-]; left; reflexivity). rewrite get_c_spec. destruct (nth_error (set_nth i _ st) j) as [[b|x]|] eqn:Gj; try (intros [= <-]; left; reflexivity).
  destruct (ct_attrs b) as [|x l] eqn:Eb; [discriminate|]. intros [= <-]. right. exists j, b, pre, a, (filter (fun v => negb (is_array_attr v)) (ct_attrs b)).
  split; [reflexivity|]. split; [exact Gj|]. split; [exact U|]. split; [rewrite Eb; apply without_spec|]. unfold put_c. rewrite set_nth_twice, set_nth_length, Eb. destruct c; cbn in *; subst; reflexivity.
Qed.

(* writing through *)
Definition synced (sh : shares) (i : nat) (st st' : store) : Prop := List.length st' = List.length st /\
  forall k, nth_error st' k = nth_error st k \/
    (In (k, i) sh /\ exists c b, nth_error st i = Some (DC c) /\ nth_error st k = Some (DC b) /\
       nth_error st' k = Some (DC (set_fields b (firstn (List.length (ct_elems b)) (ct_elems c)) (ct_attrs b)))).
Lemma firstn_length_min {A} (l m : list A) : firstn (List.length (firstn (List.length l) m)) m = firstn (List.length l) m.
Proof. rewrite firstn_length. destruct (Nat.min_spec (List.length l) (List.length m)) as [[_ ->]|[L ->]]; [reflexivity|]. rewrite !firstn_all2 by lia. reflexivity. Qed.
Lemma sees_synced i p st : synced [p] i st (sees i st p).
Proof.
  destruct p as [k j]. unfold sees. cbn [fst snd]. destruct (Nat.eqb_spec j i) as [->|N]; [|split; [reflexivity|left; reflexivity]].
  rewrite !get_c_spec. destruct (nth_error st i) as [[c|s]|] eqn:Ei; try (split; [reflexivity|left; reflexivity]).
  destruct (nth_error st k) as [[b|s]|] eqn:Ek; try (split; [reflexivity|left; reflexivity]). unfold put_c. split; [apply set_nth_length|]. intros k'.
  destruct (Nat.eq_dec k' k) as [->|N]; [right|left; apply set_nth_other, N]. split; [left; reflexivity|]. exists c, b. split; [exact Ei|]. split; [exact Ek|]. apply set_nth_same. apply nth_error_Some. congruence.
Qed.
Lemma set_fields_same b : set_fields b (ct_elems b) (ct_attrs b) = b.
Proof. destruct b; reflexivity. Qed.
Lemma synced_self sh i st st' : synced sh i st st' -> nth_error st' i = nth_error st i.
Proof.
  intros [_ S]. destruct (S i) as [E|[_ [c [b [E1 [E2 E3]]]]]]; [exact E|]. assert (b = c) as -> by congruence. rewrite E3, firstn_all, set_fields_same. congruence.
Qed.
Lemma synced_app sh1 sh2 i st st1 st2 : synced sh1 i st st1 -> synced sh2 i st1 st2 -> synced (sh1 ++ sh2)%list i st st2.
Proof.
  intros S1 S2. pose proof (synced_self _ _ _ _ S1) as I1. destruct S1 as [L1 S1], S2 as [L2 S2]. split; [congruence|]. intros k.
  destruct (S2 k) as [E|[I [c [b [E1 [E2 E3]]]]]].
  - destruct (S1 k) as [E'|[I' X]]; [left; congruence|right; split; [apply in_or_app; left; exact I'|rewrite E; exact X]].
  - right. destruct (S1 k) as [E'|[I' [c' [b' [A1 [A2 A3]]]]]].
    + split; [apply in_or_app; right; exact I|]. exists c, b. split; [congruence|]. split; [congruence|exact E3].
    + split; [apply in_or_app; left; exact I'|]. exists c', b'. split; [exact A1|]. split; [exact A2|]. rewrite E3. assert (c = c') as -> by congruence. assert (b = set_fields b' (firstn (List.length (ct_elems b')) (ct_elems c')) (ct_attrs b')) as -> by congruence.
      cbn [set_fields ct_elems ct_attrs]. rewrite firstn_length_min. reflexivity.
Qed.
Lemma fold_synced i : forall sh st, synced sh i st (fold_left (sees i) sh st).
Proof.
  induction sh as [|p sh IH]; intros st; [split; [reflexivity|left; reflexivity]|]. cbn [fold_left]. change (p :: sh) with ([p] ++ sh)%list. eapply synced_app; [apply sees_synced|apply IH].
Qed.
(* every copy shows what the array of its original holds *)
Lemma fold_shows i : forall sh st k c b, In (k, i) sh -> nth_error st i = Some (DC c) -> nth_error st k = Some (DC b) ->
  nth_error (fold_left (sees i) sh st) k = Some (DC (set_fields b (firstn (List.length (ct_elems b)) (ct_elems c)) (ct_attrs b))).
Proof.
  intros sh st k c b I Ei Ek. revert st c b I Ei Ek. induction sh as [|p sh IH]; intros st c b I Ei Ek; [destruct I|]. cbn [fold_left].
  destruct I as [->|I].
  - assert (sees i st (k, i) = set_nth k (DC (set_fields b (firstn (List.length (ct_elems b)) (ct_elems c)) (ct_attrs b))) st) as ->.
    { unfold sees. cbn [fst snd]. rewrite Nat.eqb_refl, !get_c_spec, Ei, Ek. reflexivity. }
    set (st1 := set_nth k _ st). assert (nth_error st1 k = Some (DC (set_fields b (firstn (List.length (ct_elems b)) (ct_elems c)) (ct_attrs b)))) as E1 by (apply set_nth_same, nth_error_Some; congruence).
    destruct (fold_synced i sh st1) as [_ S]. destruct (S k) as [E|[_ [c' [b' [A1 [A2 A3]]]]]]; [congruence|]. rewrite A3.
    assert (c' = c) as ->.
    { unfold st1 in A1. destruct (Nat.eq_dec i k) as [->|N]; [|rewrite set_nth_other in A1 by exact N; congruence]. assert (b = c) as -> by congruence. fold st1 in A1. rewrite firstn_all, set_fields_same in E1. congruence. }
    assert (b' = set_fields b (firstn (List.length (ct_elems b)) (ct_elems c)) (ct_attrs b)) as -> by congruence. cbn [set_fields ct_elems ct_attrs]. rewrite firstn_length_min. reflexivity.
  - pose proof (sees_synced i p st) as S1. pose proof (synced_self _ _ _ _ S1) as I1. destruct S1 as [_ S1]. destruct (S1 k) as [E|[_ [c' [b' [A1 [A2 A3]]]]]].
    + apply IH; [exact I|congruence|congruence].
    + rewrite (IH _ c (set_fields b (firstn (List.length (ct_elems b)) (ct_elems c)) (ct_attrs b)) I); [|congruence|].
      * cbn [set_fields ct_elems ct_attrs]. rewrite firstn_length_min. reflexivity.
      * rewrite A3. congruence.
Qed.
(* names and bases are not written to *)
Lemma synced_def sh i st st' k d : synced sh i st st' -> nth_error st k = Some d -> exists d', nth_error st' k = Some d' /\ def_name d' = def_name d /\ def_base d' = def_base d /\
  (forall c, d = DC c -> exists els, d' = DC (set_fields c els (ct_attrs c))).
Proof.
  intros [_ S] E. destruct (S k) as [E'|[_ [c [b [A1 [A2 A3]]]]]].
  - exists d. split; [congruence|]. split; [reflexivity|]. split; [reflexivity|]. intros c ->. exists (ct_elems c). rewrite set_fields_same. reflexivity.
  - assert (d = DC b) as -> by congruence. eexists. split; [exact A3|]. split; [reflexivity|]. split; [reflexivity|]. intros c' [= <-]. eexists. reflexivity.
Qed.

(* ---------- the step ---------- *)
Lemma step_inv s es t s' : soap_step s es t = Ret s' -> exists st1, soap_array (fst s) es t = Ret st1 /\
  match t with
  | TPtr i => synced (snd s) i st1 (fst s') /\ fst s' = fold_left (sees i) (snd s) st1 /\
      (List.length st1 = List.length (fst s) /\ snd s' = snd s \/
       exists j, List.length st1 = Datatypes.S (List.length (fst s)) /\ base_of (fst s) t = TPtr j /\ snd s' = (List.length (fst s), j) :: snd s)
  | _ => s' = s
  end.
Proof.
  unfold soap_step. destruct (soap_array (fst s) es t) as [st1| | |] eqn:E; cbn [andthen]; try discriminate. intros H. exists st1. split; [reflexivity|].
  destruct t as [| | |i]; try (cbn [soap_array] in E; injection E as <-; injection H as <-; destruct s; reflexivity).
  injection H as <-. cbn [fst snd]. split; [apply fold_synced|]. split; [reflexivity|].
  apply array_shape in E as [->|[c [els [Ei [->|[j [b [pre [a [ats [Ej [Gj [U [W ->]]]]]]]]]]]]]].
  - left. rewrite Nat.ltb_irrefl. auto.
  - left. rewrite set_nth_length, Nat.ltb_irrefl. auto.
  - right. exists j. rewrite app_length, set_nth_length. cbn [List.length]. split; [lia|]. cbn [base_of]. rewrite Ei. cbn [def_base]. rewrite Ej. split; [reflexivity|].
    destruct (Nat.ltb_spec (List.length (fst s)) (List.length (fst s) + 1)); [reflexivity|lia].
Qed.
Theorem step_frame s es t s' : soap_step s es t = Ret s' ->
  (forall k, t <> TPtr k -> k < List.length (fst s) -> (forall i, t = TPtr i -> ~ In (k, i) (snd s)) -> nth_error (fst s') k = nth_error (fst s) k) /\
  (forall k c, t <> TPtr k -> nth_error (fst s) k = Some (DC c) -> exists els, nth_error (fst s') k = Some (DC (set_fields c els (ct_attrs c)))) /\
  List.length (fst s) <= List.length (fst s') <= Datatypes.S (List.length (fst s)).
Proof.
  intros H. apply step_inv in H as [st1 [E H]]. destruct (array_frame _ _ _ _ E) as [F L].
  destruct t as [| | |i]; try (subst s'; repeat split; auto; intros k c _ Hk; exists (ct_elems c); rewrite set_fields_same; exact Hk).
  destruct H as [Sy [_ _]]. split; [|split].
  - intros k Nk Lk Ns. destruct Sy as [_ S]. destruct (S k) as [X|[I _]]; [rewrite X; apply F; assumption|]. exfalso. exact (Ns i eq_refl I).
  - intros k c Nk Hk. rewrite <- F in Hk; [|exact Nk|apply nth_error_Some; congruence]. destruct (synced_def _ _ _ _ _ _ Sy Hk) as [d [E1 [_ [_ E2]]]]. destruct (E2 c eq_refl) as [els ->]. exists els. exact E1.
  - destruct Sy as [-> _]. exact L.
Qed.
Lemma step_alone i : forall sh, (forall k, ~ In (k, i) sh) -> forall st1, fold_left (sees i) sh st1 = st1.
Proof.
  induction sh as [|[k j] sh IH]; intros N st1; [reflexivity|]. cbn [fold_left]. unfold sees at 2. cbn [fst snd]. destruct (Nat.eqb_spec j i) as [->|X]; [exfalso; apply (N k); left; reflexivity|].
  apply IH. intros k' I. apply (N k'). right. exact I.
Qed.

(* a type whose copies are not shared yet *)
Theorem step_array st es sh i c pre a post n : rooted st -> (forall k t, In (k, t) es -> known st t) -> nth_error st i = Some (DC c) -> soap_arr c pre a post n ->
  (forall k, ~ In (k, i) sh) ->
  exists els, items st es i n (ct_elems c) els /\
    (forall j b, ct_base c = TPtr j -> nth_error st j = Some (DC b) -> ct_attrs b <> [] ->
       exists ats, without_array (ct_attrs b) ats /\
         soap_step (st, sh) es (TPtr i) = Ret ((set_nth i (DC (array_type c els pre (TPtr (List.length st)))) st ++ [DC (array_type b (ct_elems b) ats (ct_base b))])%list, (List.length st, j) :: sh)) /\
    (forall j b, ct_base c = TPtr j -> nth_error st j = Some (DC b) -> ct_attrs b = [] -> soap_step (st, sh) es (TPtr i) = Panic) /\
    ((forall j b, ct_base c = TPtr j -> nth_error st j <> Some (DC b)) ->
       soap_step (st, sh) es (TPtr i) = Ret (set_nth i (DC (array_type c els (ct_attrs c) (ct_base c))) st, sh)).
Proof.
  intros R K Hc Ha Ns. destruct (array_spec st R es K i c Hc pre a post n Ha) as [els [I [A [B C]]]]. exists els. split; [exact I|]. unfold soap_step. cbn [fst snd]. split; [|split].
  - intros j b Ej Hj Nb. destruct (A j b Ej Hj Nb) as [ats [W E]]. exists ats. split; [exact W|]. rewrite E. cbn [andthen]. rewrite (step_alone i sh Ns). rewrite app_length, set_nth_length. cbn [List.length].
    destruct (Nat.ltb_spec (List.length st) (List.length st + 1)); [|lia]. cbn [base_of]. rewrite Hc. cbn [def_base]. rewrite Ej. reflexivity.
  - intros j b Ej Hj Nb. rewrite (B j b Ej Hj Nb). reflexivity.
  - intros Nj. rewrite (C Nj). cbn [andthen]. rewrite (step_alone i sh Ns), set_nth_length, Nat.ltb_irrefl. reflexivity.
Qed.
(* copies that exist already only show what is written to the elements *)
Theorem step_shared st sh es i s' : soap_step (st, sh) es (TPtr i) = Ret s' ->
  exists st1 sh1, soap_step (st, []) es (TPtr i) = Ret (st1, sh1) /\ snd s' = (sh1 ++ sh)%list /\
    (forall k, ~ In (k, i) sh -> nth_error (fst s') k = nth_error st1 k) /\
    (forall k c b, In (k, i) sh -> nth_error st1 i = Some (DC c) -> nth_error st1 k = Some (DC b) ->
       nth_error (fst s') k = Some (DC (array_type b (firstn (List.length (ct_elems b)) (ct_elems c)) (ct_attrs b) (ct_base b)))).
Proof.
  intros H. unfold soap_step in *. cbn [fst snd] in *. destruct (soap_array st es (TPtr i)) as [st1| | |]; cbn [andthen] in *; try discriminate. injection H as <-. cbn [fst snd fold_left].
  eexists. eexists. split; [reflexivity|]. split; [|split].
  - destruct (Nat.ltb (List.length st) (List.length st1)); [cbn [base_of]; destruct (nth_error st i) as [d|]; [destruct (def_base d)|]; reflexivity|reflexivity].
  - intros k N. destruct (fold_synced i sh st1) as [_ S]. destruct (S k) as [X|[I _]]; [exact X|destruct (N I)].
  - intros k c b I Hc Hb. exact (fold_shows i sh st1 k c b I Hc Hb).
Qed.
(* the elements of the type itself, whatever is shared *)
Theorem step_self st es sh i s' : soap_step (st, sh) es (TPtr i) = Ret s' -> exists st1, soap_array st es (TPtr i) = Ret st1 /\ nth_error (fst s') i = nth_error st1 i.
Proof. intros H. apply step_inv in H as [st1 [E [Sy _]]]. exists st1. split; [exact E|]. exact (synced_self _ _ _ _ Sy). Qed.
(* the copies of i show the array of i *)
Definition shown (i : nat) (st : store) (sh : shares) : Prop :=
  forall k c b, In (k, i) sh -> nth_error st i = Some (DC c) -> nth_error st k = Some (DC b) -> ct_elems b = firstn (List.length (ct_elems b)) (ct_elems c).
Lemma shown_fold i st : forall sh, shown i st sh -> fold_left (sees i) sh st = st.
Proof.
  induction sh as [|[k j] sh IH]; intros Sh; [reflexivity|]. cbn [fold_left]. replace (sees i st (k, j)) with st; [apply IH; intros k' c b I; apply Sh; right; exact I|].
  unfold sees. cbn [fst snd]. destruct (Nat.eqb_spec j i) as [->|]; [|reflexivity]. rewrite !get_c_spec. destruct (nth_error st i) as [[c|]|] eqn:Ei; try reflexivity.
  destruct (nth_error st k) as [[b|]|] eqn:Ek; try reflexivity.
  rewrite <- (Sh k c b (or_introl eq_refl) Ei Ek), set_fields_same. symmetry. apply set_same, Ek.
Qed.
Lemma fold_shown i st sh : shown i (fold_left (sees i) sh st) sh.
Proof.
  intros k c b I Ei Ek. pose proof (fold_synced i sh st) as Sy. rewrite (synced_self _ _ _ _ Sy) in Ei. destruct Sy as [_ S].
  assert (exists b0, nth_error st k = Some (DC b0)) as [b0 E0]. { destruct (S k) as [E|[_ [_ [b0 [_ [E _]]]]]]; [exists b; congruence|exists b0; exact E]. }
  rewrite (fold_shows i sh st k c b0 I Ei E0) in Ek. injection Ek as <-. cbn [set_fields ct_elems]. rewrite firstn_length_min. reflexivity.
Qed.
Lemma step_plain st es sh i c : nth_error st i = Some (DC c) -> (forall pre a post n, ~ soap_arr c pre a post n) -> shown i st sh -> soap_step (st, sh) es (TPtr i) = Ret (st, sh).
Proof.
  intros Hc N Sh. unfold soap_step. cbn [fst snd]. rewrite (plain_array st es i c Hc N). cbn [andthen]. rewrite Nat.ltb_irrefl, (shown_fold i st sh Sh). reflexivity.
Qed.
Lemma step_plain' st es sh i c : nth_error st i = Some (DC c) -> (forall pre a post n, ~ soap_arr c pre a post n) -> (forall k, ~ In (k, i) sh) -> soap_step (st, sh) es (TPtr i) = Ret (st, sh).
Proof. intros Hc N Ns. apply (step_plain st es sh i c Hc N). intros k c' b I. destruct (Ns k I). Qed.
Lemma synced_ext sh i st st' : synced sh i st st' -> (forall t, type_name st' t = type_name st t) /\ (forall t, base_of st' t = base_of st t) /\ (forall k, get_c st k = None -> get_c st' k = None).
Proof.
  intros Sy. pose proof Sy as [L S]. split; [|split].
  - intros [| | |k]; try reflexivity. cbn [type_name]. destruct (S k) as [->|[_ [c [b [_ [-> ->]]]]]]; reflexivity.
  - intros [| | |k]; try reflexivity. cbn [base_of]. destruct (S k) as [->|[_ [c [b [_ [-> ->]]]]]]; reflexivity.
  - intros k. rewrite !get_c_spec. destruct (S k) as [->|[_ [c [b [_ [-> ->]]]]]]; [trivial|discriminate].
Qed.
Lemma array_synced st es i sh st' : soap_array st es (TPtr i) = Ret st -> synced sh i st st' -> soap_array st' es (TPtr i) = Ret st'.
Proof.
  intros H Sy. pose proof (synced_self _ _ _ _ Sy) as Si. destruct (synced_ext _ _ _ _ Sy) as [T1 [T2 T3]]. assert (List.length st' = List.length st) as L by apply Sy. revert H. cbn [soap_array]. rewrite !get_c_spec, Si.
  destruct (nth_error st i) as [[c|s]|] eqn:Ei; try reflexivity. destruct (upto_array (ct_attrs c)) as [pre [a|]]; [|reflexivity]. destruct (String.eqb _ _); [reflexivity|].
  rewrite L, (find_type_ext st st' _ _ es T1 T2). destruct (find_type _ _ _ _) as [f|]; [|discriminate].
  assert (i < List.length st) as Li by (apply nth_error_Some; congruence).
  destruct (match f with Some b => override_wildcard st i b | None => Ret st end) as [s| | |] eqn:Eo; cbn [andthen]; try discriminate.
  assert (exists els, s = set_nth i (DC (set_fields c els (ct_attrs c))) st) as [els Es].
  { assert (st = set_nth i (DC (set_fields c (ct_elems c) (ct_attrs c))) st) as Same by (symmetry; apply set_same; rewrite Ei; destruct c; reflexivity).
    destruct f as [b|]; [|injection Eo as <-; eexists; exact Same]. pose proof Eo as Eo'. apply override_shape in Eo' as [->|[c1 [w [A1 [_ ->]]]]]; [eexists; exact Same|].
    assert (c1 = c) as -> by congruence. eexists. reflexivity. }
  intros H. assert (s = st /\ forall j, ct_base c = TPtr j -> get_c st j = None) as [Hs Nj].
  { revert H. rewrite !get_c_spec. rewrite Es, set_nth_same by exact Li. cbn [set_fields ct_base]. rewrite <- Es.
    destruct (ct_base c) as [| | |j] eqn:Ej; try (intros [= <-]; split; [reflexivity|discriminate]). rewrite get_c_spec.
    destruct (nth_error s j) as [[b|x]|] eqn:Gj; try (intros [= <-]; split; [reflexivity|intros ? [= <-]; rewrite get_c_spec, Gj; reflexivity]).
    destruct (ct_attrs b); [discriminate|]. intros [= H]. apply (f_equal (@List.length def)) in H. rewrite app_length in H. unfold put_c in H. rewrite Es, !set_nth_length in H. cbn in H. lia. }
  assert (match f with Some b => override_wildcard st' i b | None => Ret st' end = Ret st') as ->.
  { destruct f as [b|]; [|reflexivity]. revert Eo. rewrite Hs. unfold override_wildcard. rewrite L.
    assert (find_wild (List.length st) st' (TPtr i) = find_wild (List.length st) st (TPtr i)) as ->.
    { destruct (List.length st) as [|z]; [lia|]. cbn [find_wild]. rewrite T2. assert (base_of st (TPtr i) = ct_base c) as -> by (cbn [base_of]; rewrite Ei; reflexivity). rewrite !get_c_spec, Si, Ei.
      destruct (ct_base c) as [|n|x|j] eqn:Ej; try reflexivity; destruct (find el_wild (ct_elems c)); try reflexivity; try (destruct z; reflexivity).
      specialize (Nj j eq_refl). destruct z; cbn [find_wild]; rewrite T2, Nj, (T3 j Nj); reflexivity. }
    destruct (find_wild (List.length st) st (TPtr i)) as [[w|]| | |]; cbn [andthen]; try discriminate; try reflexivity.
    rewrite !get_c_spec, Si, Ei. intros [= X]. f_equal. unfold put_c in *. apply set_same. rewrite Si, <- Ei. apply (f_equal (fun l => nth_error l i)) in X. rewrite set_nth_same in X by exact Li. congruence. }
  cbn [andthen]. rewrite get_c_spec, Si. destruct (ct_base c) as [| | |j] eqn:Ej; try reflexivity. rewrite (T3 j (Nj j eq_refl)). reflexivity.
Qed.
(* a second run changes nothing *)
Theorem step_again s es t s' : soap_step s es t = Ret s' -> soap_step s' es t = Ret s'.
Proof.
  intros H. pose proof H as H0. apply step_inv in H as [st1 [E H]]. destruct t as [| | |i]; try (subst s'; exact H0).
  destruct H as [Sy [Ef Ls]]. assert (soap_array (fst s') es (TPtr i) = Ret (fst s')) as E2. { eapply array_synced; [exact (array_again _ _ _ _ E)|exact Sy]. }
  unfold soap_step. rewrite E2. cbn [andthen]. rewrite Nat.ltb_irrefl. rewrite shown_fold; [destruct s'; reflexivity|].
  assert (shown i (fst s') (snd s)) as Sh by (rewrite Ef; apply fold_shown). destruct Ls as [[_ ->]|[j [Ll [Ej ->]]]]; [exact Sh|].
  intros k c b [[= <- ->]|I] Ei Ek; [|exact (Sh k c b I Ei Ek)].
  apply array_shape in E as [->|[c0 [els [E0 [->|[j [b0 [pre [a [ats [Ej0 [Gj [U [W E1]]]]]]]]]]]]]]; [lia|rewrite set_nth_length in Ll; lia|].
  assert (j = i) as -> by (cbn [base_of] in Ej; rewrite E0 in Ej; cbn [def_base] in Ej; congruence).
  assert (i < List.length (fst s)) as Li by (apply nth_error_Some; congruence).
  rewrite set_nth_same in Gj by exact Li. injection Gj as <-. cbn [set_fields ct_elems] in E1.
  assert (nth_error st1 i = Some (DC (set_base (set_fields c0 els pre) (TPtr (List.length (fst s)))))) as E3 by (rewrite E1, nth_error_app1 by (rewrite set_nth_length; lia); apply set_nth_same, Li).
  assert (nth_error st1 (List.length (fst s)) = Some (DC (set_fields (set_fields c0 els (ct_attrs c0)) els ats))) as E4 by (rewrite E1, nth_error_app2; rewrite set_nth_length; [rewrite Nat.sub_diag; reflexivity|lia]).
  rewrite (synced_self _ _ _ _ Sy), E3 in Ei. injection Ei as <-. cbn [set_base set_fields ct_elems].
  destruct Sy as [_ S]. destruct (S (List.length (fst s))) as [X|[_ [c1 [b1 [A1 [A2 A3]]]]]].
  - rewrite X, E4 in Ek. injection Ek as <-. cbn [set_fields ct_elems]. symmetry. apply firstn_all.
  - assert (c1 = set_base (set_fields c0 els pre) (TPtr (List.length (fst s)))) as -> by congruence. assert (b1 = set_fields (set_fields c0 els (ct_attrs c0)) els ats) as -> by congruence.
    rewrite A3 in Ek. injection Ek as <-. cbn [set_base set_fields ct_elems]. rewrite firstn_all. symmetry. apply firstn_all.
Qed.

(* ---------- all types of a schema ---------- *)
Definition soap_run (s : store * shares) (l : list (list (xname * ty) * ty)) : run (store * shares) := foldr (fun s p => soap_step s (fst p) (snd p)) s l.
Lemma arrays_run st l st' : soap_arrays st l = Ret st' -> exists sh, soap_run (st, []) l = Ret (st', sh).
Proof. unfold soap_arrays. fold (soap_run (st, []) l). destruct (soap_run (st, []) l) as [[x sh]| | |]; cbn [andthen]; try discriminate. intros [= <-]. exists sh. reflexivity. Qed.
Lemma run_ind (P : store * shares -> Prop) (ok : ty -> Prop) : (forall s es t s', ok t -> P s -> soap_step s es t = Ret s' -> P s') ->
  forall l s s', (forall es t, In (es, t) l -> ok t) -> P s -> soap_run s l = Ret s' -> P s'.
Proof.
  intros Hs. induction l as [|[es t] l IH]; intros s s' Hl Ps H; cbn [soap_run foldr] in H; [injection H as <-; exact Ps|]. cbn [fst snd] in H.
  destruct (soap_step s es t) as [s1| | |] eqn:E; cbn [andthen] in H; try discriminate. refine (IH s1 s' (fun es' t' I => Hl es' t' (or_intror I)) _ H). exact (Hs s es t s1 (Hl es t (or_introl eq_refl)) Ps E).
Qed.
Theorem arrays_frame l st st' : soap_arrays st l = Ret st' -> forall k d, nth_error st k = Some d -> (forall c, d = DC c -> ~ soap_c c) -> nth_error st' k = Some d.
Proof.
  intros H k d Hk N. apply arrays_run in H as [sh H]. assert (k < List.length st) as Lk by (apply nth_error_Some; congruence).
  enough (nth_error (fst (st', sh)) k = Some d /\ List.length st <= List.length (fst (st', sh)) /\ forall k' j, In (k', j) (snd (st', sh)) -> List.length st <= k') as [X _] by exact X.
  apply (run_ind (fun s => nth_error (fst s) k = Some d /\ List.length st <= List.length (fst s) /\ forall k' j, In (k', j) (snd s) -> List.length st <= k') (fun _ => True)) with (l := l) (s := (st, [])); [|trivial|split; [exact Hk|split; [apply le_n|intros ? ? []]]|exact H].
  clear H. intros s es t s' _ [Ps [Pl Pc]] H. destruct (step_frame _ _ _ _ H) as [F [_ L]]. pose proof H as H0. apply step_inv in H as [st1 [E H]]. split; [|split; [lia|]].
  - assert (t = TPtr k \/ t <> TPtr k) as [->|Nt] by (destruct t as [| | |j]; try (right; discriminate); destruct (Nat.eq_dec j k); [left|right]; congruence).
    + destruct H as [Sy _]. rewrite (synced_self _ _ _ _ Sy). exact (plain_same _ _ _ _ E k d Ps N).
    + rewrite F; [exact Ps|exact Nt|lia|]. intros i -> I. specialize (Pc k i I). lia.
  - intros k' j I. destruct t as [| | |i]; try (subst s'; exact (Pc k' j I)). destruct H as [_ [_ [[_ Es]|[j' [_ [_ Es]]]]]]; rewrite Es in I; [exact (Pc k' j I)|]. destruct I as [[= <- <-]|I]; [exact Pl|exact (Pc k' j I)].
Qed.
Lemma rooted_base st i d j : rooted st -> nth_error st i = Some d -> def_base d = TPtr j -> j < List.length st.
Proof.
  intros R Hd Ej. destruct (R i d Hd) as [b A]. inversion A as [|t u Nb A']; subst. cbn [base_of] in A'. rewrite Hd, Ej in A'. inversion A' as [|t u Nb' A'']; subst.
  apply nth_error_Some. intros X. apply Nb'. cbn [base_of]. rewrite X. reflexivity.
Qed.
Lemma without_none l m : without_array l m -> forall a, In a m -> ~ named a "arrayType".
Proof. induction 1 as [|x l m Hx _ IH|x l m Hx _ IH]; intros a Ha; [destruct Ha|exact (IH a Ha)|]. destruct Ha as [<-|Ha]; [exact Hx|exact (IH a Ha)]. Qed.

Section Copies.
  Variable st0 : store.
  Hypothesis R : rooted st0.
  Let n0 := List.length st0.
  (* the copy k of the type j *)
  Definition copy_ok (st : store) (k j : nat) : Prop := n0 <= k < List.length st /\ j < n0 /\
    exists c b, nth_error st j = Some (DC c) /\ nth_error st k = Some (DC b) /\ ct_elems b = firstn (List.length (ct_elems b)) (ct_elems c) /\ ct_name b = ct_name c /\
      forall a, In a (ct_attrs b) -> ~ named a "arrayType".
  Definition base_kept (s : store * shares) (i : nat) : Prop := forall d0, nth_error st0 i = Some d0 -> exists d, nth_error (fst s) i = Some d /\
    (def_base d = def_base d0 \/
     exists c j k p, d = DC c /\ upto_array (ct_attrs c) = (p, None) /\ def_base d0 = TPtr j /\ def_base d = TPtr k /\ In (k, j) (snd s)).
  Definition copies_inv (s : store * shares) : Prop := n0 <= List.length (fst s) /\ (forall k j, In (k, j) (snd s) -> copy_ok (fst s) k j) /\ (forall i, base_kept s i) /\
    forall k j j', In (k, j) (snd s) -> In (k, j') (snd s) -> j = j'.
  Lemma copies_step s es t s' : known st0 t -> copies_inv s -> soap_step s es t = Ret s' -> copies_inv s'.
  Proof using R.
    intros Kt [Pl [Pc [Pb Uniq]]] H. destruct (step_frame _ _ _ _ H) as [F [_ L]]. apply step_inv in H as [st1 [E H]]. destruct t as [| | |i]; try (subst s'; split; [exact Pl|split; [exact Pc|split; [exact Pb|exact Uniq]]]).
    cbn [known] in Kt. fold n0 in Kt. destruct H as [Sy [Ef Ls]].
    assert (List.length (fst s') = List.length st1) as Le by apply Sy.
    assert (~ exists j, In (i, j) (snd s)) as Ni by (intros [j I]; apply Pc in I as [[X _] _]; lia).
    (* elements of others *)
    assert (forall k c, k <> i -> nth_error (fst s) k = Some (DC c) -> nth_error st1 k = Some (DC c)) as Keep1.
    { intros k c Nk Hk. rewrite (proj1 (array_frame _ _ _ _ E)); [exact Hk|congruence|apply nth_error_Some; congruence]. }
    assert (forall k d, k < n0 -> k <> i -> nth_error (fst s) k = Some d -> nth_error (fst s') k = Some d) as Keep.
    { intros k d Lk Nk Hk. rewrite F; [exact Hk|congruence|lia|]. intros j [= <-] I. apply Pc in I as [[X _] _]. lia. }
    (* the type itself: name, and attributes *)
    assert (forall c, nth_error (fst s) i = Some (DC c) -> exists c', nth_error st1 i = Some (DC c') /\ ct_name c' = ct_name c /\
      ((ct_base c' = ct_base c /\ List.length st1 = List.length (fst s) /\ ct_attrs c' = ct_attrs c) \/
       exists j b ats p a, ct_base c = TPtr j /\ upto_array (ct_attrs c) = (p, Some a) /\ ct_base c' = TPtr (List.length (fst s)) /\ ct_attrs c' = p /\ List.length st1 = Datatypes.S (List.length (fst s)) /\
         nth_error st1 (List.length (fst s)) = Some (DC (set_fields b (ct_elems b) ats)) /\ without_array (ct_attrs b) ats /\
         (j <> i -> nth_error (fst s) j = Some (DC b)) /\ (j = i -> ct_elems b = ct_elems c' /\ ct_name b = ct_name c))) as Self.
    { intros c Hc. assert (i < List.length (fst s)) as Li by lia. apply array_shape in E as [->|[c0 [els [E0 [->|[j [b [pre [a [ats [Ej0 [Gj [U [W ->]]]]]]]]]]]]]].
      - exists c. split; [exact Hc|]. split; [reflexivity|]. left. auto.
      - assert (c0 = c) as -> by congruence. eexists. split; [apply set_nth_same, Li|]. split; [reflexivity|]. left. rewrite set_nth_length. auto.
      - assert (c0 = c) as -> by congruence. eexists. split; [rewrite nth_error_app1 by (rewrite set_nth_length; exact Li); apply set_nth_same, Li|]. split; [reflexivity|]. right. exists j, b, ats, pre, a.
        split; [exact Ej0|]. split; [exact U|]. split; [reflexivity|]. split; [reflexivity|]. split; [rewrite app_length, set_nth_length; cbn; lia|].
        split; [rewrite nth_error_app2; rewrite set_nth_length; [rewrite Nat.sub_diag; reflexivity|lia]|]. split; [exact W|]. split.
        + intros Nj. rewrite set_nth_other in Gj by exact Nj. exact Gj.
        + intros ->. rewrite set_nth_same in Gj by exact Li. injection Gj as <-. split; reflexivity. }
    assert (nth_error (fst s') i = nth_error st1 i) as Si by exact (synced_self _ _ _ _ Sy).
    assert (n0 <= List.length (fst s)) as Pl' by exact Pl.
    (* copies made before *)
    assert (forall k j, In (k, j) (snd s) -> copy_ok (fst s') k j) as Old.
    { intros k j I. destruct (Pc k j I) as [Lk [Lj [c [b [Hj [Hk [Pe [Pn Pa]]]]]]]]. split; [lia|]. split; [exact Lj|].
      assert (k <> i) as Nk by lia. pose proof (Keep1 k b Nk Hk) as Hk1. destruct (Nat.eq_dec j i) as [->|Nj].
      - destruct (Self c Hj) as [c' [Hc' [Hn _]]]. exists c', (set_fields b (firstn (List.length (ct_elems b)) (ct_elems c')) (ct_attrs b)).
        split; [congruence|]. split; [rewrite Ef; exact (fold_shows i _ st1 k c' b I Hc' Hk1)|]. cbn [set_fields ct_elems ct_name ct_attrs]. split; [symmetry; apply firstn_length_min|]. split; [congruence|exact Pa].
      - exists c, b. split; [apply Keep; assumption|]. split; [|repeat split; assumption].
        destruct Sy as [_ S]. destruct (S k) as [X|[I' [c1 [b1 [A1 [A2 A3]]]]]]; [congruence|]. exfalso. exact (Nj (Uniq k j i I I')). }
    destruct (nth_error st0 i) as [d0|] eqn:H0; [|exfalso; apply nth_error_None in H0; lia].
    destruct (Pb i d0 H0) as [d [Hd Db]].
    assert (forall i', base_kept s i' -> i' <> i -> (forall k j, In (k, j) (snd s) -> In (k, j) (snd s')) -> base_kept s' i') as KeepB.
    { intros i' B Ni' Inc e0 He0. destruct (B e0 He0) as [e [He Be]]. exists e. split; [apply Keep; [unfold n0; apply nth_error_Some; congruence|exact Ni'|exact He]|].
      destruct Be as [Be|[c [j [k [p [B1 [B2 [B3 [B4 B5]]]]]]]]]; [left; exact Be|right; exists c, j, k, p; split; [exact B1|split; [exact B2|split; [exact B3|split; [exact B4|apply Inc, B5]]]]]. }
    destruct Ls as [[Ll Es]|[j [Ll [Ej Es]]]].
    - split; [lia|]. rewrite Es. split; [exact Old|]. split; [|exact Uniq]. intros i'. destruct (Nat.eq_dec i' i) as [->|Ni']; [|apply KeepB; [apply Pb|exact Ni'|rewrite Es; trivial]].
      intros e0 He0. assert (e0 = d0) as -> by congruence. destruct d as [c|sd].
      + destruct (Self c Hd) as [c' [Hc' [_ [[Eb [_ Ea]]|[j [b [ats [p [a [_ [_ [_ [_ [X _]]]]]]]]]]]]]]; [|lia]. exists (DC c'). split; [congruence|]. destruct Db as [Db|[c1 [j [k [p [B1 [B2 [B3 [B4 B5]]]]]]]]].
        * left. cbn [def_base] in *. congruence.
        * right. injection B1 as <-. exists c', j, k, p. cbn [def_base] in *. rewrite Ea, Eb, Es. split; [reflexivity|split; [exact B2|split; [exact B3|split; [exact B4|exact B5]]]].
      + exists (DS sd). split; [|destruct Db as [Db|[c1 [j [k [p [B1 _]]]]]]; [left; exact Db|discriminate]]. rewrite Si. apply array_shape in E as [->|[c0 [els [E0 _]]]]; [exact Hd|congruence].
    - assert (exists c, d = DC c) as [c ->].
      { apply array_shape in E as [->|[c0 [els [E0 _]]]]; [lia|exists c0; congruence]. }
      destruct (Self c Hd) as [c' [Hc' [Hn [[_ [X _]]|[j' [b [ats [p [a [Ej' [U [Eb' [Ea' [_ [Hnew [W [Bo Bs]]]]]]]]]]]]]]]]]; [lia|].
      assert (j' = j) as -> by (cbn [base_of] in Ej; rewrite Hd in Ej; cbn [def_base] in Ej; congruence).
      assert (def_base d0 = TPtr j) as Db0.
      { destruct Db as [Db|[c1 [j1 [k1 [p1 [B1 [B2 _]]]]]]]; [cbn [def_base] in Db; congruence|]. injection B1 as <-. congruence. }
      assert (j < n0) as Lj by exact (rooted_base st0 i d0 j R H0 Db0).
      assert (nth_error (fst s') (List.length (fst s)) = Some (DC (set_fields b (ct_elems b) ats))) as Hnew'.
      { destruct Sy as [_ S]. destruct (S (List.length (fst s))) as [X|[I _]]; [congruence|]. apply Pc in I as [[_ X] _]. lia. }
      assert (exists p', upto_array p = (p', None)) as [p' Up].
      { destruct (upto_array p) as [q [v|]] eqn:Up; [|exists q; reflexivity]. exfalso. apply upto_some in Up as [post [-> [_ N]]]. apply upto_some in U as [post' [_ [Fp _]]]. exact (Fp v (in_elt v q post) N). }
      split; [lia|]. rewrite Es. split; [|split].
      + intros k j1 [[= <- <-]|I]; [|exact (Old k j1 I)]. split; [lia|]. split; [exact Lj|]. destruct (Nat.eq_dec j i) as [->|Nj].
        * destruct (Bs eq_refl) as [B1 B2]. exists c', (set_fields b (ct_elems b) ats). split; [congruence|]. split; [exact Hnew'|]. cbn [set_fields ct_elems ct_name ct_attrs]. rewrite B1, firstn_all. split; [reflexivity|]. split; [congruence|]. exact (without_none _ _ W).
        * exists b, (set_fields b (ct_elems b) ats). split; [apply Keep; [exact Lj|exact Nj|exact (Bo Nj)]|]. split; [exact Hnew'|]. cbn [set_fields ct_elems ct_name ct_attrs]. rewrite firstn_all. split; [reflexivity|]. split; [reflexivity|]. exact (without_none _ _ W).
      + intros i'. destruct (Nat.eq_dec i' i) as [->|Ni']; [|apply KeepB; [apply Pb|exact Ni'|rewrite Es; right; assumption]].
        intros e0 He0. assert (e0 = d0) as -> by congruence. exists (DC c'). split; [congruence|]. right. exists c', j, (List.length (fst s)), p'. rewrite Ea', Es. split; [reflexivity|]. split; [exact Up|]. split; [exact Db0|]. split; [exact Eb'|left; reflexivity].
      + intros k j1 j2 [[= <- <-]|I1] [[= <-]|I2]; try reflexivity.
        * apply Pc in I2 as [[_ X] _]. lia.
        * apply Pc in I1 as [[_ X] _]. lia.
        * exact (Uniq k j1 j2 I1 I2).
  Qed.
  (* the base of an array type, after the types l of all schemas *)
  Theorem copies l st : (forall es t, In (es, t) l -> known st0 t) -> soap_arrays st0 l = Ret st ->
    forall i c0 c j, nth_error st0 i = Some (DC c0) -> nth_error st i = Some (DC c) -> ct_base c0 = TPtr j -> ct_base c <> TPtr j ->
    exists k b cj more, ct_base c = TPtr k /\ List.length st0 <= k /\ nth_error st k = Some (DC b) /\ nth_error st j = Some (DC cj) /\
      ct_name b = ct_name cj /\ ct_elems cj = (ct_elems b ++ more)%list /\ forall a, In a (ct_attrs b) -> ~ named a "arrayType".
  Proof using R.
    intros Hl H i c0 c j H0 Hc Ej Nj. apply arrays_run in H as [sh H].
    assert (copies_inv (st, sh)) as [_ [Pc [Pb _]]].
    { refine (run_ind copies_inv (known st0) copies_step l (st0, []) (st, sh) Hl _ H). split; [cbn; lia|]. split; [intros k j' []|]. split; [|intros k j1 j2 []]. intros i' d0 Hd0. exists d0. split; [exact Hd0|left; reflexivity]. }
    destruct (Pb i _ H0) as [d [Hd Bd]]. cbn [fst snd] in *. assert (d = DC c) as -> by congruence. destruct Bd as [Bd|[c1 [j1 [k [p [B1 [B2 [B3 [B4 B5]]]]]]]]]; cbn [def_base] in *; [congruence|].
    assert (j1 = j) as -> by congruence. destruct (Pc k j B5) as [[Lk _] [_ [cj [b [A1 [A2 [A3 [A4 A5]]]]]]]]. exists k, b, cj, (skipn (List.length (ct_elems b)) (ct_elems cj)).
    split; [exact B4|]. split; [exact Lk|]. split; [exact A2|]. split; [exact A1|]. split; [exact A4|]. split; [|exact A5]. rewrite A3 at 1. symmetry. apply firstn_skipn.
  Qed.
End Copies.
