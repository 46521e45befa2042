(* The model of HandleSOAPArrayType meets SoapSpec. *)
From Verif Require Import Base ScopeModel TreeModel EqualModel EqualSpec EqualProofs BuiltinModel XsdModel XsdProofs TypesModel TypesSpec TypesProofs TypesOrder NormAttr GenModel SgModel SgFlat SgFlatSpec SgFlatten SgExpandSpec SoapModel SoapSpec.
Local Open Scope string_scope.
Set Default Proof Using "Type".

Lemma prefix_split : forall p s, String.prefix p s = true -> s = p ++ s_drop (String.length p) s.
Proof.
  induction p as [|c p IH]; intros s H; [destruct s; reflexivity|]. destruct s as [|d s]; [discriminate|]. cbn in H. destruct (ascii_dec c d) as [->|]; [|discriminate].
  cbn [append String.length s_drop]. f_equal. exact (IH s H).
Qed.
Lemma prefix_app p : forall s, String.prefix p (p ++ s) = true.
Proof. induction p as [|c p IH]; intros s; [destruct s; reflexivity|]. cbn. destruct (ascii_dec c c); [apply IH|congruence]. Qed.
Lemma trim_suffix_spec suf s : s = trim_suffix suf s ++ suf \/ (trim_suffix suf s = s /\ forall x, s <> x ++ suf).
Proof.
  unfold trim_suffix. destruct (String.prefix (s_rev suf) (s_rev s)) eqn:E.
  - left. apply prefix_split in E. transitivity (s_rev (s_rev s)); [symmetry; apply s_rev_rev|]. etransitivity; [exact (f_equal s_rev E)|]. rewrite s_rev_app, s_rev_rev, s_rev_length. reflexivity.
  - right. split; [reflexivity|]. intros x ->. rewrite s_rev_app, prefix_app in E. discriminate.
Qed.
Lemma item_name_spec n : nspace (item_name n) = nspace n /\ item_local (nlocal n) (nlocal (item_name n)).
Proof.
  split; [reflexivity|]. cbn [item_name nlocal]. destruct (trim_space_split (nlocal n)) as (u & v & Hu & Hv & E & H1 & H2).
  exists u, (trim_space (nlocal n)), v. split; [exact Hu|]. split; [exact Hv|]. split; [exact E|]. split; [exact H1|]. split; [exact H2|].
  destruct (trim_suffix_spec "[]" (trim_space (nlocal n))) as [X|[X Y]]; [left; exact X|right; split; [symmetry; exact X|exact Y]].
Qed.
Lemma item_local_det s l l' : item_local s l -> item_local s l' -> l = l'.
Proof.
  intros (u & m & v & Hu & Hv & E & H1 & H2 & D) (u' & m' & v' & Hu' & Hv' & E' & H1' & H2' & D').
  assert (m = m') as <- by (rewrite <- (trim_unique u m v), <- (trim_unique u' m' v') by assumption; congruence).
  destruct D as [D|[D N]], D' as [D'|[D' N']]; try congruence; try (exfalso; eapply N || eapply N'; eassumption).
  clear - D D'. subst m. assert (s_rev (l ++ "[]") = s_rev (l' ++ "[]")) as E by congruence. rewrite !s_rev_app in E. cbn in E. injection E as E. apply (f_equal s_rev) in E. rewrite !s_rev_rev in E. exact E.
Qed.
Lemma is_array_spec a : is_array_attr a = true <-> named a "arrayType".
Proof. apply String.eqb_eq. Qed.
Lemma upto_some l : forall pre a, upto_array l = (pre, Some a) <->
  exists post, l = (pre ++ a :: post)%list /\ (forall x, In x pre -> ~ named x "arrayType") /\ named a "arrayType".
Proof.
  induction l as [|v l IH]; intros pre a; cbn [upto_array].
  - split; [discriminate|]. intros [post [E _]]. destruct pre; discriminate.
  - destruct (is_array_attr v) eqn:Ev.
    + split.
      * intros [= <- <-]. exists l. split; [reflexivity|]. split; [intros x []|]. apply is_array_spec, Ev.
      * intros [post [E [F N]]]. destruct pre as [|y pre]; cbn in E; injection E as -> ->; [reflexivity|]. exfalso. apply (F y); [left; reflexivity|]. apply is_array_spec, Ev.
    + destruct (upto_array l) as [p o]. split.
      * intros [= <- ->]. destruct (proj1 (IH p a) eq_refl) as [post [-> [F N]]]. exists post. split; [reflexivity|]. split; [|exact N].
        intros x [<-|Hx]; [|exact (F x Hx)]. intros X. apply is_array_spec in X. congruence.
      * intros [post [E [F N]]]. destruct pre as [|y pre]; cbn in E; injection E as -> ->.
        { apply is_array_spec in N. congruence. }
        assert ((p, o) = (pre, Some a)) as [= -> ->]; [|reflexivity]. apply IH. exists post. split; [reflexivity|]. split; [|exact N]. intros x Hx. apply F. right. exact Hx.
Qed.
Lemma upto_none l : forall pre, upto_array l = (pre, None) -> forall x, In x l -> ~ named x "arrayType".
Proof.
  induction l as [|v l IH]; intros pre H x Hx; [destruct Hx|]. cbn [upto_array] in H. destruct (is_array_attr v) eqn:E; [discriminate|].
  destruct (upto_array l) as [p o]. injection H as <- ->. destruct Hx as [<-|Hx]; [|exact (IH p eq_refl x Hx)]. intros X. apply is_array_spec in X. congruence.
Qed.
Lemma find_split {A} (f : A -> bool) l x : find f l = Some x <-> exists p q, l = (p ++ x :: q)%list /\ f x = true /\ forall y, In y p -> f y = false.
Proof.
  induction l as [|y l IH]; cbn [find].
  - split; [discriminate|]. intros [p [q [E _]]]. destruct p; discriminate.
  - destruct (f y) eqn:E.
    + split; [intros [= <-]; exists [], l; split; [reflexivity|]; split; [exact E|intros z []]|].
      intros [p [q [Ep [F N]]]]. destruct p as [|z p]; cbn in Ep; injection Ep as -> ->; [reflexivity|]. rewrite N in E by (left; reflexivity). discriminate.
    + rewrite IH. split; intros [p [q [Ep [F N]]]].
      * exists (y :: p), q. split; [rewrite Ep; reflexivity|]. split; [exact F|]. intros z [<-|Hz]; [exact E|exact (N z Hz)].
      * destruct p as [|z p]; cbn in Ep; injection Ep as -> ->; [congruence|]. exists p, q. split; [reflexivity|]. split; [exact F|]. intros z' Hz. apply N. right. exact Hz.
Qed.
Lemma find_none {A} (f : A -> bool) l : find f l = None <-> forall x, In x l -> f x = false.
Proof. split; [apply find_none|]. induction l as [|y l IH]; intros H; [reflexivity|]. cbn [find]. rewrite H by (left; reflexivity). apply IH. intros x Hx. apply H. right. exact Hx. Qed.

(* the array types are those with an item type *)
Lemma soap_arr_model c pre a : upto_array (ct_attrs c) = (pre, Some a) -> nlocal (item_type a) <> "" ->
  exists post, soap_arr c pre a post (item_name (item_type a)).
Proof.
  intros U N. apply upto_some in U as [post [E [F A]]]. exists post. constructor; [exact E|exact F|exact A|]. unfold item_type in *.
  destruct (find _ (at_attr a)) as [x|] eqn:Ex; [|cbn in N; congruence]. apply find_split in Ex as [p [q [Ea [Hx Hp]]]]. apply xname_eqb_eq in Hx.
  exists p, (avalue x), q. split; [rewrite Ea; destruct x; cbn in *; subst; reflexivity|].
  split. { intros y Hy X. specialize (Hp y Hy). rewrite X in Hp. assert (xname_eqb (mkName soap_wsdlNS "arrayType") (mkName soap_wsdlNS "arrayType") = true) by (apply xname_eqb_eq; reflexivity). unfold soap_wsdlNS in *. congruence. }
  split; [exact N|]. apply item_name_spec.
Qed.
Lemma soap_arr_upto c pre a post n : soap_arr c pre a post n -> upto_array (ct_attrs c) = (pre, Some a) /\ nlocal (item_type a) <> "" /\ item_name (item_type a) = n.
Proof.
  intros [E F A (p & v & q & Ea & Hp & N & Sp & L)]. split; [apply upto_some; exists post; auto|].
  assert (item_type a = resolve (at_scope a) v) as Ei.
  { unfold item_type. erewrite (proj2 (find_split _ (at_attr a) (mkAttr (mkName "http://schemas.xmlsoap.org/wsdl/" "arrayType") v))); [reflexivity|].
    exists p, q. split; [exact Ea|]. split; [apply xname_eqb_eq; reflexivity|]. intros y Hy. apply not_true_is_false. intros X. apply xname_eqb_eq in X. exact (Hp y Hy X). }
  rewrite Ei. split; [exact N|]. destruct (item_name_spec (resolve (at_scope a) v)) as [S1 S2]. pose proof (item_local_det _ _ _ S2 L) as X.
  destruct n as [ns nl]. cbn [nspace nlocal] in *. destruct (item_name (resolve (at_scope a) v)) as [ns' nl']. cbn in *. congruence.
Qed.

Section Store.
  Variable st : store.
  Hypothesis R : rooted st.
  Lemma known_path t : known st t -> exists p b, path st t p b /\ List.length p <= List.length st.
  Proof using R.
    destruct t as [|b|n|i]; cbn [known]; intros H; try contradiction; [exists [], b; split; [constructor|cbn; lia]|].
    destruct (nth_error st i) as [d|] eqn:E; [|apply nth_error_None in E; lia]. destruct (R i d E) as [b A]. destruct (path_of _ _ _ A) as [p P]. exists p, b. split; [exact P|exact (path_short _ _ _ _ P)].
  Qed.
  Lemma path_chain t p b : path st t p b -> chain st t (List.length p).
  Proof.
    induction 1 as [b|i d l b E P IH]; [constructor; reflexivity|]. cbn [List.length]. assert (base_of st (TPtr i) = def_base d) as Eb by (cbn [base_of]; rewrite E; reflexivity).
    apply ch_step; rewrite Eb; [|exact IH]. inversion P; subst; discriminate.
  Qed.
  Lemma path_named t p b u : path st t p b -> ancestor st t u -> type_name st u <> None.
  Proof.
    intros P A. revert p P. induction A as [t|t u Hn A IH]; intros p P.
    - inversion P as [|? ? ? ? E ?]; subst; cbn [type_name]; [discriminate|]. rewrite E. discriminate.
    - inversion P as [|i d l ? E P']; subst; [cbn in Hn; congruence|]. apply (IH l). cbn [base_of]. rewrite E. exact P'.
  Qed.
  Variable es : list (xname * ty).
  Hypothesis K : forall k t, In (k, t) es -> known st t.
  Lemma find_found n : match find_type (List.length st) st es n with
    | Some (Some b) => found st es n b
    | Some None => ~ exists b, found st es n b
    | None => False end.
  Proof using R K.
    pose proof (find_type_spec st n (List.length st) es) as F. destruct (find_type (List.length st) st es n) as [[b|]|].
    1,2: specialize (F ltac:(intros k t H; destruct (known_path t (K k t H)) as [p [b' [P L]]]; exists (List.length p); split; [exact (path_chain _ _ _ P)|exact L])
      ltac:(intros k t u H A; destruct (known_path t (K k t H)) as [p [b' [P L]]]; exact (path_named _ _ _ _ P A))).
    - destruct F as [H1 H2]. split; [exact H2|exact H1].
    - intros [b [H1 (k & t & H2 & H3)]]. exact (F k t b H2 H3 H1).
    - apply F; intros k t; [intros H; destruct (known_path t (K k t H)) as [p [b' [P L]]]; exists (List.length p); split; [exact (path_chain _ _ _ P)|exact L]|].
      intros u H A; destruct (known_path t (K k t H)) as [p [b' [P L]]]; exact (path_named _ _ _ _ P A).
  Qed.
  Lemma wild_spec t p b : path st t p b -> forall fuel, List.length p <= fuel ->
    exists o, find_wild fuel st t = Ret o /\ (forall w, o = Some w -> wildcard st t w) /\ (o = None -> ~ exists w, wildcard st t w).
  Proof.
    induction 1 as [b|i d l b E P IH]; intros fuel L.
    - exists None. split; [destruct fuel; reflexivity|]. split; [discriminate|]. intros _ [w H]. inversion H.
    - assert (base_of st (TPtr i) = def_base d) as Eb by (cbn [base_of]; rewrite E; reflexivity).
      assert (def_base d <> TNil) as Nn by (inversion P; subst; discriminate).
      destruct d as [c|s]; cbn [def_base] in *.
      + destruct (find el_wild (ct_elems c)) as [w|] eqn:Ew.
        * exists (Some w). split. { destruct fuel; cbn [find_wild]; rewrite Eb; unfold get_c; rewrite E, Ew; destruct (ct_base c); congruence. }
          split; [|discriminate]. intros w' [= <-]. apply find_split in Ew as [p [q [E1 [E2 E3]]]]. eapply wc_own; eassumption.
        * destruct fuel as [|f]; [cbn in L; lia|]. cbn [List.length] in L. destruct (IH f ltac:(lia)) as [o [Eo [H1 H2]]]. exists o.
          split. { cbn [find_wild]. rewrite Eb. unfold get_c. rewrite E, Ew. destruct (ct_base c); congruence. }
          pose proof (proj1 (find_none _ _) Ew) as Nw.
          split; [intros w Hw; eapply wc_base; [exact E|exact Nw|exact (H1 w Hw)]|]. intros Ho [w Hw]. apply (H2 Ho). exists w.
          inversion Hw as [i' c' p w' q A1 A2 A3 A4 A5|i' c' w' A1 A2 A3]; subst; assert (c' = c) as -> by congruence; [|exact A3].
          specialize (Nw w). rewrite A3 in Nw. specialize (Nw (in_elt w p q)). congruence.
      + exists None. split. { destruct fuel; cbn [find_wild]; rewrite Eb; unfold get_c; rewrite E; destruct (sd_base s); congruence. }
        split; [discriminate|]. intros _ [w H]. inversion H; congruence.
  Qed.
End Store.

Lemma replace_spec e l : takes_place e l (replace_wild e l).
Proof.
  unfold replace_wild. destruct (existsb el_wild l) eqn:E.
  - left. split; [apply existsb_exists in E as [x [Hx Hw]]; eauto|]. clear E. induction l as [|x l IH]; [constructor|]. cbn [map]. constructor; [|exact IH].
    destruct (el_wild x); split; congruence.
  - right. split; [|reflexivity]. intros x Hx. apply not_true_is_false. intros X. assert (existsb el_wild l = true) by (apply existsb_exists; eauto). congruence.
Qed.
Lemma without_spec l : without_array l (filter (fun v => negb (is_array_attr v)) l).
Proof.
  induction l as [|a l IH]; [constructor|]. cbn [filter]. destruct (is_array_attr a) eqn:E; cbn [negb]; [apply wa_skip|apply wa_keep]; try exact IH.
  - apply is_array_spec, E.
  - intros X. apply is_array_spec in X. congruence.
Qed.

Section Array.
  Variable st : store.
  Hypothesis R : rooted st.
  Variable es : list (xname * ty).
  Hypothesis K : forall k t, In (k, t) es -> known st t.
  Variables (i : nat) (c : complexT).
  Hypothesis Hc : nth_error st i = Some (DC c).

  Lemma get_c_spec (s : store) k : get_c s k = match nth_error s k with Some (DC c) => Some c | _ => None end.
  Proof. reflexivity. Qed.
  (* types without an item type stay *)
  Lemma plain_array : (forall pre a post n, ~ soap_arr c pre a post n) -> soap_array st es (TPtr i) = Ret st.
  Proof using Hc.
    intros N. cbn [soap_array]. rewrite get_c_spec, Hc. destruct (upto_array (ct_attrs c)) as [pre [a|]] eqn:U; [|reflexivity].
    destruct (String.eqb (nlocal (item_type a)) "") eqn:E; [reflexivity|]. apply String.eqb_neq in E. destruct (soap_arr_model c pre a U E) as [post S]. exfalso. exact (N _ _ _ _ S).
  Qed.
  Variables (pre : list attribute) (a : attribute) (post : list attribute) (n : xname).
  Hypothesis Ha : soap_arr c pre a post n.
  (* the first half: the elements *)
  Lemma item_step : exists els, items st es i n (ct_elems c) els /\
    andthen (match find_type (List.length st) st es n with Some (Some b) => override_wildcard st i b | Some None => Ret st | None => Loops end)
      (fun s => Ret s) = Ret (put_c st i (array_type c els (ct_attrs c) (ct_base c))).
  Proof using R K Hc Ha.
    assert (put_c st i (array_type c (ct_elems c) (ct_attrs c) (ct_base c)) = st) as Same.
    { unfold put_c, array_type. destruct c. cbn. clear - Hc. revert i Hc. induction st as [|d l IH]; intros [|k] Hc; cbn in *; try discriminate; [congruence|]. f_equal. apply IH, Hc. }
    pose proof (find_found st R es K n) as F. destruct (find_type (List.length st) st es n) as [[b|]|]; [| |contradiction].
    - destruct (known_path st R (TPtr i)) as [p [b0 [P L]]]; [cbn; apply nth_error_Some; congruence|].
      destruct (wild_spec st _ _ _ P (List.length st) L) as [o [E [H1 H2]]]. unfold override_wildcard. rewrite E. cbn [andthen]. destruct o as [w|].
      + exists (replace_wild (with_ty_e w b) (ct_elems c)). split; [|rewrite get_c_spec, Hc; reflexivity]. left. exists b, w. split; [exact F|]. split; [exact (H1 w eq_refl)|]. apply replace_spec.
      + exists (ct_elems c). split; [|rewrite Same; reflexivity]. right. split; [right; exact (H2 eq_refl)|reflexivity].
    - exists (ct_elems c). split; [|rewrite Same; reflexivity]. right. split; [left; exact F|reflexivity].
  Qed.
  Theorem array_spec : exists els, items st es i n (ct_elems c) els /\
    (forall j b, ct_base c = TPtr j -> nth_error st j = Some (DC b) -> ct_attrs b <> [] ->
       exists ats, without_array (ct_attrs b) ats /\
         soap_array st es (TPtr i) = Ret (set_nth i (DC (array_type c els pre (TPtr (List.length st)))) st ++ [DC (array_type b (ct_elems b) ats (ct_base b))])%list) /\
    (forall j b, ct_base c = TPtr j -> nth_error st j = Some (DC b) -> ct_attrs b = [] -> soap_array st es (TPtr i) = Panic) /\
    ((forall j b, ct_base c = TPtr j -> nth_error st j <> Some (DC b)) ->
       soap_array st es (TPtr i) = Ret (set_nth i (DC (array_type c els (ct_attrs c) (ct_base c))) st)).
  Proof using R K Hc Ha.
    destruct item_step as [els [He E]]. exists els. split; [exact He|]. destruct (soap_arr_upto _ _ _ _ _ Ha) as [U [N Hin]].
    assert (i < List.length st) as Li by (apply nth_error_Some; congruence).
    assert (forall j (b : complexT), ct_base c = TPtr j -> j <> i) as Ne.
    { intros j b Ej ->. destruct (known_path st R (TPtr i)) as [p [b0 [P _]]]; [exact Li|]. destruct (path_ptr _ _ _ _ P) as [d [m [E1 [E2 Q]]]]. assert (d = DC c) as -> by congruence. cbn [def_base] in Q. rewrite Ej in Q.
      destruct (path_det _ _ _ _ P _ _ Q) as [X _]. rewrite E2 in X. apply (f_equal (@List.length nat)) in X. cbn in X. lia. }
    assert (soap_array st es (TPtr i) = andthen (Ret (put_c st i (array_type c els (ct_attrs c) (ct_base c)))) (fun st =>
                  match get_c st i with
                  | None => Panic
                  | Some c =>
                      match ct_base c with
                      | TPtr j =>
                          match get_c st j with
                          | Some b =>
                              match ct_attrs b with
                              | [] => Panic
                              | _ => let base := set_fields b (ct_elems b) (filter (fun v => negb (is_array_attr v)) (ct_attrs b)) in
                                     Ret (put_c st i (set_base (set_fields c (ct_elems c) pre) (TPtr (List.length st))) ++ [DC base])%list
                              end
                          | None => Ret st
                          end
                      | _ => Ret st
                      end
                  end)) as ->.
    { cbn [soap_array]. rewrite get_c_spec, Hc, U. rewrite (proj2 (String.eqb_neq _ _) N), Hin. destruct (find_type (List.length st) st es n) as [[b|]|].
      - destruct (override_wildcard st i b); cbn [andthen] in E; try discriminate. rewrite E. reflexivity.
      - cbn [andthen] in E. rewrite E. reflexivity.
      - discriminate. }
    cbn [andthen]. assert (forall X, get_c (put_c st i X) i = Some X) as Gi by (intros X; rewrite get_c_spec; unfold put_c; rewrite set_nth_same by exact Li; reflexivity). rewrite Gi. cbn [ct_base array_type].
    assert (forall X j, j <> i -> get_c (put_c st i X) j = match nth_error st j with Some (DC c) => Some c | _ => None end) as Gj by (intros X j Nj; rewrite get_c_spec; unfold put_c; rewrite set_nth_other by exact Nj; reflexivity).
    split; [|split].
    - intros j b Ej Hj Nb. rewrite Ej. rewrite Gj by exact (Ne j b Ej). rewrite Hj. exists (filter (fun v => negb (is_array_attr v)) (ct_attrs b)).
      split; [apply without_spec|]. destruct (ct_attrs b) as [|x l] eqn:Eb; [congruence|]. cbv zeta. unfold put_c. rewrite set_nth_length. f_equal. f_equal.
      clear. generalize (List.length st) as z. intros z. revert i. induction st as [|d l IH]; intros [|k]; cbn [set_nth]; try reflexivity. f_equal. apply IH.
    - intros j b Ej Hj Nb. rewrite Ej. rewrite Gj by exact (Ne j b Ej). rewrite Hj, Nb. reflexivity.
    - intros Nj. destruct (ct_base c) as [| | |j] eqn:Ej; try reflexivity. rewrite Gj by exact (Ne j c eq_refl). destruct (nth_error st j) as [[b|s]|] eqn:Hj; try reflexivity.
      exfalso. exact (Nj j b eq_refl Hj).
  Qed.
End Array.

(* ---------- what else changes ---------- *)
Lemma override_shape st i b st' : override_wildcard st i b = Ret st' -> st' = st \/ exists c w, nth_error st i = Some (DC c) /\
  find_wild (List.length st) st (TPtr i) = Ret (Some w) /\ st' = set_nth i (DC (set_fields c (replace_wild (with_ty_e w b) (ct_elems c)) (ct_attrs c))) st.
Proof.
  unfold override_wildcard. destruct (find_wild (List.length st) st (TPtr i)) as [[w|]| | |] eqn:E; cbn [andthen]; try discriminate; try (intros [= <-]; left; reflexivity).
  unfold get_c. destruct (nth_error st i) as [[c|s]|] eqn:Ei; intros [= <-]; try (left; reflexivity). right. exists c, w. auto.
Qed.
(* every other type stays, and at most one is added *)
Theorem array_frame st es t st' : soap_array st es t = Ret st' ->
  (forall k, t <> TPtr k -> k < List.length st -> nth_error st' k = nth_error st k) /\ List.length st <= List.length st' <= S (List.length st).
Proof.
  destruct t as [| | |i]; cbn [soap_array]; try (intros [= <-]; split; [reflexivity|lia]).
  unfold get_c at 1. destruct (nth_error st i) as [[c|s]|] eqn:Ei; try (intros [= <-]; split; [reflexivity|lia]).
  destruct (upto_array (ct_attrs c)) as [pre [a|]]; [|intros [= <-]; split; [reflexivity|lia]].
  destruct (String.eqb _ _); [intros [= <-]; split; [reflexivity|lia]|]. destruct (find_type _ _ _ _) as [f|]; [|discriminate].
  assert (forall s, match f with Some b => override_wildcard st i b | None => Ret st end = Ret s ->
    (forall k, TPtr i <> TPtr k -> k < List.length st -> nth_error s k = nth_error st k) /\ List.length s = List.length st) as F.
  { intros s. destruct f as [b|]; [|intros [= <-]; split; reflexivity]. intros H. apply override_shape in H as [->|[c' [w [_ [_ ->]]]]]; [split; reflexivity|]. split; [|apply set_nth_length].
    intros k Nk _. apply set_nth_other. congruence. }
  destruct (match f with Some b => override_wildcard st i b | None => Ret st end) as [s| | |]; cbn [andthen]; try discriminate. destruct (F s eq_refl) as [F1 F2].
  unfold get_c. destruct (nth_error s i) as [[c'|s']|]; try discriminate. destruct (ct_base c') as [| | |j]; try (intros [= <-]; split; [exact F1|lia]).
  destruct (nth_error s j) as [[b|s']|]; try (intros [= <-]; split; [exact F1|lia]). destruct (ct_attrs b) as [|x l]; [discriminate|]. intros [= <-]. unfold put_c. split.
  - intros k Nk Lk. rewrite nth_error_app1 by (rewrite set_nth_length; lia). rewrite set_nth_other by congruence. exact (F1 k Nk Lk).
  - rewrite app_length, set_nth_length. cbn [List.length]. lia.
Qed.
Lemma find_type1_ext st st' n : (forall t, type_name st' t = type_name st t) -> (forall t, base_of st' t = base_of st t) ->
  forall fuel t, find_type1 fuel st' t n = find_type1 fuel st t n.
Proof. intros H1 H2. induction fuel as [|f IH]; intros t; cbn [find_type1]; rewrite H1, H2; [reflexivity|]. destruct (type_name st t); [|reflexivity]. destruct (xname_eqb _ _); [reflexivity|]. destruct (base_of st t); auto. Qed.
Lemma find_type_ext st st' n fuel es : (forall t, type_name st' t = type_name st t) -> (forall t, base_of st' t = base_of st t) -> find_type fuel st' es n = find_type fuel st es n.
Proof. intros H1 H2. induction es as [|e es IH]; cbn [find_type]; [reflexivity|]. rewrite (find_type1_ext st st' n H1 H2), IH. reflexivity. Qed.
Lemma find_replaced w b l : el_wild w = true -> find el_wild (replace_wild (with_ty_e w b) l) = Some (with_ty_e w b).
Proof.
  intros Hw. unfold replace_wild. destruct (existsb el_wild l) eqn:E.
  - induction l as [|x l IH]; cbn [existsb] in E; [discriminate|]. cbn [map find]. destruct (el_wild x) eqn:Ex; [cbn [with_ty_e el_wild]; rewrite Hw; reflexivity|]. rewrite Ex. apply IH. exact E.
  - induction l as [|x l IH]; [cbn [app find with_ty_e el_wild]; rewrite Hw; reflexivity|]. cbn [existsb] in E. apply orb_false_iff in E as [Ex E]. cbn [app find]. rewrite Ex. apply IH, E.
Qed.
Lemma replace_again e l : el_wild e = true -> replace_wild e (replace_wild e l) = replace_wild e l.
Proof.
  intros Hw. unfold replace_wild at 1. replace (existsb el_wild (replace_wild e l)) with true.
  - unfold replace_wild. destruct (existsb el_wild l) eqn:E.
    + rewrite map_map. apply map_ext. intros x. destruct (el_wild x) eqn:Ex; [rewrite Hw; reflexivity|rewrite Ex; reflexivity].
    + rewrite map_app. cbn [map]. rewrite Hw. f_equal. clear - E. induction l as [|x l IH]; [reflexivity|]. cbn [existsb] in E. apply orb_false_iff in E as [Ex E]. cbn [map]. rewrite Ex, (IH E). reflexivity.
  - symmetry. unfold replace_wild. destruct (existsb el_wild l) eqn:E.
    + apply existsb_exists in E as [x [Hx Ex]]. apply existsb_exists. exists e. split; [|exact Hw]. apply in_map_iff. exists x. rewrite Ex. auto.
    + apply existsb_exists. exists e. split; [apply in_elt|exact Hw].
Qed.
Lemma find_wild_wild fuel : forall st t w, find_wild fuel st t = Ret (Some w) -> el_wild w = true /\ base_of st t <> TNil.
Proof.
  induction fuel as [|f IH]; intros st t w; cbn [find_wild]; destruct (base_of st t) eqn:Eb; try discriminate;
    (destruct t as [| | |k]; try discriminate; unfold get_c; destruct (nth_error st k) as [[c|s]|]; try discriminate;
     destruct (find el_wild (ct_elems c)) as [v|] eqn:Ev; [intros [= <-]; apply find_some in Ev as [_ Ev]; split; [exact Ev|congruence]|]; first [discriminate|intros H; apply IH in H as [H _]; split; [exact H|congruence]]).
Qed.
Lemma set_nth_twice {A} (l : list A) : forall i x y, set_nth i x (set_nth i y l) = set_nth i x l.
Proof. induction l as [|d l IH]; intros [|k] x y; cbn [set_nth]; try reflexivity. f_equal. apply IH. Qed.
(* a second run changes nothing *)
Theorem array_again st es t st' : soap_array st es t = Ret st' -> soap_array st' es t = Ret st'.
Proof.
  destruct t as [| | |i]; cbn [soap_array]; try reflexivity. intros H. pose proof H as H0. revert H.
  unfold get_c at 1. destruct (nth_error st i) as [[c|s]|] eqn:Ei; try (intros [= <-]; unfold get_c at 1; rewrite Ei; reflexivity).
  assert (i < List.length st) as Li by (apply nth_error_Some; congruence).
  destruct (upto_array (ct_attrs c)) as [pre [a|]] eqn:U; [|intros [= <-]; unfold get_c at 1; rewrite Ei, U; reflexivity].
  destruct (String.eqb _ _) eqn:Es; [intros [= <-]; unfold get_c at 1; rewrite Ei, U, Es; reflexivity|].
  destruct (find_type _ _ _ _) as [f|] eqn:Ef; [|discriminate].
  destruct (match f with Some b => override_wildcard st i b | None => Ret st end) as [s| | |] eqn:Eo; cbn [andthen]; try discriminate.
  assert (exists c', nth_error s i = Some (DC c') /\ ct_attrs c' = ct_attrs c /\ ct_base c' = ct_base c /\ ct_name c' = ct_name c /\ List.length s = List.length st /\
    (forall k, k <> i -> nth_error s k = nth_error st k) /\ match f with Some b => override_wildcard s i b | None => Ret s end = Ret s) as [c' [E1 [E2 [E3 [E4 [E5 [E6 E7]]]]]]].
  { destruct f as [b|]; [|injection Eo as <-; exists c; repeat split; auto]. pose proof Eo as Eo'. apply override_shape in Eo as [->|[c1 [w [A1 [A2 ->]]]]]; [exists c; repeat split; auto|].
    assert (c1 = c) as -> by congruence. eexists. split; [apply set_nth_same, Li|]. split; [reflexivity|]. split; [reflexivity|]. split; [reflexivity|]. split; [apply set_nth_length|].
    split; [intros k Nk; apply set_nth_other, Nk|]. destruct (find_wild_wild _ _ _ _ A2) as [Hw Hb]. unfold override_wildcard. rewrite set_nth_length.
    assert (forall X, base_of (set_nth i (DC (set_fields c X (ct_attrs c))) st) (TPtr i) = base_of st (TPtr i)) as Eb by (intros X; cbn [base_of]; rewrite set_nth_same, Ei by exact Li; reflexivity).
    assert (find_wild (List.length st) (set_nth i (DC (set_fields c (replace_wild (with_ty_e w b) (ct_elems c)) (ct_attrs c))) st) (TPtr i) = Ret (Some (with_ty_e w b))) as ->.
    { generalize (List.length st) at 1 as z. intros z. destruct z; cbn [find_wild]; rewrite Eb; destruct (base_of st (TPtr i)) eqn:X; try congruence; unfold get_c; rewrite set_nth_same by exact Li; cbn [set_fields ct_elems]; rewrite (find_replaced w b _ Hw); reflexivity. }
    cbn [andthen]. unfold get_c. rewrite set_nth_same by exact Li. cbn [set_fields ct_elems ct_attrs]. unfold put_c. rewrite set_nth_twice.
    change (with_ty_e (with_ty_e w b) b) with (with_ty_e w b). rewrite replace_again by exact Hw. reflexivity. }
  assert (forall t, type_name s t = type_name st t) as T1.
  { intros [| | |k]; try reflexivity. cbn [type_name]. destruct (Nat.eq_dec k i) as [->|Nk]; [rewrite E1, Ei; cbn; congruence|rewrite (E6 k Nk); reflexivity]. }
  assert (forall t, base_of s t = base_of st t) as T2.
  { intros [| | |k]; try reflexivity. cbn [base_of]. destruct (Nat.eq_dec k i) as [->|Nk]; [rewrite E1, Ei; cbn; congruence|rewrite (E6 k Nk); reflexivity]. }
  unfold get_c at 1. rewrite E1.
  assert (forall st1, s = st1 -> match get_c st1 i with
    | Some c => match upto_array (ct_attrs c) with
          | (_, None) => Ret st1
          | (pre, Some v) =>
              if String.eqb (nlocal (item_type v)) "" then Ret st1 else
              match find_type (List.length st1) st1 es (item_name (item_type v)) with
              | None => Loops
              | Some found =>
                  andthen (match found with Some b => override_wildcard st1 i b | None => Ret st1 end) (fun st =>
                  match get_c st i with
                  | None => Panic
                  | Some c =>
                      match ct_base c with
                      | TPtr j =>
                          match get_c st j with
                          | Some b =>
                              match ct_attrs b with
                              | [] => Panic
                              | _ => let base := set_fields b (ct_elems b) (filter (fun v => negb (is_array_attr v)) (ct_attrs b)) in
                                     Ret (put_c st i (set_base (set_fields c (ct_elems c) pre) (TPtr (List.length st))) ++ [DC base])%list
                              end
                          | None => Ret st
                          end
                      | _ => Ret st
                      end
                  end)
              end
          end
    | None => Ret st1 end = match ct_base c' with TPtr j => match get_c s j with Some b => match ct_attrs b with [] => Panic
        | _ => Ret (put_c s i (set_base (set_fields c' (ct_elems c') pre) (TPtr (List.length s))) ++
                  [DC (set_fields b (ct_elems b) (filter (fun v => negb (is_array_attr v)) (ct_attrs b)))])%list end | None => Ret s end | _ => Ret s end) as Again.
  { intros st1 <-. unfold get_c at 1. rewrite E1, E2, U, Es, E5, (find_type_ext st s _ _ es T1 T2), Ef, E7. cbn [andthen]. unfold get_c at 1. rewrite E1, E5. reflexivity. }
  destruct (ct_base c') as [| | |j] eqn:Ej; try (intros [= <-]; exact (Again s eq_refl)).
  destruct (get_c s j) as [b|] eqn:Gj; [|intros [= <-]; exact (Again s eq_refl)].
  destruct (ct_attrs b) as [|x l] eqn:Eb; [discriminate|]. intros [= <-]. unfold get_c at 1. rewrite nth_error_app1 by (unfold put_c; rewrite set_nth_length; lia).
  unfold put_c at 1. rewrite set_nth_same by lia. cbn [set_base set_fields ct_attrs].
  destruct (upto_array pre) as [p [v|]] eqn:Up; [|reflexivity]. exfalso. apply upto_some in Up as [post [-> [_ N]]]. apply upto_some in U as [post' [_ [F _]]]. exact (F v (in_elt v p post) N).
Qed.

(* ---------- all types of a schema ---------- *)
Definition soap_c (c : complexT) : Prop := exists pre a post n, soap_arr c pre a post n.
Lemma plain_same st es t st' : soap_array st es t = Ret st' -> forall k d, nth_error st k = Some d -> (forall c, d = DC c -> ~ soap_c c) -> nth_error st' k = Some d.
Proof.
  intros H k d Hk N. destruct (array_frame _ _ _ _ H) as [F _].
  assert (t = TPtr k \/ t <> TPtr k) as [->|Nt] by (destruct t as [| | |j]; try (right; discriminate); destruct (Nat.eq_dec j k); [left|right]; congruence).
  2: rewrite F; [exact Hk|exact Nt|apply nth_error_Some; congruence].
  destruct d as [c|s]; [|cbn [soap_array] in H; unfold get_c at 1 in H; rewrite Hk in H; injection H as <-; exact Hk].
  rewrite (plain_array st es k c Hk) in H; [injection H as <-; exact Hk|]. intros pre a post n A. apply (N c eq_refl). exists pre, a, post, n. exact A.
Qed.
