From Verif Require Import Base ScopeModel TreeModel ParseModel ParseSpec.
From Coq Require Import Sorted.

Scheme tree_of_ind2 := Induction for tree_of Sort Prop
with trees_of_ind2 := Induction for trees_of Sort Prop.

Fixpoint doc_ind' (P : doc -> Prop)
  (H : forall n a o items o', (forall d, In (IElem d) items -> P d) -> P (Doc n a o items o'))
  (d : doc) : P d.
Proof.
  destruct d as [n a o items o']. apply H.
  induction items as [|[d'|k] items IH]; intros d Hd.
  - destruct Hd.
  - destruct Hd as [[= <-]|Hd]; [apply doc_ind', H | apply IH, Hd].
  - destruct Hd as [Hd|Hd]; [discriminate | apply IH, Hd].
Qed.

Section P.
  Variable sortns : list xname -> list xname.
  Variable data : string.
  Hypothesis Hsort : sorts sortns.

  Notation body := (body sortns data).
  Notation parse := (parse sortns data).
  Notation tree_of := (tree_of data decls_of attrs_of).
  Notation trees_of := (trees_of data decls_of attrs_of).

  (* fuel monotonicity *)
  Lemma body_fuel : forall fuel fuel' n a sc b e ch dp ts r,
    body fuel n a sc b e ch dp ts = r -> r <> PErr EFuel -> fuel <= fuel' ->
    body fuel' n a sc b e ch dp ts = r.
  Proof.
    induction fuel as [|fuel IH]; intros fuel' n a sc b e ch dp ts r H Hr Hle.
    - cbn in H. congruence.
    - destruct fuel' as [|fuel']; [lia|]. cbn [ParseModel.body] in *.
      destruct ts as [|[[n' a'|n'|] o] ts']; auto.
      + destruct (recursionLimit <? dp + 1)%N; auto.
        destruct (body fuel n' (attrs_of a') (push_ns sortns sc a') o o [] (dp + 1)%N ts') as [c o' ts''|er] eqn:E.
        * rewrite (IH fuel' _ _ _ _ _ _ _ _ _ E) by (discriminate || lia).
          apply IH; auto; lia.
        * assert (er <> EFuel) by congruence.
          rewrite (IH fuel' _ _ _ _ _ _ _ _ _ E) by (congruence || lia). auto.
      + apply IH; auto; lia.
  Qed.

  Lemma body_rest_len : forall fuel n a sc b e ch dp ts el o rest,
    body fuel n a sc b e ch dp ts = POk el o rest -> List.length rest < List.length ts.
  Proof.
    induction fuel as [|fuel IH]; intros n a sc b e ch dp ts el o rest H; [discriminate|].
    cbn [ParseModel.body] in H.
    destruct ts as [|[[n' a'|n'|] o'] ts']; try discriminate.
    - destruct (recursionLimit <? dp + 1)%N; [discriminate|].
      destruct (body fuel n' (attrs_of a') (push_ns sortns sc a') o' o' [] (dp + 1)%N ts') as [c o'' ts''|er] eqn:E; [|discriminate].
      apply IH in E. apply IH in H. cbn. lia.
    - destruct (xname_eqb n' n); [|discriminate]. destruct (slice data b e); [|discriminate].
      injection H as <- <- <-. cbn; lia.
    - apply IH in H. cbn; lia.
  Qed.

  Lemma body_no_fuel_err : forall fuel n a sc b e ch dp ts,
    List.length ts < fuel -> body fuel n a sc b e ch dp ts <> PErr EFuel.
  Proof.
    induction fuel as [|fuel IH]; intros n a sc b e ch dp ts Hl; [lia|].
    cbn [ParseModel.body].
    destruct ts as [|[[n' a'|n'|] o'] ts']; try discriminate; cbn in Hl.
    - destruct (recursionLimit <? dp + 1)%N; [discriminate|].
      destruct (body fuel n' (attrs_of a') (push_ns sortns sc a') o' o' [] (dp + 1)%N ts') as [c o'' ts''|er] eqn:E.
      + apply body_rest_len in E. apply IH; lia.
      + intros [= ->]. eapply IH; [|exact E]. lia.
    - destruct (xname_eqb n' n); [|discriminate]. destruct (slice data b e); discriminate.
    - apply IH; lia.
  Qed.

  Lemma slice_some b e : b <= e -> e <= String.length data -> exists c, slice data b e = Some c.
  Proof.
    intros H1 H2. unfold slice. rewrite (proj2 (Nat.leb_le _ _) H1), (proj2 (Nat.leb_le _ _) H2). cbn. eauto.
  Qed.

  Lemma sorted_decls_sort a : sorted_decls decls_of a (sortns (decls_of a)).
  Proof. destruct (Hsort (decls_of a)). split; auto. Qed.

  Lemma end_pos_cons b i items : end_pos b (i :: items) = end_pos (item_off i) items.
  Proof.
    unfold end_pos. cbn [map]. generalize (item_off i). intros k.
    destruct (map item_off items) as [|x l] eqn:E; auto. cbn.
    clear E. revert x. induction l as [|y l IH]; intros x; auto. cbn in *. destruct l; auto.
  Qed.

  Definition hmax (items : list item) : N :=
    fold_right (fun i h => match i with IElem d' => N.max (1 + height d') h | IOther _ => h end) 0%N items.

  Lemma height_eq n a o items o' : height (Doc n a o items o') = hmax items.
  Proof. reflexivity. Qed.

  (* ---------- completeness ---------- *)
  (* the loop over the items of one element, assuming nested elements parse *)
  Lemma body_items : forall items n a sc b e ch dp rest o',
    (forall d, In (IElem d) items ->
       forall n' a' o'' its oe dp' rest', d = Doc n' a' o'' its oe ->
       (dp' + height d <= recursionLimit)%N -> 
       exists fuel el, body fuel n' (attrs_of a') (push_ns sortns sc a') o'' o'' [] dp'
           (flat_map item_toks its ++ (TEnd n', oe) :: rest') = POk el oe rest' /\ tree_of sc d el) ->
    (dp + hmax items <= recursionLimit)%N ->
    (exists c, slice data b (end_pos e items) = Some c) ->
    exists fuel ch' c, slice data b (end_pos e items) = Some c /\
      body fuel n a sc b e ch dp (flat_map item_toks items ++ (TEnd n, o') :: rest) =
        POk (Elem n a sc c (ch ++ ch')) o' rest /\
      trees_of sc items ch'.
  Proof.
    induction items as [|i items IH]; intros n a sc b e ch dp rest o' Hd Hh [c Hc].
    - exists 1, [], c. cbn in Hc. split; auto. cbn. rewrite xname_eqb_refl, Hc, app_nil_r. split; auto. constructor.
    - rewrite end_pos_cons in *. destruct i as [[n' a' o'' its oe]|k].
      + cbn [hmax fold_right] in Hh. fold (hmax items) in Hh.
        cbn [item_off] in *.
        destruct (Hd _ (or_introl eq_refl) n' a' o'' its oe (dp + 1)%N
          (flat_map item_toks items ++ (TEnd n, o') :: rest) eq_refl) as (f1 & el & E1 & T1); [lia|].
        destruct (IH n a sc b oe (ch ++ [el]) dp rest o') as (f2 & ch' & c' & Hc' & E2 & T2).
        { intros d Hin. apply Hd; cbn; auto. }
        { lia. }
        { eauto. }
        exists (S (f1 + f2)), (el :: ch'), c'. split; auto. split; [|constructor; auto].
        cbn [flat_map item_toks doc_toks app ParseModel.body].
        assert ((recursionLimit <? dp + 1)%N = false) as -> by lia.
        rewrite <- !app_assoc. cbn [app].
        rewrite (body_fuel _ (f1 + f2) _ _ _ _ _ _ _ _ _ E1) by (discriminate || lia).
        rewrite (body_fuel _ (f1 + f2) _ _ _ _ _ _ _ _ _ E2) by (discriminate || lia).
        rewrite <- app_assoc. auto.
      + cbn [item_off] in *. cbn [hmax fold_right] in Hh. fold (hmax items) in Hh.
        destruct (IH n a sc b k ch dp rest o') as (f2 & ch' & c' & Hc' & E2 & T2); eauto.
        { intros d Hin. apply Hd; cbn; auto. }
        exists (S f2), ch', c'. split; auto. split; [|constructor; auto].
        cbn [flat_map item_toks app ParseModel.body]. auto.
  Qed.

  Lemma body_doc : forall d, fits data d -> forall n' a' o'' its oe sc dp' rest', d = Doc n' a' o'' its oe ->
    (dp' + height d <= recursionLimit)%N ->
    exists fuel el, body fuel n' (attrs_of a') (push_ns sortns sc a') o'' o'' [] dp'
        (flat_map item_toks its ++ (TEnd n', oe) :: rest') = POk el oe rest' /\ tree_of sc d el.
  Proof.
    induction d as [n a o items o' IH] using doc_ind'.
    intros Hfit n' a' o'' its oe sc dp rest [= <- <- <- <- <-] Hh. rewrite height_eq in Hh.
    inversion Hfit as [? ? ? ? ? Hle1 Hle2 Hsub]; subst.
    destruct (body_items items n (attrs_of a) (push_ns sortns sc a) o o [] dp rest o') as (f & ch & c & Hc & E & T).
    - intros d Hin n1 a1 o1 its1 oe1 dp1 rest1 -> Hh1. eapply IH; eauto.
    - auto.
    - apply slice_some; auto.
    - exists f. eexists. split; [exact E|]. cbn [app] in *. constructor; auto. apply sorted_decls_sort.
  Qed.

  Lemma parse_skip pre ts : no_start pre -> parse (pre ++ ts) = parse ts.
  Proof.
    induction pre as [|[t o] pre IH]; intros H; auto. cbn.
    assert (Hp : no_start pre) by (intros n a k Hk; apply (H n a k); cbn; auto).
    destruct t; auto. exfalso. eapply H; cbn; eauto.
  Qed.

  Lemma parse_complete d pre rest :
    no_start pre -> fits data d -> (height d <= recursionLimit)%N ->
    exists el off, parse (pre ++ doc_toks d ++ rest) = POk el off rest /\ tree_of [] d el.
  Proof.
    intros Hpre Hfit Hh. rewrite parse_skip by auto. destruct d as [n a o items o'].
    destruct (body_doc _ Hfit n a o items o' [] 0%N rest eq_refl) as (f & el & E & T); [lia|].
    exists el, o'. split; auto. cbn [doc_toks app ParseModel.parse].
    rewrite <- app_assoc. cbn [app].
    destruct (body (S (List.length (flat_map item_toks items ++ (TEnd n, o') :: rest))) n (attrs_of a) (push_ns sortns [] a) o o [] 0%N
      (flat_map item_toks items ++ (TEnd n, o') :: rest)) as [e1 o1 r1|er] eqn:E1.
    - pose proof (body_fuel _ (f + S (List.length (flat_map item_toks items ++ (TEnd n, o') :: rest))) _ _ _ _ _ _ _ _ _ E1) as G1.
      pose proof (body_fuel _ (f + S (List.length (flat_map item_toks items ++ (TEnd n, o') :: rest))) _ _ _ _ _ _ _ _ _ E) as G2.
      rewrite G1 in G2 by (discriminate || lia). apply G2; [discriminate|lia].
    - assert (er <> EFuel).
      { intros ->. eapply body_no_fuel_err; [|exact E1]. lia. }
      pose proof (body_fuel _ (f + S (List.length (flat_map item_toks items ++ (TEnd n, o') :: rest))) _ _ _ _ _ _ _ _ _ E1) as G1.
      pose proof (body_fuel _ (f + S (List.length (flat_map item_toks items ++ (TEnd n, o') :: rest))) _ _ _ _ _ _ _ _ _ E) as G2.
      rewrite G1 in G2 by (congruence || lia). apply G2; [discriminate|lia].
  Qed.

  (* ---------- soundness ---------- *)
  Lemma body_sound : forall fuel n a sc b e ch dp ts el off rest,
    body fuel n a sc b e ch dp ts = POk el off rest ->
    exists items ch' c, ts = flat_map item_toks items ++ (TEnd n, off) :: rest /\
      (hmax items = 0 \/ dp + hmax items <= recursionLimit)%N /\
      slice data b (end_pos e items) = Some c /\
      el = Elem n a sc c (ch ++ ch') /\ trees_of sc items ch'.
  Proof.
    induction fuel as [|fuel IH]; intros n a sc b e ch dp ts el off rest H; [discriminate|].
    cbn [ParseModel.body] in H.
    destruct ts as [|[[n' a'|n'|] o'] ts']; try discriminate.
    - destruct (recursionLimit <? dp + 1)%N eqn:Ed; [discriminate|].
      destruct (body fuel n' (attrs_of a') (push_ns sortns sc a') o' o' [] (dp + 1)%N ts') as [c o'' ts''|er] eqn:E; [|discriminate].
      apply IH in E as (its1 & ch1 & c1 & -> & Hh1 & Hc1 & -> & T1).
      apply IH in H as (its2 & ch2 & c2 & -> & Hh2 & Hc2 & -> & T2).
      exists (IElem (Doc n' a' o' its1 o'') :: its2), (Elem n' (attrs_of a') (push_ns sortns sc a') c1 ch1 :: ch2), c2.
      split; [|split; [|split; [|split]]].
      + cbn [flat_map item_toks doc_toks app]. rewrite <- !app_assoc. auto.
      + cbn [hmax fold_right]. fold (hmax its2). rewrite height_eq. lia.
      + rewrite end_pos_cons. auto.
      + rewrite <- app_assoc. auto.
      + constructor; auto. unfold push_ns in *. constructor; auto. apply sorted_decls_sort.
    - destruct (xname_eqb n' n) eqn:En; [|discriminate]. apply xname_eqb_eq in En as ->.
      destruct (slice data b e) as [c|] eqn:Ec; [|discriminate]. injection H as <- <- <-.
      exists [], [], c. rewrite app_nil_r. cbn. repeat split; auto. constructor.
    - apply IH in H as (its2 & ch2 & c2 & -> & Hh2 & Hc2 & -> & T2).
      exists (IOther o' :: its2), ch2, c2. rewrite end_pos_cons. repeat split; auto. constructor; auto.
  Qed.

  Lemma parse_sound : forall ts el off rest, parse ts = POk el off rest ->
    exists pre d, ts = pre ++ doc_toks d ++ rest /\ no_start pre /\
      (height d <= recursionLimit)%N /\ tree_of [] d el.
  Proof.
    induction ts as [|[t o] ts IH]; intros el off rest H; [discriminate|]. cbn [ParseModel.parse] in H.
    assert (Hskip : (forall n a, t <> TStart n a) -> parse ts = POk el off rest ->
      exists pre d, (t, o) :: ts = pre ++ doc_toks d ++ rest /\ no_start pre /\
      (height d <= recursionLimit)%N /\ tree_of [] d el).
    { intros Ht Hp. apply IH in Hp as (pre & d & -> & Hp & Hh & T).
      exists ((t, o) :: pre), d. repeat split; auto.
      intros n a k [[= H1 _]|Hk]; [eapply Ht; eauto|eapply Hp; eauto]. }
    destruct t as [n a|n|]; [|apply Hskip; [discriminate|auto] ..].
    apply body_sound in H as (items & ch & c & -> & Hh & Hc & -> & T).
    exists [], (Doc n a o items off). split; [|split; [|split]].
    - cbn [app doc_toks]. rewrite <- !app_assoc. auto.
    - intros ? ? ? [].
    - rewrite height_eq. unfold recursionLimit in *. lia.
    - unfold push_ns in *. cbn [app] in *. apply (tree_of_doc data decls_of attrs_of []); auto. apply sorted_decls_sort.
  Qed.

  (* appending to the stream does not change a successful parse *)
  Lemma body_extend : forall fuel n a sc b e ch dp ts el off rest q,
    body fuel n a sc b e ch dp ts = POk el off rest ->
    body fuel n a sc b e ch dp (ts ++ q) = POk el off (rest ++ q).
  Proof.
    induction fuel as [|fuel IH]; intros n a sc b e ch dp ts el off rest q H; [discriminate|].
    cbn [ParseModel.body] in *.
    destruct ts as [|[[n' a'|n'|] o'] ts']; try discriminate; cbn [app].
    - destruct (recursionLimit <? dp + 1)%N; [discriminate|].
      destruct (body fuel n' (attrs_of a') (push_ns sortns sc a') o' o' [] (dp + 1)%N ts') as [c o'' ts''|er] eqn:E; [|discriminate].
      rewrite (IH _ _ _ _ _ _ _ _ _ _ _ q E). apply IH; auto.
    - destruct (xname_eqb n' n); [|discriminate]. destruct (slice data b e); [|discriminate].
      injection H as <- <- <-; auto.
    - apply IH; auto.
  Qed.

  Lemma parse_extend ts el off rest q :
    parse ts = POk el off rest -> parse (ts ++ q) = POk el off (rest ++ q).
  Proof.
    induction ts as [|[t o] ts IH]; intros H; [discriminate|]. cbn [ParseModel.parse app] in *.
    destruct t as [n a|n|]; auto.
    apply (body_extend _ _ _ _ _ _ _ _ _ _ _ _ q) in H.
    eapply body_fuel; [exact H|discriminate|]. rewrite app_length. lia.
  Qed.

  Lemma parse_never_fuel ts : parse ts <> PErr EFuel.
  Proof.
    induction ts as [|[t o] ts IH]; [discriminate|]. cbn [ParseModel.parse].
    destruct t; auto. apply body_no_fuel_err. lia.
  Qed.

  Lemma parse_truncated d p q : q <> [] -> doc_toks d = p ++ q -> exists e, parse p = PErr e.
  Proof.
    intros Hq Hd. destruct (parse p) as [el off rest|e] eqn:E; [|eauto]. exfalso.
    apply (parse_extend _ _ _ _ q) in E. rewrite <- Hd in E.
    apply parse_sound in E as (pre & d' & Ed & Hpre & _).
    (* both d and d' start at the head of the stream; the balanced prefix is unique *)
    assert (pre = []) as ->.
    { destruct pre as [|[t o] pre]; auto. destruct d as [n a o2 items o']. cbn in Ed.
      injection Ed as <- <- _. exfalso. eapply Hpre. cbn; eauto. }
    cbn [app] in Ed.
    assert (G : forall d1 d2 r1 r2, doc_toks d1 ++ r1 = doc_toks d2 ++ r2 -> r1 = r2).
    { clear. intros d1. induction d1 as [n a o items o' IH] using doc_ind'.
      intros [n2 a2 o2 items2 o2'] r1 r2. cbn [doc_toks app]. intros [= <- <- <- H].
      rewrite <- !app_assoc in H. cbn [app] in H.
      revert items2 H. induction items as [|[d|k] items IHi]; intros [|[d2|k2] items2] H; cbn [flat_map item_toks app] in H.
      - injection H; auto.
      - destruct d2; discriminate.
      - discriminate.
      - destruct d; discriminate.
      - rewrite <- !app_assoc in H. apply (IH d (or_introl eq_refl)) in H.
        eapply IHi; [|exact H]. intros; eapply IH; cbn; eauto.
      - destruct d; discriminate.
      - discriminate.
      - destruct d2; discriminate.
      - injection H as <- H. eapply IHi; [|exact H]. intros; eapply IH; cbn; eauto. }
    specialize (G d d' [] (rest ++ q)). rewrite app_nil_r in G. apply G in Ed.
    symmetry in Ed. apply app_eq_nil in Ed as [_ ->]. auto.
  Qed.

  (* ---------- too deep ---------- *)
  Lemma body_items_deep : forall items n a sc b e ch dp rest o',
    (forall d, In (IElem d) items -> fits data d /\
       forall n' a' o'' its oe dp' rest', d = Doc n' a' o'' its oe -> (dp' <= recursionLimit)%N ->
       (recursionLimit < dp' + height d)%N ->
       exists fuel, body fuel n' (attrs_of a') (push_ns sortns sc a') o'' o'' [] dp'
           (flat_map item_toks its ++ (TEnd n', oe) :: rest') = PErr EDeep) ->
    (recursionLimit < dp + hmax items)%N -> (dp <= recursionLimit)%N ->
    exists fuel, body fuel n a sc b e ch dp (flat_map item_toks items ++ (TEnd n, o') :: rest) = PErr EDeep.
  Proof.
    induction items as [|i items IH]; intros n a sc b e ch dp rest o' Hd Hh Hdp.
    - cbn in Hh. lia.
    - destruct i as [[n' a' o'' its oe]|k].
      + cbn [hmax fold_right] in Hh. fold (hmax items) in Hh.
        destruct (Hd _ (or_introl eq_refl)) as [Hfit Hd1].
        destruct (recursionLimit <? dp + 1)%N eqn:Ed1.
        { exists 1. cbn [flat_map item_toks doc_toks app ParseModel.body]. rewrite Ed1. auto. }
        destruct (recursionLimit <? dp + 1 + height (Doc n' a' o'' its oe))%N eqn:Ed2.
        * destruct (Hd1 n' a' o'' its oe (dp + 1)%N (flat_map item_toks items ++ (TEnd n, o') :: rest) eq_refl) as [f E]; [lia|lia|].
          exists (S f). cbn [flat_map item_toks doc_toks app ParseModel.body]. rewrite Ed1.
          rewrite <- !app_assoc. cbn [app]. rewrite E. auto.
        * destruct (body_doc _ Hfit n' a' o'' its oe sc (dp + 1)%N (flat_map item_toks items ++ (TEnd n, o') :: rest) eq_refl) as (f1 & el & E1 & _); [lia|].
          destruct (IH n a sc b oe (ch ++ [el]) dp rest o') as [f2 E2]; try lia.
          { intros d Hin. apply Hd; cbn; auto. }
          exists (S (f1 + f2)). cbn [flat_map item_toks doc_toks app ParseModel.body]. rewrite Ed1.
          rewrite <- !app_assoc. cbn [app].
          rewrite (body_fuel _ (f1 + f2) _ _ _ _ _ _ _ _ _ E1) by (discriminate || lia).
          rewrite (body_fuel _ (f1 + f2) _ _ _ _ _ _ _ _ _ E2) by (discriminate || lia). auto.
      + cbn [hmax fold_right] in Hh. fold (hmax items) in Hh.
        destruct (IH n a sc b k ch dp rest o') as [f E]; auto.
        { intros d Hin. apply Hd; cbn; auto. }
        exists (S f). cbn [flat_map item_toks app ParseModel.body]. auto.
  Qed.

  Lemma body_deep : forall d, fits data d -> forall n' a' o'' its oe sc dp' rest', d = Doc n' a' o'' its oe ->
    (dp' <= recursionLimit)%N -> (recursionLimit < dp' + height d)%N ->
    exists fuel, body fuel n' (attrs_of a') (push_ns sortns sc a') o'' o'' [] dp'
        (flat_map item_toks its ++ (TEnd n', oe) :: rest') = PErr EDeep.
  Proof.
    induction d as [n a o items o' IH] using doc_ind'.
    intros Hfit n' a' o'' its oe sc dp rest [= <- <- <- <- <-] Hdp Hh. rewrite height_eq in Hh.
    inversion Hfit as [? ? ? ? ? Hle1 Hle2 Hsub]; subst.
    apply body_items_deep; auto.
    intros d Hin. split; auto. intros n1 a1 o1 its1 oe1 dp1 rest1 -> Hdp1 Hh1. eapply IH; eauto.
  Qed.

  Lemma parse_deep d pre rest :
    no_start pre -> fits data d -> (recursionLimit < height d)%N ->
    parse (pre ++ doc_toks d ++ rest) = PErr EDeep.
  Proof.
    intros Hpre Hfit Hh. rewrite parse_skip by auto. destruct d as [n a o items o'].
    destruct (body_deep _ Hfit n a o items o' [] 0%N rest eq_refl) as (f & E); [unfold recursionLimit; lia|lia|].
    cbn [doc_toks app ParseModel.parse]. rewrite <- app_assoc. cbn [app].
    set (ts := flat_map item_toks items ++ (TEnd n, o') :: rest) in *.
    destruct (body (S (List.length ts)) n (attrs_of a) (push_ns sortns [] a) o o [] 0%N ts) as [e1 o1 r1|er] eqn:E1.
    - pose proof (body_fuel _ (f + S (List.length ts)) _ _ _ _ _ _ _ _ _ E1) as G1.
      pose proof (body_fuel _ (f + S (List.length ts)) _ _ _ _ _ _ _ _ _ E) as G2.
      rewrite G1 in G2 by (discriminate || lia). apply G2; [discriminate|lia].
    - assert (er <> EFuel).
      { intros ->. eapply body_no_fuel_err; [|exact E1]. lia. }
      pose proof (body_fuel _ (f + S (List.length ts)) _ _ _ _ _ _ _ _ _ E1) as G1.
      pose proof (body_fuel _ (f + S (List.length ts)) _ _ _ _ _ _ _ _ _ E) as G2.
      rewrite G1 in G2 by (congruence || lia). apply G2; [discriminate|lia].
  Qed.
End P.

(* ---------- the code's reading of a tag agrees with the standard one on plain documents ---------- *)
Lemma ns_decl_code a : plain_attr a = true ->
  match ns_decl a with Some d => is_decl a = true /\ decl_of a = d | None => is_decl a = false end.
Proof.
  unfold plain_attr. destruct a as [[sp l] v]. intros H.
  assert (E : ns_decl (mkAttr (mkName sp l) v) =
    if String.eqb sp "xmlns" then Some (mkName v l)
    else if String.eqb sp "" && String.eqb l "xmlns" then Some (mkName v "") else None).
  { clear. unfold ns_decl. cbn.
    destruct (String.eqb sp "xmlns") eqn:E1; [apply String.eqb_eq in E1 as ->; auto|].
    destruct (String.eqb sp "") eqn:E2; cbn [andb].
    - apply String.eqb_eq in E2 as ->. destruct (String.eqb l "xmlns") eqn:E3.
      + apply String.eqb_eq in E3 as ->; auto.
      + apply String.eqb_neq in E3.
        repeat match goal with
        | |- context [match ?x with EmptyString => _ | String _ _ => _ end] => destruct x; auto
        | |- context [match ?x with Ascii _ _ _ _ _ _ _ _ => _ end] => destruct x as [[] [] [] [] [] [] [] []]; auto
        end; congruence.
    - apply String.eqb_neq in E1, E2.
        repeat match goal with
        | |- context [match ?x with EmptyString => _ | String _ _ => _ end] => destruct x; auto
        | |- context [match ?x with Ascii _ _ _ _ _ _ _ _ => _ end] => destruct x as [[] [] [] [] [] [] [] []]; auto
        end; congruence. }
  rewrite E in *. unfold is_decl, decl_of. cbn [aname avalue nspace nlocal].
  destruct (String.eqb sp "xmlns") eqn:E1; auto. cbn [orb].
  destruct (String.eqb sp "" && String.eqb l "xmlns") eqn:E2.
  - apply andb_true_iff in E2 as [_ ->]. auto.
  - cbn in H. apply negb_true_iff in H. auto.
Qed.

Lemma code_decls a : forallb plain_attr a = true -> decls_of a = xml_decls a /\ attrs_of a = xml_attrs a.
Proof.
  unfold decls_of, attrs_of, xml_decls, xml_attrs.
  induction a as [|x a IH]; cbn [forallb]; intros H; auto.
  apply andb_true_iff in H as [Hx Ha]. destruct (IH Ha) as [I1 I2].
  apply ns_decl_code in Hx. cbn [filter flat_map]. rewrite I2, <- I1.
  destruct (ns_decl x); [destruct Hx as [-> <-]|rewrite Hx]; cbn; auto.
Qed.

Lemma tree_of_xml data s d e : tree_of data decls_of attrs_of s d e -> plain d = true ->
  tree_of data xml_decls xml_attrs s d e.
Proof.
  intros H. induction H as [s n a o items o' ds c ch Hds Hc Ht IH | | |]
    using tree_of_ind2
    with (P0 := fun s items ch _ => forallb (fun i => match i with IElem d' => plain d' | IOther _ => true end) items = true ->
                 trees_of data xml_decls xml_attrs s items ch).
  - cbn [plain]. intros Hp. apply andb_true_iff in Hp as [Ha Hi].
    destruct (code_decls a Ha) as [E1 E2]. rewrite E2.
    constructor; auto. unfold sorted_decls in *. rewrite <- E1. auto.
  - constructor.
  - cbn. intros; constructor; auto.
  - cbn. intros Hp. apply andb_true_iff in Hp as [? ?]. constructor; auto.
Qed.

(* ---------- examples and refutations ---------- *)
From Verif Require Import SortLib.
Definition isort_ns : list xname -> list xname := isort_by (fun n => (nspace n ++ nlocal n)%string).
Lemma isort_ns_sorts : sorts isort_ns.
Proof.
  intros l. split; [apply isort_by_perm|]. apply (isort_by_sorted (fun n => (nspace n ++ nlocal n)%string)).
Qed.

(* <a p:xmlns="v"/> with p bound to urn:p *)
Lemma foreign_xmlns : exists d data, fits data d /\ (height d <= recursionLimit)%N /\
  forall sortns, sorts sortns ->
  exists el off, parse sortns data (doc_toks d) = POk el off [] /\
    e_scope el = [mkName "v" ""] /\ e_attrs el = [] /\ ~ tree_of data xml_decls xml_attrs [] d el.
Proof.
  exists (Doc (mkName "" "a") [mkAttr (mkName "urn:p" "xmlns") "v"] 0 [] 0), "".
  split; [constructor; cbn; auto; intros ? []|]. split; [unfold recursionLimit; cbn; lia|].
  intros sortns Hs.
  destruct (Hs [mkName "v" ""]) as [Hp _]. apply Permutation_length_1_inv in Hp.
  eexists _, _. cbn [doc_toks flat_map app ParseModel.parse List.length ParseModel.body].
  rewrite xname_eqb_refl. split; [reflexivity|]. cbn [e_scope e_attrs]. unfold push_ns. cbn [app].
  change (decls_of _) with [mkName "v" ""]. rewrite Hp. split; auto. split; auto.
  intros H. inversion H.
Qed.

Fixpoint nest (k : nat) : doc :=
  match k with
  | O => Doc (mkName "u" "a") [] 0 [] 0
  | S k' => Doc (mkName "u" "a") [] 0 [IElem (nest k')] 0
  end.
Lemma nest_height k : height (nest k) = N.of_nat k.
Proof. induction k; cbn [nest height fold_right]; [reflexivity|]. rewrite IHk. lia. Qed.
Lemma nest_end k : item_off (IElem (nest k)) = 0.
Proof. destruct k; reflexivity. Qed.
Lemma nest_fits data k : fits data (nest k).
Proof.
  induction k as [|k IH]; cbn [nest]; constructor; unfold end_pos; cbn [map last];
    rewrite ?nest_end; try lia.
  - intros ? [].
  - intros d [[= <-]|[]]; auto.
Qed.

(* forms used in PropsParse *)
Lemma parse_complete_xml sortns data d pre rest :
  sorts sortns -> no_start pre -> fits data d -> (height d <= recursionLimit)%N -> plain d = true ->
  exists el off, parse sortns data (pre ++ doc_toks d ++ rest) = POk el off rest /\
    tree_of data xml_decls xml_attrs [] d el.
Proof.
  intros Hs Hp Hf Hh Hpl. destruct (parse_complete sortns data Hs d pre rest Hp Hf Hh) as (el & off & E & T).
  exists el, off. split; auto. apply tree_of_xml; auto.
Qed.

Lemma parse_sound_xml sortns data ts el off rest :
  sorts sortns -> parse sortns data ts = POk el off rest ->
  exists pre d, ts = pre ++ doc_toks d ++ rest /\ no_start pre /\ (height d <= recursionLimit)%N /\
    (plain d = true -> tree_of data xml_decls xml_attrs [] d el).
Proof.
  intros Hs H. destruct (parse_sound sortns data Hs _ _ _ _ H) as (pre & d & E & Hp & Hh & T).
  exists pre, d. repeat split; auto. intros; apply tree_of_xml; auto.
Qed.
