From Verif Require Import Base ScopeModel TreeModel TreeProofs ParseModel DecodeProofs MarshalSpec MarshalProofs EqualModel EqualSpec SortLib.
From Coq Require Import Sorted.

(* ---------- strings ---------- *)
Lemma prefix_iff w : forall s, String.prefix w s = true <-> exists r, s = (w ++ r)%string.
Proof.
  induction w as [|c w IH]; intros s.
  - split; [intros _; exists s; auto|destruct s; auto].
  - destruct s as [|d s]; [split; [discriminate|intros [r H]; discriminate]|].
    rewrite prefix_cons, andb_true_iff, IH, Ascii.eqb_eq. split.
    + intros [-> [r ->]]. exists r; auto.
    + intros [r H]. cbn in H. injection H as -> ->. eauto.
Qed.
Lemma drop_app a b : s_drop (String.length a) (a ++ b)%string = b.
Proof. induction a; cbn; auto. Qed.
Lemma rev_onto a b c : s_rev_onto (a ++ b)%string c = s_rev_onto b (s_rev_onto a c).
Proof. revert c. induction a; cbn; auto. Qed.
Lemma rev_onto_acc a c : s_rev_onto a c = (s_rev a ++ c)%string.
Proof.
  unfold s_rev. revert c. induction a as [|x a IH]; intros c; cbn; auto.
  rewrite IH, (IH (String x "")), <- sapp_assoc. auto.
Qed.
Lemma s_rev_app a b : s_rev (a ++ b)%string = (s_rev b ++ s_rev a)%string.
Proof. unfold s_rev at 1. rewrite rev_onto, rev_onto_acc. auto. Qed.
Lemma s_rev_rev a : s_rev (s_rev a) = a.
Proof.
  induction a as [|c a IH]; auto. change (String c a) with (String c "" ++ a)%string.
  rewrite !s_rev_app, IH. auto.
Qed.
Lemma s_rev_length a : String.length (s_rev a) = String.length a.
Proof.
  induction a as [|c a IH]; auto. change (String c a) with (String c "" ++ a)%string.
  rewrite s_rev_app, slen_app, IH, slen_app. cbn. lia.
Qed.
Lemma sapp_cmp (a b c d : string) : (a ++ b = c ++ d)%string ->
  (exists r, c = (a ++ r)%string /\ b = (r ++ d)%string) \/ (exists r, a = (c ++ r)%string /\ d = (r ++ b)%string).
Proof.
  revert c. induction a as [|x a IH]; intros c H; [left; exists c; auto|].
  destruct c as [|y c]; [right; exists (String x a); auto|]. cbn in H. injection H as -> H.
  destruct (IH _ H) as [(r & -> & ->)|(r & -> & ->)]; [left|right]; exists r; auto.
Qed.

(* ---------- trimming with a prefix-free set of strings ---------- *)
Section Trim.
  Variable ws : list string.
  Hypothesis nonempty : forall w, In w ws -> w <> "".
  Hypothesis prefix_free : forall w r, In w ws -> In (w ++ r)%string ws -> r = "".

  Inductive run : string -> Prop := run_nil : run "" | run_cons c s : In c ws -> run s -> run (c ++ s).
  Definition irr (s : string) : Prop := forall w r, In w ws -> s <> (w ++ r)%string.

  Lemma run_app a b : run a -> run b -> run (a ++ b).
  Proof. induction 1; intros; auto. rewrite <- sapp_assoc. constructor; auto. Qed.

  Lemma trim_front_unique w r : run w -> irr r -> forall fuel, String.length (w ++ r) <= fuel ->
    trim_front ws fuel (w ++ r) = r.
  Proof.
    intros Hw Hr. induction Hw as [|c s Hc Hs IH]; intros fuel Hf.
    - cbn [append]. destruct fuel; auto. cbn [trim_front].
      destruct (find (fun w => String.prefix w r) ws) eqn:E; auto.
      apply find_some in E as [Hin Hp]. apply prefix_iff in Hp as [r' ->]. exfalso. eapply Hr; eauto.
    - rewrite <- sapp_assoc in *. pose proof (nonempty c Hc) as Hne. rewrite slen_app in Hf.
      destruct c as [|x c]; [congruence|]. cbn [String.length] in Hf.
      destruct fuel as [|fuel]; [lia|]. cbn [trim_front].
      destruct (find (fun w => String.prefix w (String x c ++ (s ++ r))) ws) as [w'|] eqn:E.
      + apply find_some in E as [Hin Hp]. apply prefix_iff in Hp as [r' Hr'].
        assert (w' = String x c) as ->.
        { destruct (sapp_cmp _ _ _ _ Hr') as [(q & -> & _)|(q & Hq & _)].
          - rewrite (prefix_free _ _ Hc Hin), sapp_nil_r. auto.
          - rewrite Hq in Hc |- *. rewrite (prefix_free _ _ Hin Hc), sapp_nil_r. auto. }
        rewrite drop_app. apply IH. rewrite slen_app in *. lia.
      + exfalso. apply (find_none _ _ E) in Hc. cbn beta in Hc.
        assert (String.prefix (String x c) (String x c ++ (s ++ r)) = true) by (apply prefix_iff; eauto). congruence.
  Qed.

  Lemma trim_front_split : forall fuel s, String.length s <= fuel ->
    exists w, run w /\ s = (w ++ trim_front ws fuel s)%string /\ irr (trim_front ws fuel s).
  Proof.
    induction fuel as [|fuel IH]; intros s Hs; cbn [trim_front].
    - exists "". split; [constructor|]. split; auto. intros w r Hw E. destruct s; [|cbn in Hs; lia].
      destruct w; [|discriminate]. apply (nonempty _ Hw). auto.
    - destruct (find (fun w => String.prefix w s) ws) as [w|] eqn:E.
      + apply find_some in E as [Hin Hp]. apply prefix_iff in Hp as [r ->]. rewrite drop_app.
        pose proof (nonempty w Hin) as Hne. destruct w as [|x w]; [congruence|].
        destruct (IH r) as (w' & H1 & H2 & H3). { rewrite slen_app in Hs. cbn [String.length] in Hs. lia. }
        exists (String x w ++ w')%string. split; [constructor; auto|]. split; auto. rewrite <- sapp_assoc, <- H2. auto.
      + exists "". split; [constructor|]. split; auto. intros w r Hw ->.
        apply (find_none _ _ E) in Hw. cbn beta in Hw.
        assert (String.prefix w (w ++ r) = true) by (apply prefix_iff; eauto). congruence.
  Qed.
End Trim.

(* ---------- the white space table ---------- *)
Definition strip_of (w s : string) : option string := if String.prefix w s then Some (s_drop (String.length w) s) else None.
Definition pf_check (ws : list string) : bool :=
  forallb (fun w => negb (String.eqb w "") && forallb (fun s => negb (String.prefix w s) || String.eqb w s) ws) ws.
Lemma pf_check_ok ws : pf_check ws = true ->
  (forall w, In w ws -> w <> "") /\ (forall w r, In w ws -> In (w ++ r)%string ws -> r = "").
Proof.
  unfold pf_check. rewrite forallb_forall. intros H. split.
  - intros w Hw ->. apply H in Hw. discriminate.
  - intros w r Hw Hwr. apply H in Hw. apply andb_true_iff in Hw as [_ Hw]. rewrite forallb_forall in Hw.
    apply Hw in Hwr. apply orb_true_iff in Hwr as [Hwr|Hwr].
    + apply negb_true_iff in Hwr. assert (String.prefix w (w ++ r) = true) by (apply prefix_iff; eauto). congruence.
    + apply String.eqb_eq in Hwr. rewrite <- (sapp_nil_r w) in Hwr at 1. apply sapp_inj_l in Hwr. auto.
Qed.
Lemma white_pf : pf_check white = true. Proof. vm_compute. reflexivity. Qed.
Lemma rwhite_pf : pf_check (map s_rev white) = true. Proof. vm_compute. reflexivity. Qed.

Definition cont (c : ascii) : bool := ((128 <=? N_of_ascii c) && (N_of_ascii c <=? 191))%N.
Lemma white_bytes w : In w white -> exists c s, w = String c s /\ cont c = false /\ s_all cont s = true.
Proof.
  assert (H : forallb (fun w => match w with EmptyString => false | String c s => negb (cont c) && s_all cont s end) white = true)
    by (vm_compute; reflexivity).
  rewrite forallb_forall in H. intros Hw. apply H in Hw. destruct w as [|c s]; [discriminate|].
  apply andb_true_iff in Hw as [H1 H2]. apply negb_true_iff in H1. eauto.
Qed.

Lemma blank_run w : blank w <-> run white w.
Proof. split; induction 1; constructor; auto. Qed.
Lemma blank_app a b : blank a -> blank b -> blank (a ++ b).
Proof. rewrite !blank_run. apply run_app. Qed.
Lemma blank_rrun w : blank w -> run (map s_rev white) (s_rev w).
Proof.
  induction 1 as [|c s Hc Hs IH]; [constructor|]. rewrite s_rev_app. apply run_app; auto.
  rewrite <- (sapp_nil_r (s_rev c)). constructor; [apply in_map; auto|constructor].
Qed.
Lemma rrun_blank w : run (map s_rev white) w -> blank (s_rev w).
Proof.
  induction 1 as [|c s Hc Hs IH]; [constructor|]. rewrite s_rev_app. apply blank_app; auto.
  apply in_map_iff in Hc as (c' & <- & Hc). rewrite s_rev_rev, <- (sapp_nil_r c'). constructor; [auto|constructor].
Qed.

(* core has no white space at either end *)
Lemma trim_left_spec s : exists w, blank w /\ s = (w ++ trim_left s)%string /\ irr white (trim_left s).
Proof.
  destruct (pf_check_ok _ white_pf) as [H1 H2].
  destruct (trim_front_split white H1 H2 (String.length s) s (le_n _)) as (w & Hw & E & Hi).
  exists w. rewrite blank_run. auto.
Qed.
Lemma trim_left_unique w r : blank w -> irr white r -> trim_left (w ++ r) = r.
Proof.
  destruct (pf_check_ok _ white_pf) as [H1 H2]. intros Hw Hr. apply trim_front_unique; auto. apply blank_run; auto.
Qed.
Lemma trim_right_spec s : exists w, blank w /\ s = (trim_right s ++ w)%string /\ irr (map s_rev white) (s_rev (trim_right s)).
Proof.
  destruct (pf_check_ok _ rwhite_pf) as [H1 H2].
  destruct (trim_front_split (map s_rev white) H1 H2 (String.length s) (s_rev s)) as (w & Hw & E & Hi); [rewrite s_rev_length; auto|].
  exists (s_rev w). split; [apply rrun_blank; auto|]. unfold trim_right. split.
  - rewrite <- s_rev_app, <- E, s_rev_rev. auto.
  - rewrite s_rev_rev. auto.
Qed.
Lemma trim_right_unique w r : blank w -> irr (map s_rev white) (s_rev r) -> trim_right (r ++ w) = r.
Proof.
  destruct (pf_check_ok _ rwhite_pf) as [H1 H2]. intros Hw Hr. unfold trim_right. rewrite s_rev_app.
  rewrite trim_front_unique; auto.
  - apply s_rev_rev.
  - apply blank_rrun; auto.
  - rewrite <- s_rev_app, s_rev_length. auto.
Qed.

Lemma irr_prefix ws a b : irr ws (a ++ b) -> irr ws a.
Proof. intros H w r Hw ->. apply (H w (r ++ b)%string Hw). rewrite sapp_assoc. auto. Qed.

Lemma trim_space_split s : exists u v, blank u /\ blank v /\ s = (u ++ trim_space s ++ v)%string /\
  irr white (trim_space s) /\ irr (map s_rev white) (s_rev (trim_space s)).
Proof.
  destruct (trim_left_spec s) as (u & Hu & E & Hi). destruct (trim_right_spec (trim_left s)) as (v & Hv & E' & Hi').
  exists u, v. unfold trim_space. split; auto. split; auto. split; [rewrite <- E'; auto|]. split; auto.
  eapply irr_prefix. rewrite <- E'. auto.
Qed.

Lemma irr_app_blank m w : m <> "" -> irr white m -> blank w -> irr white (m ++ w).
Proof.
  intros Hm Hi Hw c r Hc E. destruct (sapp_cmp _ _ _ _ E) as [(q & Hq & Hw')|(q & -> & _)].
  - destruct (white_bytes c Hc) as (x & s & -> & Hx & Hs).
    destruct m as [|y m]; [congruence|]. cbn in Hq. injection Hq as <- ->.
    rewrite s_all_app in Hs. apply andb_true_iff in Hs as [_ Hs].
    destruct q as [|z q].
    + apply (Hi (String x m) ""); [|rewrite sapp_nil_r; auto]. rewrite sapp_nil_r in Hc. auto.
    + cbn [s_all] in Hs. apply andb_true_iff in Hs as [Hz _].
      inversion Hw as [E0|c' s' Hc' Hs' E0]; [subst; discriminate|].
      destruct (white_bytes c' Hc') as (x' & s'' & -> & Hx' & _). rewrite <- E0 in Hw'. cbn in Hw'. congruence.
  - eapply (Hi c q); auto.
Qed.

Lemma trim_unique u m v : blank u -> blank v -> irr white m -> irr (map s_rev white) (s_rev m) ->
  trim_space (u ++ m ++ v) = m.
Proof.
  intros Hu Hv Hm Hm'. unfold trim_space. destruct (string_dec m "") as [->|Ne].
  - cbn [append]. assert (irr white "") as Hi by auto.
    rewrite <- (sapp_nil_r (u ++ v)%string), trim_left_unique; auto using blank_app.
  - rewrite trim_left_unique; auto using irr_app_blank. apply trim_right_unique; auto.
Qed.

Lemma trim_same_text a b : trim_space a = trim_space b <-> same_text a b.
Proof.
  split.
  - intros E. destruct (trim_space_split a) as (u & v & Hu & Hv & Ea & _).
    destruct (trim_space_split b) as (u' & v' & Hu' & Hv' & Eb & _).
    exists (trim_space a), u, v, u', v'. repeat split; auto. rewrite E. auto.
  - intros (core & w1 & w2 & w3 & w4 & H1 & H2 & H3 & H4 & -> & ->).
    destruct (trim_space_split core) as (u & v & Hu & Hv & E & Hi & Hi').
    assert (G : forall x y, blank x -> blank y -> trim_space (x ++ core ++ y) = trim_space core).
    { intros x y Hx Hy. rewrite E at 1.
      replace (x ++ (u ++ trim_space core ++ v) ++ y)%string with ((x ++ u) ++ trim_space core ++ (v ++ y))%string
        by (rewrite <- !sapp_assoc; auto).
      apply trim_unique; auto using blank_app. }
    rewrite !G; auto.
Qed.

(* ---------- attributes ---------- *)
Lemma equal_element_spec a b : single_valued a ->
  (equal_element a b = true <-> e_name a = e_name b /\ attrs_in b a).
Proof.
  intros Hs. unfold equal_element. rewrite andb_true_iff, xname_eqb_eq, forallb_forall. split; intros [H1 H2]; split; auto.
  - intros x Hx Hd. specialize (H2 x). rewrite filter_In in H2. rewrite Hd in H2. specialize (H2 (conj Hx eq_refl)).
    unfold attr_map in H2. destruct (find_last _ _) as [y|] eqn:E; [|discriminate].
    apply String.eqb_eq in H2. apply find_last_some in E as (l1 & l2 & E & Hf & _).
    apply xname_eqb_eq in Hf. assert (Hy : In y (filter (fun a0 => negb (is_decl a0)) (e_attrs a))) by (rewrite E; apply in_elt).
    apply filter_In in Hy as [Hy _]. destruct x, y; cbn in *; subst; auto.
  - intros x Hx. apply filter_In in Hx as [Hx Hd]. apply negb_true_iff in Hd.
    pose proof (H2 x Hx Hd) as Ha. unfold attr_map.
    destruct (find_last (fun a0 => xname_eqb (aname a0) (aname x)) (filter (fun a0 => negb (is_decl a0)) (e_attrs a))) as [y|] eqn:E.
    + apply find_last_some in E as (l1 & l2 & E & Hf & _). apply xname_eqb_eq in Hf.
      assert (Hy : In y (filter (fun a0 => negb (is_decl a0)) (e_attrs a))) by (rewrite E; apply in_elt).
      apply filter_In in Hy as [Hy Hyd]. apply negb_true_iff in Hyd. apply String.eqb_eq. apply Hs; auto.
    + exfalso. rewrite find_last_none in E. specialize (E x). rewrite filter_In, Hd, xname_eqb_refl in E. discriminate E. auto.
Qed.
Lemma equal_element_sound a b : equal_element a b = true -> e_name a = e_name b /\ attrs_in b a.
Proof.
  unfold equal_element. rewrite andb_true_iff, xname_eqb_eq, forallb_forall. intros [H1 H2]; split; auto.
  intros x Hx Hd. specialize (H2 x). rewrite filter_In in H2. rewrite Hd in H2. specialize (H2 (conj Hx eq_refl)).
  unfold attr_map in H2. destruct (find_last _ _) as [y|] eqn:E; [|discriminate].
  apply String.eqb_eq in H2. apply find_last_some in E as (l1 & l2 & E & Hf & _).
  apply xname_eqb_eq in Hf. assert (Hy : In y (filter (fun a0 => negb (is_decl a0)) (e_attrs a))) by (rewrite E; apply in_elt).
  apply filter_In in Hy as [Hy _]. destruct x, y; cbn in *; subst; auto.
Qed.

(* ---------- sorting ---------- *)
Section Sort.
  Variable sortp : list string -> list nat.
  Hypothesis Hsort : sorts_keys sortp.

  Definition pick {A} (l : list A) (i : nat) : list A := match nth_error l i with Some e => [e] | None => [] end.
  Lemma pick_seq {A} (l : list A) : flat_map (pick l) (seq 0 (List.length l)) = l.
  Proof.
    induction l as [|x l IH]; auto. cbn [List.length seq flat_map]. unfold pick at 1. cbn [nth_error app]. f_equal.
    rewrite <- seq_shift.
    assert (G : forall idx, flat_map (pick (x :: l)) (map S idx) = flat_map (pick l) idx).
    { induction idx as [|i idx IHs]; auto. cbn [map flat_map]. rewrite IHs. auto. }
    rewrite G. auto.
  Qed.
  Lemma Permutation_flat_map' {A B} (f : A -> list B) l l' : Permutation l l' -> Permutation (flat_map f l) (flat_map f l').
  Proof.
    induction 1; cbn; auto using Permutation_app.
    - rewrite !app_assoc. apply Permutation_app_tail, Permutation_app_comm.
    - eapply perm_trans; eauto.
  Qed.
  Lemma sort_perm l : Permutation l (sort_by_name sortp l).
  Proof.
    unfold sort_by_name. destruct (Hsort (map ekey l)) as [H _]. rewrite map_length in H.
    rewrite <- (pick_seq l) at 1. apply Permutation_flat_map'. auto.
  Qed.
  Lemma sort_keys l : map ekey (sort_by_name sortp l) = map (fun i => nth i (map ekey l) "") (sortp (map ekey l)).
  Proof.
    unfold sort_by_name. destruct (Hsort (map ekey l)) as [H _]. rewrite map_length in H.
    assert (Hb : forall i, In i (sortp (map ekey l)) -> i < List.length l).
    { intros i Hi. apply (Permutation_in _ (Permutation_sym H)) in Hi. apply in_seq in Hi. lia. }
    revert Hb. generalize (sortp (map ekey l)) as idx. induction idx as [|i idx IH]; intros Hb; auto.
    cbn [flat_map map]. rewrite map_app, IH by (intros; apply Hb; cbn; auto).
    destruct (nth_error l i) as [e|] eqn:E.
    - cbn [map app]. f_equal. apply nth_error_split in E as (l1 & l2 & -> & <-).
      rewrite map_app. cbn [map]. rewrite app_nth2 by (rewrite map_length; auto). rewrite map_length, Nat.sub_diag. auto.
    - apply nth_error_None in E. specialize (Hb i (or_introl eq_refl)). lia.
  Qed.
  Lemma sort_sorted l : Sorted (fun x y => s_leb x y = true) (map ekey (sort_by_name sortp l)).
  Proof. rewrite sort_keys. apply (proj2 (Hsort (map ekey l))). Qed.

  Lemma sort_aligned (R : elem -> elem -> Prop) l l' : Forall2 R l l' -> map ekey l = map ekey l' ->
    Forall2 R (sort_by_name sortp l) (sort_by_name sortp l').
  Proof.
    intros HF E. unfold sort_by_name. rewrite <- E. induction (sortp (map ekey l)) as [|i idx IH]; cbn; auto.
    apply Forall2_app; auto. clear - HF. revert i. induction HF as [|x y l l' Hxy H IH]; intros [|i]; cbn; auto.
  Qed.

  Lemma sorted_unique : forall l l' : list elem, Permutation l l' -> NoDup (map ekey l) ->
    StronglySorted (fun x y => s_leb x y = true) (map ekey l) -> StronglySorted (fun x y => s_leb x y = true) (map ekey l') -> l = l'.
  Proof.
    induction l as [|x l IH]; intros l' HP Hnd H1 H2.
    - apply Permutation_nil in HP. auto.
    - destruct l' as [|y l']; [symmetry in HP; apply Permutation_nil in HP; discriminate|].
      assert (x = y) as ->.
      { cbn [map] in *. inversion H1; inversion H2; subst. rewrite Forall_forall in *.
        assert (Hy : In y (x :: l)) by (eapply Permutation_in; [symmetry; eauto|cbn; auto]).
        assert (Hx : In x (y :: l')) by (eapply Permutation_in; [eauto|cbn; auto]).
        destruct Hy as [<-|Hy]; auto. destruct Hx as [<-|Hx]; auto. exfalso.
        assert (Exy : ekey x = ekey y) by (apply s_leb_antisym; auto using in_map).
        inversion Hnd as [|? ? Hni]; subst. apply Hni. rewrite Exy. apply in_map; auto. }
      f_equal. apply Permutation_cons_inv in HP. cbn [map] in *. inversion Hnd; inversion H1; inversion H2; subst. apply IH; auto.
  Qed.
  Lemma sort_unique l l' : Permutation l l' -> NoDup (map ekey l) -> sort_by_name sortp l = sort_by_name sortp l'.
  Proof.
    intros HP Hnd. assert (Ht : Relations_1.Transitive (fun x y => s_leb x y = true)).
    { intros x y z. apply s_leb_trans. }
    apply sorted_unique.
    - rewrite <- (sort_perm l), <- (sort_perm l'). auto.
    - eapply Permutation_NoDup; [apply Permutation_map, sort_perm|auto].
    - apply Sorted_StronglySorted; auto. apply sort_sorted.
    - apply Sorted_StronglySorted; auto. apply sort_sorted.
  Qed.

  (* ---------- the comparison ---------- *)
  Fixpoint eq_loop (f : elem -> elem -> bool * elem * elem) (la lb : list elem) : bool * list elem * list elem :=
    match la, lb with
    | x :: la', y :: lb' =>
        let '(r, x', y') := f x y in
        if r then let '(r', la'', lb'') := eq_loop f la' lb' in (r', x' :: la'', y' :: lb'')
        else (false, x' :: la', y' :: lb')
    | _, _ => (true, la, lb)
    end.
  Lemma equal_eq k a b : equal sortp (S k) a b =
    if negb (equal_element a b) then (false, a, b)
    else if negb (List.length (e_children a) =? List.length (e_children b)) then (false, a, b)
    else match e_children a with
         | [] => (String.eqb (trim_space (e_content a)) (trim_space (e_content b)), a, b)
         | _ => let '(r, la, lb) := eq_loop (equal sortp k) (sort_by_name sortp (e_children a)) (sort_by_name sortp (e_children b)) in
                (r, with_children a la, with_children b lb)
         end.
  Proof.
    cbn [equal]. destruct (negb (equal_element a b)); auto. destruct (negb _); auto.
    destruct (e_children a) as [|x l]; auto.
    assert (E : forall u' v', (fix loop (la lb : list elem) {struct la} : bool * list elem * list elem :=
                      match la, lb with
                      | x :: la', y :: lb' =>
                          let '(r, x', y') := equal sortp k x y in
                          if r then let '(r', la'', lb'') := loop la' lb' in (r', x' :: la'', y' :: lb'')
                          else (false, x' :: la', y' :: lb')
                      | _, _ => (true, la, lb)
                      end) u' v' = eq_loop (equal sortp k) u' v').
    { induction u' as [|p u' IH]; intros [|q v']; auto. cbn [eq_loop]. destruct (equal sortp k p q) as [[[] ?] ?]; auto.
      rewrite IH. auto. }
    rewrite E. auto.
  Qed.

  Lemma eq_loop_true f la lb :
    Forall2 (fun x y => fst (fst (f x y)) = true) la lb -> fst (fst (eq_loop f la lb)) = true.
  Proof.
    induction 1 as [|x y l l' Hxy H IH]; auto. cbn [eq_loop].
    destruct (f x y) as [[r x'] y']. cbn in Hxy. subst r.
    destruct (eq_loop f l l') as [[r' l1] l2]. cbn in *. auto.
  Qed.
  Lemma eq_loop_sound f : forall la lb, List.length la = List.length lb -> fst (fst (eq_loop f la lb)) = true ->
    Forall2 (fun x y => fst (fst (f x y)) = true) la lb.
  Proof.
    induction la as [|x la IH]; intros [|y lb] Hl H; try discriminate; auto. cbn [eq_loop] in H.
    destruct (f x y) as [[r x'] y'] eqn:E. destruct r; [|discriminate].
    constructor; [rewrite E; auto|]. apply IH; [cbn in Hl; lia|]. destruct (eq_loop f la lb) as [[r' l1] l2]. auto.
  Qed.

  Lemma agree_inv a b : agree a b -> exists l, e_name a = e_name b /\ attrs_in b a /\
    List.length (e_children a) = List.length (e_children b) /\
    (e_children a = [] -> same_text (e_content a) (e_content b)) /\
    Permutation (e_children b) l /\ Forall2 agree (e_children a) l.
  Proof. intros H. inversion H; subst. exists l. repeat split; auto. Qed.
  Lemma agree_key a b : agree a b -> ekey a = ekey b.
  Proof. intros H. apply agree_inv in H as (l & E & _). unfold ekey. rewrite E. auto. Qed.

  Lemma Forall2_map_eq {A B} (f : A -> B) (R : A -> A -> Prop) l l' :
    (forall x y, R x y -> f x = f y) -> Forall2 R l l' -> map f l = map f l'.
  Proof. intros H. induction 1; cbn; f_equal; auto. Qed.

  Lemma Forall2_impl_in {A B} (R R' : A -> B -> Prop) l l' :
    (forall x y, In x l -> In y l' -> R x y -> R' x y) -> Forall2 R l l' -> Forall2 R' l l'.
  Proof. intros H HF. induction HF; constructor; [apply H; cbn; auto|]. apply IHHF. intros; apply H; cbn; auto. Qed.

  Lemma everywhere_inv P e : everywhere P e -> P e /\ forall c, In c (e_children e) -> everywhere P c.
  Proof. intros H. inversion H; subst. auto. Qed.

  Lemma child_height c e : In c (e_children e) -> (eheight c + 1 <= eheight e)%N.
  Proof. destruct e as [n a s ct ch]. cbn [e_children]. intros H. apply (eheight_child c n a s ct). auto. Qed.

  Lemma equal_complete : forall k a b, agree a b -> everywhere single_valued a -> everywhere distinct_children a ->
    (eheight a < N.of_nat k)%N -> fst (fst (equal sortp k a b)) = true.
  Proof.
    induction k as [|k IH]; intros a b Hab Hs Hd Hk; [lia|].
    apply agree_inv in Hab as (l & H1 & H2 & H3 & H4 & H5 & H6).
    apply everywhere_inv in Hs as [Hs Hs']. apply everywhere_inv in Hd as [Hd Hd'].
    rewrite equal_eq. assert (equal_element a b = true) as -> by (apply equal_element_spec; auto).
    cbn [negb]. assert ((List.length (e_children a) =? List.length (e_children b)) = true) as -> by (apply Nat.eqb_eq; auto).
    cbn [negb]. destruct (e_children a) as [|x la] eqn:Ea.
    - cbn [fst]. apply String.eqb_eq, trim_same_text. auto.
    - rewrite <- Ea in *. assert (E : map ekey (e_children a) = map ekey l) by (eapply Forall2_map_eq; [apply agree_key|auto]).
      assert (HF : Forall2 agree (sort_by_name sortp (e_children a)) (sort_by_name sortp (e_children b))).
      { rewrite (sort_unique (e_children b) l); auto.
        - apply sort_aligned; auto.
        - unfold distinct_children in Hd. rewrite E in Hd. eapply Permutation_NoDup; [|exact Hd].
          apply Permutation_map. symmetry. auto. }
      destruct (eq_loop _ _ _) as [[r l1] l2] eqn:El. cbn [fst].
      change r with (fst (fst (r, l1, l2))). rewrite <- El. apply eq_loop_true; auto.
      eapply Forall2_impl_in; [|exact HF]. intros x' y Hx Hy Hxy.
      apply (Permutation_in _ (Permutation_sym (sort_perm _))) in Hx.
      apply IH; auto. pose proof (child_height _ _ Hx). lia.
  Qed.

  Lemma in_order_inv a b : agree_in_order a b -> e_name a = e_name b /\ attrs_in b a /\
    (e_children a = [] -> same_text (e_content a) (e_content b)) /\ Forall2 agree_in_order (e_children a) (e_children b).
  Proof. intros H. inversion H; subst. auto. Qed.
  Lemma F2_length {A B} (R : A -> B -> Prop) l l' : Forall2 R l l' -> List.length l = List.length l'.
  Proof. induction 1; cbn; auto. Qed.

  Lemma equal_in_order : forall k a b, agree_in_order a b -> everywhere single_valued a ->
    (eheight a < N.of_nat k)%N -> fst (fst (equal sortp k a b)) = true.
  Proof.
    induction k as [|k IH]; intros a b Hab Hs Hk; [lia|].
    apply in_order_inv in Hab as (H1 & H2 & H4 & H6).
    apply everywhere_inv in Hs as [Hs Hs'].
    rewrite equal_eq. assert (equal_element a b = true) as -> by (apply equal_element_spec; auto).
    cbn [negb]. assert ((List.length (e_children a) =? List.length (e_children b)) = true) as -> by (apply Nat.eqb_eq; eapply F2_length; eauto).
    cbn [negb]. destruct (e_children a) as [|x la] eqn:Ea.
    - cbn [fst]. apply String.eqb_eq, trim_same_text. auto.
    - rewrite <- Ea in *. assert (E : map ekey (e_children a) = map ekey (e_children b)).
      { eapply Forall2_map_eq; [|exact H6]. intros u v Huv. apply in_order_inv in Huv as (En & _). unfold ekey. rewrite En. auto. }
      assert (HF := sort_aligned _ _ _ H6 E).
      destruct (eq_loop _ _ _) as [[r l1] l2] eqn:El. cbn [fst].
      change r with (fst (fst (r, l1, l2))). rewrite <- El. apply eq_loop_true; auto.
      eapply Forall2_impl_in; [|exact HF]. intros x' y Hx Hy Hxy.
      apply (Permutation_in _ (Permutation_sym (sort_perm _))) in Hx.
      apply IH; auto. pose proof (child_height _ _ Hx). lia.
  Qed.

  Lemma perm_forall2 {A B} (R : A -> B -> Prop) l1 l1' : Permutation l1 l1' -> forall l2, Forall2 R l1 l2 ->
    exists l2', Permutation l2 l2' /\ Forall2 R l1' l2'.
  Proof.
    induction 1 as [|x l l' HP IH|x y l|l l' l'' H1 IH1 H2 IH2]; intros l2 HF.
    - inversion HF; subst. exists []. auto.
    - inversion HF as [|x' z l0 l3 Hxz HF']; subst. destruct (IH _ HF') as (l4 & Hp & HF4). exists (z :: l4). auto.
    - inversion HF as [|x' z l0 l3 Hxz HF']; subst. inversion HF' as [|x' z' l0' l4 Hxz' HF'']; subst.
      exists (z' :: z :: l4). split; [apply perm_swap|auto].
    - destruct (IH1 _ HF) as (l3 & Hp & HF3). destruct (IH2 _ HF3) as (l4 & Hp4 & HF4).
      exists l4. split; [eapply perm_trans; eauto|auto].
  Qed.

  Lemma equal_sound : forall k a b, fst (fst (equal sortp k a b)) = true -> agree a b /\ (eheight a < N.of_nat k)%N.
  Proof.
    induction k as [|k IH]; intros a b H; [discriminate|]. rewrite equal_eq in H.
    destruct (equal_element a b) eqn:E1; [|discriminate]. cbn [negb] in H.
    destruct (List.length (e_children a) =? List.length (e_children b)) eqn:E2; [|discriminate]. cbn [negb] in H.
    apply Nat.eqb_eq in E2. apply equal_element_sound in E1 as [En Ea].
    destruct (e_children a) as [|x la] eqn:Ec.
    - destruct (e_children b) as [|y lb] eqn:Eb; [|discriminate]. cbn [fst] in H. apply String.eqb_eq, trim_same_text in H. split.
      + apply ag with (l := []); auto; [rewrite Ec, Eb; auto|rewrite Eb; auto|rewrite Ec; auto].
      + destruct a as [n at_ s c ch]. cbn in Ec. subst ch. cbn. lia.
    - rewrite <- Ec in *.
      destruct (eq_loop (equal sortp k) (sort_by_name sortp (e_children a)) (sort_by_name sortp (e_children b))) as [[r l1] l2] eqn:El.
      cbn [fst] in H. subst r.
      assert (HF : Forall2 (fun x y => fst (fst (equal sortp k x y)) = true) (sort_by_name sortp (e_children a)) (sort_by_name sortp (e_children b))).
      { apply eq_loop_sound; [|rewrite El; auto].
        rewrite <- (Permutation_length (sort_perm _)), <- (Permutation_length (sort_perm _)). auto. }
      split.
      + destruct (perm_forall2 _ _ _ (Permutation_sym (sort_perm (e_children a))) _ HF) as (l & Hp & HF').
        apply ag with (l := l); auto.
        * intros E. rewrite E in Ec. discriminate.
        * rewrite <- Hp. apply sort_perm.
        * eapply Forall2_impl_in; [|exact HF']. intros u v _ _ Huv. apply IH in Huv as [? _]. auto.
      + assert (Hc : forall c, In c (e_children a) -> (eheight c < N.of_nat k)%N).
        { intros c Hc. apply (Permutation_in _ (sort_perm _)) in Hc.
          clear - HF Hc IH. induction HF as [|u v l l' Huv HF' IHF]; [destruct Hc|].
          destruct Hc as [<-|Hc]; auto. apply IH in Huv as [_ ?]. auto. }
        clear - Hc. destruct a as [n at_ s c ch]. cbn [e_children] in Hc. cbn [eheight].
        induction ch as [|y ch IHc]; cbn [fold_right]; [lia|].
        pose proof (Hc y ltac:(cbn; auto)).
        assert (fold_right (fun c0 h => N.max (1 + eheight c0) h) 0 ch < N.of_nat (S k))%N by (apply IHc; intros; apply Hc; cbn; auto). lia.
  Qed.

  (* ---------- side effects ---------- *)
  Lemma shuffled_refl e : shuffled e e.
  Proof.
    induction e as [n a s c ch IH] using elem_ind'. apply shuf with (l := ch); auto.
    induction ch; constructor; [apply IH; cbn; auto|]. apply IHch. intros; apply IH; cbn; auto.
  Qed.
  Lemma F2_refl {A} (R : A -> A -> Prop) l : (forall x, R x x) -> Forall2 R l l.
  Proof. intros H. induction l; constructor; auto. Qed.

  Lemma shuffled_children a l1 l2 : Permutation (e_children a) l1 -> Forall2 shuffled l1 l2 -> shuffled a (with_children a l2).
  Proof.
    intros HP HF. destruct (perm_forall2 _ _ _ (Permutation_sym HP) _ HF) as (l & Hp & HF').
    destruct a as [n at_ s c ch]. unfold with_children. cbn in *. apply shuf with (l := l); auto. symmetry; auto.
  Qed.

  Lemma equal_effect : forall k a b r a' b', equal sortp k a b = (r, a', b') -> shuffled a a' /\ shuffled b b'.
  Proof.
    induction k as [|k IH]; intros a b r a' b' H.
    - injection H as <- <- <-. split; apply shuffled_refl.
    - rewrite equal_eq in H. destruct (negb (equal_element a b)); [injection H as <- <- <-; split; apply shuffled_refl|].
      destruct (negb _); [injection H as <- <- <-; split; apply shuffled_refl|].
      destruct (e_children a) as [|x la] eqn:Ec; [injection H as <- <- <-; split; apply shuffled_refl|].
      rewrite <- Ec in *.
      destruct (eq_loop (equal sortp k) (sort_by_name sortp (e_children a)) (sort_by_name sortp (e_children b))) as [[r0 l1] l2] eqn:El.
      injection H as <- <- <-.
      assert (HF : Forall2 shuffled (sort_by_name sortp (e_children a)) l1 /\ Forall2 shuffled (sort_by_name sortp (e_children b)) l2).
      { revert r0 l1 l2 El. generalize (sort_by_name sortp (e_children a)) as la', (sort_by_name sortp (e_children b)) as lb.
        induction la' as [|u la' IHl]; intros lb r0 l1 l2 El.
        - destruct lb; injection El as <- <- <-; split; apply F2_refl, shuffled_refl.
        - destruct lb as [|v lb]; [injection El as <- <- <-; split; apply F2_refl, shuffled_refl|].
          cbn [eq_loop] in El. destruct (equal sortp k u v) as [[r1 u'] v'] eqn:Euv. apply IH in Euv as [Hu Hv].
          destruct r1.
          + destruct (eq_loop (equal sortp k) la' lb) as [[r2 l3] l4] eqn:El'. injection El as <- <- <-.
            apply IHl in El' as [? ?]. split; constructor; auto.
          + injection El as <- <- <-. split; constructor; auto; apply F2_refl, shuffled_refl. }
      destruct HF as [HF1 HF2]. split; eapply shuffled_children; eauto using sort_perm.
  Qed.
End Sort.

(* ---------- a sorting function ---------- *)
Definition sortp0 (ks : list string) : list nat :=
  map fst (isort_by snd (combine (seq 0 (List.length ks)) ks)).

Lemma map_fst_combine {A B} : forall (l : list A) (l' : list B), List.length l = List.length l' -> map fst (combine l l') = l.
Proof. induction l as [|x l IH]; intros [|y l'] H; try discriminate; cbn; auto. f_equal. auto. Qed.
Lemma in_combine_seq : forall (ks : list string) m i k, In (i, k) (combine (seq m (List.length ks)) ks) -> m <= i /\ nth (i - m) ks "" = k.
Proof.
  induction ks as [|y ks IH]; intros m i k H; [destruct H|]. cbn [List.length seq combine] in H.
  destruct H as [[= <- <-]|H]; [rewrite Nat.sub_diag; auto|].
  destruct (IH _ _ _ H). split; [lia|]. replace (i - m) with (S (i - S m)) by lia. auto.
Qed.
Lemma sortp0_sorts : sorts_keys sortp0.
Proof.
  intros ks. unfold sortp0. set (ps := combine (seq 0 (List.length ks)) ks).
  assert (HP : Permutation ps (isort_by snd ps)) by apply isort_by_perm. split.
  - rewrite <- HP. unfold ps. rewrite map_fst_combine by (rewrite seq_length; auto). auto.
  - rewrite map_map.
    assert (E : map (fun x => nth (fst x) ks "") (isort_by snd ps) = map snd (isort_by snd ps)).
    { apply map_ext_in. intros [i k] Hi. apply (Permutation_in _ (Permutation_sym HP)) in Hi. cbn.
      destruct (in_combine_seq _ _ _ _ Hi) as [_ G']. rewrite Nat.sub_0_r in G'. auto. }
    rewrite E. pose proof (isort_by_sorted snd ps) as Hs. clear - Hs.
    induction Hs as [|p l Hs IH Hh]; cbn; constructor; auto. destruct l; constructor. inversion Hh; subst. auto.
Qed.

(* ---------- statements about Equal ---------- *)
Section Top.
  Variable sortp : list string -> list nat.
  Hypothesis Hsort : sorts_keys sortp.

  Lemma Equal_unordered a b : agree a b -> everywhere single_valued a -> everywhere distinct_children a ->
    (eheight a <= 1000)%N -> Equal sortp a b = true.
  Proof. intros. unfold Equal, equal_top. apply equal_complete; auto. lia. Qed.
  Lemma Equal_ordered a b : agree_in_order a b -> everywhere single_valued a -> (eheight a <= 1000)%N -> Equal sortp a b = true.
  Proof. intros. unfold Equal, equal_top. apply equal_in_order; auto. lia. Qed.
  Lemma Equal_sound a b : Equal sortp a b = true -> agree a b /\ (eheight a <= 1000)%N.
  Proof. intros H. apply equal_sound in H as [? ?]; auto. split; auto. lia. Qed.

  Lemma same_text_refl s : same_text s s.
  Proof. exists s, "", "", "", "". repeat split; try constructor; rewrite sapp_nil_r; auto. Qed.
  Lemma in_order_refl e : agree_in_order e e.
  Proof.
    induction e as [n a s c ch IH] using elem_ind'. constructor; auto.
    - intros x; auto.
    - intros _. apply same_text_refl.
    - cbn [e_children]. induction ch; constructor; [apply IH; cbn; auto|]. apply IHch. intros; apply IH; cbn; auto.
  Qed.
  Lemma Equal_refl a : everywhere single_valued a -> (eheight a <= 1000)%N -> Equal sortp a a = true.
  Proof. intros. apply Equal_ordered; auto. apply in_order_refl. Qed.
  Lemma Equal_deep a b : (1000 < eheight a)%N -> Equal sortp a b = false.
  Proof. intros H. destruct (Equal sortp a b) eqn:E; auto. apply Equal_sound in E as [_ ?]. lia. Qed.

  Lemma sortp_two k : sortp [k; k] = [0; 1] \/ sortp [k; k] = [1; 0].
  Proof.
    destruct (Hsort [k; k]) as [H _]. cbn in H.
    pose proof (Permutation_length H) as Hl. destruct (sortp [k; k]) as [|i [|j [|]]]; try discriminate Hl.
    assert (Hi : In i [0; 1]) by (eapply Permutation_in; [symmetry; eauto|cbn; auto]).
    assert (Hj : In j [0; 1]) by (eapply Permutation_in; [symmetry; eauto|cbn; auto]).
    assert (Hn : NoDup [i; j]) by (eapply Permutation_NoDup; [eauto|repeat constructor; cbn; intuition congruence]).
    inversion Hn as [|? ? Hni]; subst. cbn in Hi, Hj, Hni. intuition (subst; auto; congruence).
  Qed.
End Top.

Definition leafe (n c : string) := Elem (mkName "" n) [] [] c [].
Definition twice1 := Elem (mkName "" "r") [] [] "" [leafe "x" "1"; leafe "x" "2"].
Definition twice2 := Elem (mkName "" "r") [] [] "" [leafe "x" "2"; leafe "x" "1"].
Lemma twice_agree : agree twice1 twice2 /\ everywhere single_valued twice1.
Proof.
  assert (L : forall n c, agree (leafe n c) (leafe n c)).
  { intros. apply ag with (l := []); cbn; auto; [intros x []|]. intros _. apply same_text_refl. }
  split.
  - apply ag with (l := [leafe "x" "1"; leafe "x" "2"]); cbn; auto; [intros x []|discriminate|]. apply perm_swap.
  - repeat (constructor; [intros x y []|cbn; intros c Hc; repeat (destruct Hc as [<-|Hc]); try (destruct Hc; fail)]).
Qed.
Lemma order_sensitive sortp : sorts_keys sortp -> Equal sortp twice1 twice2 = false.
Proof.
  intros H. unfold Equal, equal_top. replace (N.to_nat 1001) with (S (S (N.to_nat 999))) by lia.
  generalize (N.to_nat 999) as k. intros k. rewrite equal_eq. cbn [e_children twice1 twice2].
  unfold sort_by_name. cbn [map leafe ekey e_name nspace nlocal append].
  destruct (sortp_two sortp H "x") as [-> | ->]; vm_compute; reflexivity.
Qed.

Definition attr_a := Elem (mkName "" "r") [mkAttr (mkName "" "k") "1"] [] "" [].
Definition attr_b := Elem (mkName "" "r") [] [] "" [].
Lemma not_symmetric sortp : Equal sortp attr_a attr_b = true /\ Equal sortp attr_b attr_a = false.
Proof.
  unfold Equal, equal_top. replace (N.to_nat 1001) with (S (N.to_nat 1000)) by lia. generalize (N.to_nat 1000).
  intros k. split; vm_compute; reflexivity.
Qed.
Definition attr_dup := Elem (mkName "" "r") [mkAttr (mkName "" "k") "1"; mkAttr (mkName "" "k") "2"] [] "" [].
Lemma dup_not_reflexive sortp : Equal sortp attr_dup attr_dup = false.
Proof.
  unfold Equal, equal_top. replace (N.to_nat 1001) with (S (N.to_nat 1000)) by lia. generalize (N.to_nat 1000).
  intros k. vm_compute; reflexivity.
Qed.
(* two names with the same Space+Local *)
Definition amb1 := Elem (mkName "" "r") [] [] "" [Elem (mkName "a" "bc") [] [] "" []; Elem (mkName "ab" "c") [] [] "" []].
Definition amb2 := Elem (mkName "" "r") [] [] "" [Elem (mkName "ab" "c") [] [] "" []; Elem (mkName "a" "bc") [] [] "" []].
Lemma ambiguous_key sortp : sorts_keys sortp -> Equal sortp amb1 amb2 = false.
Proof.
  intros H. unfold Equal, equal_top. replace (N.to_nat 1001) with (S (S (N.to_nat 999))) by lia.
  generalize (N.to_nat 999) as k. intros k. rewrite equal_eq. cbn [e_children amb1 amb2].
  unfold sort_by_name. cbn [map ekey e_name nspace nlocal append].
  destruct (sortp_two sortp H "abc") as [-> | ->]; vm_compute; reflexivity.
Qed.
Lemma amb_agree : agree amb1 amb2 /\ NoDup (map e_name (e_children amb1)).
Proof.
  split.
  - apply ag with (l := e_children amb1); cbn; auto; [intros x []|discriminate|apply perm_swap|].
    repeat constructor; try (intros x []); cbn; try (intros _; apply same_text_refl);
      (apply ag with (l := []); cbn; auto; [intros x []|intros _; apply same_text_refl]).
  - cbn. repeat constructor; cbn; intuition congruence.
Qed.

Lemma repeated_names_order : exists a b, agree a b /\ everywhere single_valued a /\
  forall sortp, sorts_keys sortp -> Equal sortp a b = false.
Proof. exists twice1, twice2. destruct twice_agree. split; [auto|]. split; [auto|]. exact order_sensitive. Qed.
Lemma joined_key : exists a b, agree a b /\ NoDup (map e_name (e_children a)) /\
  forall sortp, sorts_keys sortp -> Equal sortp a b = false.
Proof. exists amb1, amb2. destruct amb_agree. split; [auto|]. split; [auto|]. exact ambiguous_key. Qed.
Lemma asymmetric : exists a b, forall sortp, Equal sortp a b = true /\ Equal sortp b a = false.
Proof. exists attr_a, attr_b. exact not_symmetric. Qed.
Lemma repeated_attribute : exists a, eheight a = 0%N /\ forall sortp, Equal sortp a a = false.
Proof. exists attr_dup. split; [reflexivity|]. exact dup_not_reflexive. Qed.
