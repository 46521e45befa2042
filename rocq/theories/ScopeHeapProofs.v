From Verif Require Import Base ScopeHeap.

Lemma list_upd_length {A} (l : list A) i x : List.length (list_upd l i x) = List.length l.
Proof. revert i; induction l; intros [|i]; cbn; auto. Qed.

Lemma list_upd_nth {A} (l : list A) i x d : forall j,
  nth j (list_upd l i x) d = if (j =? i) && (i <? List.length l) then x else nth j l d.
Proof.
  revert i; induction l as [|a l IH]; intros i j.
  - cbn. replace (i <? 0) with false by (symmetry; apply Nat.ltb_ge; lia). rewrite andb_false_r. destruct i; auto.
  - destruct i; cbn [list_upd].
    + destruct j; cbn [nth]; [reflexivity|]. reflexivity.
    + destruct j; cbn [nth]; [reflexivity|]. rewrite IH. reflexivity.
Qed.

Lemma list_upd_same {A} (l : list A) i d : list_upd l i (nth i l d) = l.
Proof. revert i; induction l as [|a l IH]; intros [|i]; cbn; auto. f_equal; auto. Qed.

Lemma list_upd_map {A B} (f : A -> B) l i x : map f (list_upd l i x) = list_upd (map f l) i (f x).
Proof. revert i; induction l as [|a l IH]; intros [|i]; cbn; auto. f_equal; auto. Qed.

Section P.
  Variable grow : nat -> nat -> nat.

  Record hinv (st : state) (taint : list bool) (vt : list (list xname)) : Prop := {
    hi_len : List.length (st_tab st) = List.length taint;
    hi_obs : observe st = vt;
    hi_arr : forall s, In s (st_tab st) -> h_arr s < List.length (st_heap st);
    hi_fit : forall s, In s (st_tab st) -> h_len s <= List.length (arr_get (st_heap st) (h_arr s));
    hi_ne : 0 < List.length (st_heap st);
    hi_clip : forall i, i < List.length taint -> nth i taint true = false ->
              h_cap (get st i) = h_len (get st i);
  }.

  Lemma arr_get_app hp x a : a < List.length hp -> arr_get (hp ++ [x]) a = arr_get hp a.
  Proof. intros H. unfold arr_get. apply app_nth1; auto. Qed.

  Lemma contents_app hp x s : h_arr s < List.length hp -> contents (hp ++ [x]) s = contents hp s.
  Proof. intros H. unfold contents. rewrite arr_get_app; auto. Qed.

  Lemma contents_len hp s : h_len s <= List.length (arr_get hp (h_arr s)) -> List.length (contents hp s) = h_len s.
  Proof. intros H. unfold contents. rewrite firstn_length. lia. Qed.

  (* append onto a full slice never touches existing arrays *)
  Lemma append_full hp s xs : h_cap s = h_len s -> h_arr s < List.length hp ->
    h_len s <= List.length (arr_get hp (h_arr s)) ->
    exists hp' s', go_append grow hp s xs = (hp', s') /\
      (hp' = hp \/ exists x, hp' = hp ++ [x]) /\
      contents hp' s' = contents hp s ++ xs /\
      h_arr s' < List.length hp' /\ h_len s' <= List.length (arr_get hp' (h_arr s')).
  Proof.
    intros Hc Ha Hf. unfold go_append.
    destruct (h_len s + List.length xs <=? h_cap s) eqn:E.
    - assert (xs = []) as -> by (destruct xs; auto; cbn in E; lia).
      cbn [write_at]. unfold arr_get at 1. rewrite list_upd_same.
      eexists _, _. split; [reflexivity|]. split; [auto|]. cbn [List.length]. rewrite Nat.add_0_r, app_nil_r.
      unfold contents. cbn. auto.
    - eexists _, _. split; [reflexivity|]. split; [eauto|].
      assert (Hn : arr_get (hp ++ [contents hp s ++ xs ++ repeat zero_name
            (grow (h_cap s) (h_len s + List.length xs) - (h_len s + List.length xs))]) (List.length hp)
          = contents hp s ++ xs ++ repeat zero_name
            (grow (h_cap s) (h_len s + List.length xs) - (h_len s + List.length xs))).
      { unfold arr_get. rewrite app_nth2 by lia. rewrite Nat.sub_diag. auto. }
      split.
      + unfold contents at 1. cbn [h_len h_arr]. rewrite Hn.
        rewrite app_assoc. rewrite firstn_app.
        assert (Hl : List.length (contents hp s ++ xs) = h_len s + List.length xs)
          by (rewrite app_length, contents_len; auto).
        rewrite Hl, Nat.sub_diag. rewrite <- Hl at 1. rewrite firstn_all. cbn. apply app_nil_r.
      + cbn [h_len h_arr]. split; [rewrite app_length; cbn; lia|].
        rewrite Hn. rewrite !app_length, contents_len; auto. lia.
  Qed.

  Lemma get_in st i : i < List.length (st_tab st) -> In (get st i) (st_tab st).
  Proof. intros H. unfold get. apply nth_In; auto. Qed.

  Lemma obs_nth st i : i < List.length (st_tab st) ->
    nth i (observe st) [] = contents (st_heap st) (get st i).
  Proof.
    intros H. unfold observe, get.
    rewrite (nth_indep _ [] (contents (st_heap st) nil_hdr)) by (rewrite map_length; auto).
    apply map_nth.
  Qed.

  Lemma obs_grow st hp' : (hp' = st_heap st \/ exists x, hp' = st_heap st ++ [x]) ->
    (forall s, In s (st_tab st) -> h_arr s < List.length (st_heap st)) ->
    map (contents hp') (st_tab st) = observe st /\
    (forall s, In s (st_tab st) -> arr_get hp' (h_arr s) = arr_get (st_heap st) (h_arr s)) /\
    List.length (st_heap st) <= List.length hp'.
  Proof.
    intros [->|[x ->]] H; [auto|]. split; [|split].
    - apply map_ext_in. intros s Hs. apply contents_app; auto.
    - intros s Hs. apply arr_get_app; auto.
    - rewrite app_length; lia.
  Qed.

  Lemma nth_app_last {A} (l : list A) x d : nth (List.length l) (l ++ [x]) d = x.
  Proof. rewrite app_nth2 by lia. rewrite Nat.sub_diag. auto. Qed.

  (* adding one scope value at the end of the table *)
  Lemma hinv_snoc st taint vt hp' s b :
    hinv st taint vt ->
    (hp' = st_heap st \/ exists x, hp' = st_heap st ++ [x]) ->
    h_arr s < List.length hp' -> h_len s <= List.length (arr_get hp' (h_arr s)) ->
    (b = false -> h_cap s = h_len s) ->
    hinv (mkState hp' (st_tab st ++ [s])) (taint ++ [b]) (vt ++ [contents hp' s]).
  Proof.
    intros [H1 H2 H3 H4 H5 H6] Hg Ha Hf Hb.
    destruct (obs_grow st hp' Hg H3) as (G1 & G2 & G3).
    constructor; cbn [st_tab st_heap].
    - rewrite !app_length; cbn; lia.
    - unfold observe. cbn. rewrite map_app. cbn. rewrite G1. congruence.
    - intros x Hx. apply in_app_iff in Hx as [Hx|[<-|[]]]; auto. apply H3 in Hx; lia.
    - intros x Hx. apply in_app_iff in Hx as [Hx|[<-|[]]]; auto. rewrite G2; auto.
    - lia.
    - intros i Hi Hn. unfold get. cbn. rewrite app_length in Hi. cbn in Hi.
      destruct (Nat.eq_dec i (List.length taint)) as [->|Hne].
      + rewrite nth_app_last in Hn. rewrite <- H1, nth_app_last. auto.
      + rewrite app_nth1 in Hn by lia. rewrite app_nth1 by lia. apply H6; auto. lia.
  Qed.

  Lemma hinv_step_safe : forall ops st taint vt,
    hinv st taint vt -> safe_from taint ops = true ->
    exists taint', hinv (fold_left (step grow) ops st) taint' (fold_left vstep ops vt).
  Proof.
    induction ops as [|o ops IH]; intros st taint vt Hi Hs; [exists taint; auto|].
    pose proof Hi as [H1 H2 H3 H4 H5 H6].
    destruct o as [|i|i decls|i j]; cbn [safe_from] in Hs; cbn [fold_left].
    - eapply IH; [|exact Hs].
      cbn [step vstep]. change (@nil xname) with (contents (st_heap st) nil_hdr) at 1.
      apply hinv_snoc; auto; cbn; try lia.
    - apply andb_true_iff in Hs as [Hl Hs]. apply Nat.ltb_lt in Hl.
      assert (Hin : In (get st i) (st_tab st)) by (apply get_in; lia).
      eapply IH; [|exact Hs].
      cbn [step vstep]. rewrite <- H2. rewrite obs_nth by lia. rewrite H2.
      apply hinv_snoc; auto.
    - apply andb_true_iff in Hs as [Hl Hs]. apply andb_true_iff in Hl as [Hl Ht].
      apply Nat.ltb_lt in Hl. apply negb_true_iff in Ht.
      assert (Hin : In (get st i) (st_tab st)) by (apply get_in; lia).
      eapply IH; [|exact Hs]. cbn [step vstep].
      destruct (0 <? List.length decls) eqn:Ed.
      2:{ assert (decls = []) as -> by (destruct decls; auto; cbn in Ed; discriminate).
          rewrite app_nil_r, list_upd_same. auto. }
      destruct (append_full (st_heap st) (get st i) decls) as (hp' & s' & E & Hg & Hc & Ha & Hf); auto.
      rewrite E. destruct (obs_grow st hp' Hg H3) as (G1 & G2 & G3).
      constructor; cbn [st_tab st_heap].
      + rewrite list_upd_length; auto.
      + unfold observe. cbn. rewrite list_upd_map, G1, H2. f_equal.
        transitivity (contents hp' s'); [reflexivity|]. rewrite Hc, <- H2, obs_nth by lia. auto.
      + intros x Hx. apply In_nth with (d := nil_hdr) in Hx as (k & Hk & <-).
        rewrite list_upd_length in Hk. rewrite list_upd_nth.
        destruct ((k =? i) && (i <? List.length (st_tab st))); cbn; auto.
        assert (h_arr (nth k (st_tab st) nil_hdr) < List.length (st_heap st)) by (apply H3, nth_In; auto). lia.
      + intros x Hx. apply In_nth with (d := nil_hdr) in Hx as (k & Hk & <-).
        rewrite list_upd_length in Hk. rewrite list_upd_nth.
        destruct ((k =? i) && (i <? List.length (st_tab st))); cbn; auto.
        rewrite G2 by (apply nth_In; auto). apply H4, nth_In; auto.
      + lia.
      + intros k Hk Hn. unfold get. cbn. rewrite list_upd_nth.
        destruct ((k =? i) && (i <? List.length (st_tab st))); cbn; auto. apply H6; auto.
    - apply andb_true_iff in Hs as [Hl Hs]. apply andb_true_iff in Hl as [Hl Ht].
      apply andb_true_iff in Hl as [Hl1 Hl2].
      apply Nat.ltb_lt in Hl1, Hl2. apply negb_true_iff in Ht.
      assert (Hin : In (get st i) (st_tab st)) by (apply get_in; lia).
      eapply IH; [|exact Hs]. cbn [step vstep].
      destruct (append_full (st_heap st) (get st i) (contents (st_heap st) (get st j)))
        as (hp' & s' & E & Hg & Hc & Ha & Hf); auto.
      rewrite E. rewrite <- H2, !obs_nth by lia. rewrite H2. rewrite <- Hc.
      apply hinv_snoc; auto. discriminate.
  Qed.

  Lemma run_refines ops : safe ops = true -> observe (run grow ops) = vrun ops.
  Proof.
    intros Hs.
    destruct (hinv_step_safe ops (mkState [[]] []) [] []) as [t' H]; auto.
    - constructor; cbn; auto; try tauto; lia.
    - apply H.
  Qed.

  Lemma safe_from_app t ops1 ops2 : safe_from t (ops1 ++ ops2) = true -> safe_from t ops1 = true.
  Proof.
    revert t; induction ops1 as [|[|i|i d|i j] ops1 IH]; cbn; intros t; auto.
    - rewrite !andb_true_iff. intros [? ?]; auto.
    - rewrite !andb_true_iff. intros [? ?]; auto.
    - rewrite !andb_true_iff. intros [? ?]; auto.
  Qed.

  Lemma vstep_keeps tab o k : (forall d, o <> OPush k d) -> k < List.length tab ->
    nth k (vstep tab o) [] = nth k tab [] /\ k < List.length (vstep tab o).
  Proof.
    intros Ho Hk. destruct o as [|i|i d|i j]; cbn.
    - rewrite app_nth1, app_length by auto. split; auto; lia.
    - rewrite app_nth1, app_length by auto. split; auto; lia.
    - rewrite list_upd_nth, list_upd_length. split; auto.
      destruct (k =? i) eqn:E; auto. apply Nat.eqb_eq in E; subst. exfalso; eapply Ho; eauto.
    - rewrite app_nth1, app_length by auto. split; auto; lia.
  Qed.

  (* the headline: a captured scope k never changes unless it is itself pushed to *)
  Lemma captured_stable ops1 ops2 k :
    safe (ops1 ++ ops2) = true -> k < List.length (observe (run grow ops1)) ->
    (forall d, ~ In (OPush k d) ops2) ->
    nth k (observe (run grow (ops1 ++ ops2))) [] = nth k (observe (run grow ops1)) [].
  Proof.
    intros Hs Hk Hn. rewrite (run_refines _ Hs), (run_refines ops1 (safe_from_app _ _ _ Hs)) in *.
    unfold vrun in *. rewrite fold_left_app. revert Hk Hn. generalize (fold_left vstep ops1 []).
    clear Hs. induction ops2 as [|o ops2 IH]; intros tab Hk Hn; [reflexivity|]. cbn [fold_left].
    destruct (vstep_keeps tab o k) as [E El]; auto.
    { intros d ->. apply (Hn d); cbn; auto. }
    rewrite IH; auto. intros d Hd. apply (Hn d); cbn; auto.
  Qed.
End P.

(* growth rule of append below 1024 elements, before rounding up to a size class *)
Definition double (oldcap need : nat) := Nat.max (2 * oldcap) need.

Lemma join_clobbers :
  exists ops, nth 4 (observe (run double ops)) [] <> nth 4 (vrun ops) [] /\ safe ops = false.
Proof.
  exists [ONew; OPush 0 [mkName "u1" "a"; mkName "u2" "b"];
          ONew; OPush 1 [mkName "v" "x"];
          ONew; OPush 2 [mkName "w" "y"];
          OJoin 0 1;   (* 3: len 3, cap 4 *)
          OJoin 3 1;   (* 4: writes the spare cell *)
          OJoin 3 2].  (* 5: overwrites it *)
  vm_compute. split; [discriminate|reflexivity].
Qed.
