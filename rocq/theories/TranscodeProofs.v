From Verif Require Import Base ScopeModel TreeModel ParseModel ParseSpec ParseProofs DecodeModel TranscodeModel TranscodeSpec.

Lemma zeros_length p : String.length (zeros p) = p.
Proof.
  unfold zeros. rewrite <- (seq_length p 0) at 2. induction (seq 0 p) as [|x l IH]; cbn; auto.
Qed.
Lemma substring_app_r a b n : forall m, substring (String.length a + n) m (a ++ b)%string = substring n m b.
Proof. induction a as [|c a IH]; intros m; cbn; auto. Qed.
Lemma slice_zeros p u b t : slice (zeros p ++ u) (p + b) (p + t) = slice u b t.
Proof.
  unfold slice. rewrite slen_app, zeros_length.
  assert ((p + b <=? p + t) = (b <=? t)) as -> by (destruct (Nat.leb_spec b t), (Nat.leb_spec (p + b) (p + t)); auto; lia).
  assert ((p + t <=? p + String.length u) = (t <=? String.length u)) as ->
    by (destruct (Nat.leb_spec t (String.length u)), (Nat.leb_spec (p + t) (p + String.length u)); auto; lia).
  replace (p + t - (p + b)) with (t - b) by lia.
  destruct ((b <=? t) && (t <=? String.length u)); auto.
  rewrite <- (zeros_length p) at 1. rewrite substring_app_r. auto.
Qed.
Lemma slice_cons x u b t : slice (String x u) (S b) (S t) = slice u b t.
Proof. reflexivity. Qed.

Section Shift.
  Variable sortns : list xname -> list xname.
  Variable p : nat.
  Variable x : ascii.
  Variable u : string.
  Let data := (zeros p ++ String x u)%string.

  Lemma slice_prev b t c : slice u b t = Some c -> exists c', slice data (p + b) (p + t) = Some c' /\
    slice (String x u) b t = Some c'.
  Proof.
    unfold data. rewrite slice_zeros. intros H. unfold slice in *. cbn [String.length].
    destruct ((b <=? t) && (t <=? String.length u)) eqn:E; [|discriminate].
    assert ((b <=? t) && (t <=? S (String.length u)) = true) as ->.
    { apply andb_true_iff in E as [E1 E2]. rewrite E1. apply Nat.leb_le in E2. cbn. apply Nat.leb_le. lia. }
    eauto.
  Qed.

  Lemma body_shift : forall fuel n a sc b e ch ch' dp ts, Forall2 (off_by_one (String x u)) ch ch' ->
    match body sortns u fuel n a sc b e ch' dp ts with
    | POk el' off rest => exists el,
        body sortns data fuel n a sc (p + b) (p + e) ch dp (shift_stream p ts) = POk el (p + off) (shift_stream p rest) /\
        off_by_one (String x u) el el'
    | PErr EPanic => True
    | PErr err => body sortns data fuel n a sc (p + b) (p + e) ch dp (shift_stream p ts) = PErr err
    end.
  Proof.
    induction fuel as [|fuel IH]; intros n a sc b e ch ch' dp ts HF; cbn [body]; auto.
    destruct ts as [|[t o] ts]; cbn [shift_stream map]; auto. cbn [fst snd]. destruct t as [n' a'|n'|].
    - destruct (recursionLimit <? dp + 1)%N; auto.
      specialize (IH n' (attrs_of a') (push_ns sortns sc a') o o [] [] (dp + 1)%N ts ltac:(constructor)) as IH1.
      fold (shift_stream p ts).
      destruct (body sortns u fuel n' (attrs_of a') (push_ns sortns sc a') o o [] (dp + 1)%N ts) as [el' off rest|err].
      + destruct IH1 as (el & -> & Hel). apply IH. apply Forall2_app; auto.
      + destruct err; auto; rewrite IH1; auto.
    - destruct (xname_eqb n' n); auto. destruct (slice u b e) as [c|] eqn:E; auto.
      destruct (slice_prev _ _ _ E) as (c' & -> & E'). eexists. split; [reflexivity|].
      apply obo with (b := b) (t := e); auto.
    - apply IH; auto.
  Qed.

  Lemma parse_shift : forall ts,
    match parse sortns u ts with
    | POk el' off rest => exists el,
        parse sortns data (shift_stream p ts) = POk el (p + off) (shift_stream p rest) /\ off_by_one (String x u) el el'
    | PErr EPanic => True
    | PErr err => parse sortns data (shift_stream p ts) = PErr err
    end.
  Proof.
    induction ts as [|[t o] ts IH]; cbn [parse shift_stream map]; auto. destruct t; cbn [fst snd]; auto.
    pose proof (body_shift (S (List.length ts)) name (attrs_of attrs) (push_ns sortns [] attrs) o o [] [] 0%N ts ltac:(constructor)) as H.
    unfold shift_stream in *. rewrite map_length. auto.
  Qed.
End Shift.

Lemma transcoded_content sortns p x u el' off rest :
  parse sortns u (decode u) = POk el' off rest ->
  exists el, parse_transcoded sortns p (String x u) = POk el (p + off) (shift_stream p rest) /\
             off_by_one (String x u) el el'.
Proof. intros H. pose proof (parse_shift sortns p x u (decode u)) as G. rewrite H in G. auto. Qed.
Lemma transcoded_error sortns p x u err :
  parse sortns u (decode u) = PErr err -> err <> EPanic -> parse_transcoded sortns p (String x u) = PErr err.
Proof. intros H He. pose proof (parse_shift sortns p x u (decode u)) as G. rewrite H in G. destruct err; auto; congruence. Qed.

(* ---------- the copy ---------- *)
Lemma skipn_skipn {A} (l : list A) : forall n m, skipn n (skipn m l) = skipn (m + n) l.
Proof. induction l as [|x l IH]; intros n m; [rewrite !skipn_nil; auto|]. destruct m; cbn [skipn Nat.add]; auto. Qed.
Section Copy.
  Variable dec : ascii -> list ascii.
  Hypothesis dec_size : forall c, 1 <= List.length (dec c) <= 4.

  Definition content (st : copy_state) : list ascii :=
    match out st with Some o => o | None => firstn (wpos st) (mem st) end.
  Definition unread (st : copy_state) : list ascii := skipn (rpos st) (mem st).
  Definition todo (st : copy_state) : list ascii := dst st ++ transcode dec (src st) ++ transcode dec (unread st).

  Definition safe (st : copy_state) : Prop :=
    (out st = None -> wpos st <= List.length (mem st)) /\ rpos st <= List.length (mem st) /\
    (out st <> None \/ rpos st = List.length (mem st) \/
     (wpos st + List.length (dst st) + List.length (transcode dec (src st)) <= rpos st /\
      forall c, In c (unread st) -> List.length (dec c) = 1)).

  Lemma convert_split room l : let (d, r) := convert dec room l in d ++ transcode dec r = transcode dec l.
  Proof.
    revert room. induction l as [|c l IH]; intros room; cbn [convert]; auto.
    destruct (_ <=? room)%N; auto. specialize (IH (room - N.of_nat (List.length (dec c)))%N).
    destruct (convert dec _ l) as [d r]. unfold transcode in *. cbn [flat_map]. rewrite <- app_assoc, IH. auto.
  Qed.
  Lemma convert_progress l : l <> [] -> fst (convert dec chunk l) <> [].
  Proof.
    destruct l as [|c l]; [congruence|]. intros _. cbn [convert]. pose proof (dec_size c) as H.
    assert ((N.of_nat (List.length (dec c)) <=? chunk)%N = true) as -> by (unfold chunk; lia).
    destruct (convert dec _ l) as [d r]. cbn. destruct (dec c); cbn in *; [lia|discriminate].
  Qed.
  Lemma overwrite_length m k l : k + List.length l <= List.length m -> List.length (overwrite m k l) = List.length m.
  Proof. intros H. unfold overwrite. rewrite !app_length, firstn_length, skipn_length. lia. Qed.
  Lemma overwrite_prefix m k l : k <= List.length m -> firstn (k + List.length l) (overwrite m k l) = firstn k m ++ l.
  Proof.
    intros H. unfold overwrite. rewrite app_assoc, firstn_app.
    assert (E : List.length (firstn k m ++ l) = k + List.length l) by (rewrite app_length, firstn_length; lia).
    rewrite E, Nat.sub_diag. cbn [firstn]. rewrite app_nil_r, <- E. apply firstn_all.
  Qed.
  Lemma overwrite_suffix m k l r : k + List.length l <= r -> r <= List.length m -> skipn r (overwrite m k l) = skipn r m.
  Proof.
    intros H H'. unfold overwrite. rewrite app_assoc, skipn_app.
    assert (E : List.length (firstn k m ++ l) = k + List.length l) by (rewrite app_length, firstn_length; lia).
    rewrite skipn_all2 by lia. rewrite E. cbn [app].
    rewrite skipn_skipn. f_equal. lia.
  Qed.

  Lemma skipn_firstn_more {A} (l : list A) r k : firstn k (skipn r l) ++ skipn (Nat.min (r + k) (List.length l)) l = skipn r l.
  Proof.
    rewrite <- (firstn_skipn k (skipn r l)) at 2. f_equal. rewrite skipn_skipn.
    destruct (Nat.le_gt_cases (r + k) (List.length l)).
    - rewrite Nat.min_l by lia. auto.
    - rewrite Nat.min_r by lia. rewrite skipn_all, skipn_all2 by lia. auto.
  Qed.
  Lemma transcode_app a b : transcode dec (a ++ b) = transcode dec a ++ transcode dec b.
  Proof. apply flat_map_app. Qed.
  Lemma transcode_len1 l : (forall c, In c l -> List.length (dec c) = 1) -> List.length (transcode dec l) = List.length l.
  Proof.
    induction l as [|c l IH]; intros H; auto. unfold transcode in *. cbn [flat_map]. rewrite app_length, IH by (intros; apply H; cbn; auto).
    rewrite H by (cbn; auto). auto.
  Qed.

  Lemma step_end st : copy_step dec st = None -> todo st = [].
  Proof.
    unfold copy_step, todo. intros H.
    destruct (dst st) as [|d ds] eqn:Ed.
    - destruct (src st) as [|s ss] eqn:Es.
      + unfold unread. set (l := firstn (N.to_nat chunk) (skipn (rpos st) (mem st))) in *.
        destruct (convert dec chunk l) as [dst1 src2] eqn:Ec.
        assert (dst1 = []) as -> by (destruct dst1; auto; destruct (match out st with Some _ => _ | None => _ end); discriminate).
        destruct l as [|c l'] eqn:El.
        * unfold l in El. assert (skipn (rpos st) (mem st) = []) as ->; auto.
          destruct (skipn (rpos st) (mem st)); auto. replace (N.to_nat chunk) with (S (N.to_nat 4095)) in El by (unfold chunk; lia). discriminate.
        * pose proof (convert_progress (c :: l')) as P. rewrite Ec in P. exfalso. apply P; [discriminate|auto].
      + destruct (convert dec chunk (s :: ss)) as [dst1 src2] eqn:Ec.
        pose proof (convert_progress (s :: ss)) as P. rewrite Ec in P. cbn in P.
        destruct dst1; [exfalso; apply P; [discriminate|auto]|].
        destruct (match out st with Some _ => _ | None => _ end); discriminate.
    - destruct (match out st with Some _ => _ | None => _ end); discriminate.
  Qed.

  Lemma step_ok st st' : safe st -> copy_step dec st = Some st' ->
    safe st' /\ content st' ++ todo st' = content st ++ todo st /\ List.length (todo st') < List.length (todo st).
  Proof.
    intros (Hw & Hr & Hs) H. unfold copy_step in H.
    set (out1 := match out st with Some o => Some o | None => _ end) in H.
    set (rd := match dst st, src st with [], [] => _ | _, _ => _ end) in H.
    destruct rd as [src1 r1] eqn:Erd.
    set (cv := match dst st with [] => convert dec chunk src1 | d => (d, src1) end) in H.
    destruct cv as [dst1 src2] eqn:Ecv.
    (* reading and converting keep what is to be written *)
    assert (T : dst1 ++ transcode dec src2 ++ transcode dec (skipn r1 (mem st)) = todo st).
    { unfold todo, unread. destruct (dst st) as [|d ds] eqn:Ed.
      - pose proof (convert_split chunk src1) as C. unfold cv in Ecv. rewrite Ecv in C.
        rewrite app_assoc, C. cbn [app]. destruct (src st) as [|s ss]; unfold rd in Erd; apply pair_equal_spec in Erd as [<- <-]; auto.
        etransitivity; [symmetry; apply transcode_app|]. rewrite skipn_firstn_more. auto.
      - unfold cv in Ecv. apply pair_equal_spec in Ecv as [<- <-]. unfold rd in Erd. apply pair_equal_spec in Erd as [<- <-]. auto. }
    assert (Hr1 : r1 <= List.length (mem st)).
    { unfold rd in Erd. destruct (dst st), (src st); apply pair_equal_spec in Erd as [<- <-]; auto; lia. }
    assert (Hs1 : out st <> None \/ r1 = List.length (mem st) \/
        (wpos st + List.length dst1 + List.length (transcode dec src2) <= r1 /\ forall c, In c (skipn r1 (mem st)) -> List.length (dec c) = 1)).
    { destruct Hs as [Hs|[Hs|[Hs Hone]]]; auto.
      - right; left. unfold rd in Erd. destruct (dst st), (src st); apply pair_equal_spec in Erd as [<- <-]; auto. lia.
      - right. 
        assert (L : List.length dst1 + List.length (transcode dec src2) = List.length (dst st) + List.length (transcode dec (src st)) \/
                    (dst st = [] /\ src st = [] /\ r1 = Nat.min (rpos st + N.to_nat chunk) (List.length (mem st)) /\
                     List.length dst1 + List.length (transcode dec src2) = List.length (firstn (N.to_nat chunk) (skipn (rpos st) (mem st))))).
        { destruct (dst st) as [|d ds] eqn:Ed.
          - pose proof (convert_split chunk src1) as C. unfold cv in Ecv. rewrite Ecv in C.
            apply (f_equal (@List.length _)) in C. rewrite app_length in C.
            destruct (src st) as [|s ss]; unfold rd in Erd; apply pair_equal_spec in Erd as [<- <-]; [right|left; auto].
            repeat split; auto. rewrite C. apply transcode_len1. intros c Hc. apply Hone. unfold unread.
            rewrite <- (firstn_skipn (N.to_nat chunk)). apply in_or_app; auto.
          - left. unfold cv in Ecv. apply pair_equal_spec in Ecv as [<- <-]. unfold rd in Erd. apply pair_equal_spec in Erd as [<- <-]. auto. }
        assert (Hone1 : forall c, In c (skipn r1 (mem st)) -> List.length (dec c) = 1).
        { intros c Hc. apply Hone. unfold unread. unfold rd in Erd. destruct (dst st), (src st); apply pair_equal_spec in Erd as [<- <-]; auto.
          rewrite <- skipn_firstn_more with (k := N.to_nat chunk). apply in_or_app; auto. }
        destruct L as [L|(Ed & Es & -> & L)].
        + assert (rpos st <= r1) by (unfold rd in Erd; destruct (dst st), (src st); apply pair_equal_spec in Erd as [<- <-]; lia).
          right. split; auto. lia.
        + rewrite firstn_length, skipn_length in L. rewrite Ed, Es in Hs. cbn in Hs. right. split; auto. lia. }
    destruct dst1 as [|d ds] eqn:Ed1; [discriminate|]. rewrite <- Ed1 in *. 
    destruct out1 as [o|] eqn:Eo.
    - injection H as <-. unfold content, todo, unread in *. cbn [out mem rpos wpos src dst] in *. split; [|split].
      + unfold safe. cbn [out mem rpos wpos src dst]. split; [discriminate|]. split; auto. left. discriminate.
      + rewrite <- T. cbn [app]. rewrite <- app_assoc. f_equal.
        unfold out1 in Eo. destruct (out st); [congruence|]. destruct (_ <? min_read)%N; [congruence|discriminate].
      + rewrite <- T. cbn [app]. rewrite Ed1. rewrite (app_length (d :: ds)). cbn [List.length]. lia.
    - assert (Eout : out st = None) by (unfold out1 in Eo; destruct (out st); [discriminate|auto]).
      assert (Hcap : 512 <= List.length (mem st) - wpos st).
      { unfold out1 in Eo. rewrite Eout in Eo. destruct (_ <? min_read)%N eqn:E; [discriminate|]. unfold min_read in E. lia. }
      injection H as <-. set (n := Nat.min (List.length dst1) (List.length (mem st) - wpos st)).
      assert (Hn : List.length (firstn n dst1) = n) by (rewrite firstn_length; lia).
      assert (Hn1 : 1 <= n) by (unfold n; rewrite Ed1; cbn [List.length]; lia).
      assert (Hlen : List.length (overwrite (mem st) (wpos st) (firstn n dst1)) = List.length (mem st)) by (apply overwrite_length; lia).
      assert (Hun : skipn r1 (overwrite (mem st) (wpos st) (firstn n dst1)) = skipn r1 (mem st)).
      { destruct Hs1 as [Hs1|[Hs1|[Hs1 _]]]; [congruence| |].
        - rewrite Hs1 at 2. rewrite skipn_all, skipn_all2; auto. lia.
        - apply overwrite_suffix; auto. lia. }
      unfold content, todo, unread in *. cbn [out mem rpos wpos src dst] in *. rewrite Hun. split; [|split].
      + unfold safe, unread. cbn [out mem rpos wpos src dst]. rewrite Hun, Hlen. split; [intros _; lia|]. split; auto.
        destruct Hs1 as [Hs1|[Hs1|[Hs1 Hone]]]; [congruence|auto|]. right; right. split; auto. rewrite skipn_length. lia.
      + rewrite Eout. rewrite <- Hn at 1. rewrite overwrite_prefix by lia. rewrite <- T, <- app_assoc. f_equal.
        rewrite app_assoc, firstn_skipn. auto.
      + rewrite <- T. rewrite !app_length, skipn_length. lia.
  Qed.

  Lemma copy_safe : forall m st, List.length (todo st) <= m -> safe st ->
    exists k, forall fuel, k <= fuel -> copy_loop dec fuel st = Some (content st ++ todo st).
  Proof.
    induction m as [|m IH]; intros st Hm Hs.
    - exists 1. intros [|fuel] Hf; [lia|]. cbn [copy_loop]. destruct (copy_step dec st) as [st'|] eqn:E.
      + destruct (step_ok _ _ Hs E) as (_ & _ & ?). lia.
      + rewrite (step_end _ E), app_nil_r. auto.
    - destruct (copy_step dec st) as [st'|] eqn:E.
      + destruct (step_ok _ _ Hs E) as (Hs' & Hc & Hl). destruct (IH st' ltac:(lia) Hs') as [k Hk].
        exists (S k). intros [|fuel] Hf; [lia|]. cbn [copy_loop]. rewrite E, Hk by lia. rewrite Hc. auto.
      + exists 1. intros [|fuel] Hf; [lia|]. cbn [copy_loop]. rewrite E, (step_end _ E), app_nil_r. auto.
  Qed.

  Definition start_state (doc : list ascii) (p : nat) := mkCopy (overwrite doc 0 (repeat "000"%char p)) p p None [] [].
  Lemma start_facts doc p : p <= List.length doc ->
    content (start_state doc p) = repeat "000"%char p /\ unread (start_state doc p) = skipn p doc /\
    List.length (mem (start_state doc p)) = List.length doc.
  Proof.
    intros H. unfold content, unread, start_state. cbn [out mem rpos wpos].
    assert (Hl : List.length (repeat "000"%char p) = p) by apply repeat_length. split; [|split].
    - pose proof (overwrite_prefix doc 0 (repeat "000"%char p) ltac:(lia)) as P. rewrite Hl in P. auto.
    - apply overwrite_suffix; lia.
    - apply overwrite_length. lia.
  Qed.

  (* a step from the start reads at most 4096 bytes *)
  Lemma copy_ok doc p : p <= List.length doc ->
    ((N.of_nat (List.length doc) <= N.of_nat p + 4096)%N \/ (forall c, In c (skipn p doc) -> List.length (dec c) = 1)) ->
    exists k, forall fuel, k <= fuel -> utf8_buffer dec fuel doc p = Some (repeat "000"%char p ++ transcode dec (skipn p doc)).
  Proof.
    intros Hp Hc. destruct (start_facts doc p Hp) as (F1 & F2 & F3).
    assert (T : todo (start_state doc p) = transcode dec (skipn p doc)) by (unfold todo; rewrite F2; auto).
    rewrite <- F1, <- T. unfold utf8_buffer. fold (start_state doc p).
    destruct Hc as [Hc|Hc].
    - (* the first step reads everything *)
      destruct (copy_step dec (start_state doc p)) as [st'|] eqn:E.
      + (* the same step from the state that has read all of it *)
        set (st1 := mkCopy (mem (start_state doc p)) (List.length doc) p None (skipn p doc) []).
        assert (Hread : firstn (N.to_nat chunk) (skipn p (mem (start_state doc p))) = skipn p doc).
        { change (skipn p (mem (start_state doc p))) with (unread (start_state doc p)). rewrite F2. apply firstn_all2. rewrite skipn_length. unfold chunk. lia. }
        assert (Hmin : Nat.min (p + N.to_nat chunk) (List.length (mem (start_state doc p))) = List.length doc) by (rewrite F3; unfold chunk; lia).
        destruct (skipn p doc) as [|c tl] eqn:Etl.
        { exfalso. unfold copy_step, start_state in E. cbn [out mem rpos wpos src dst] in E.
          change (overwrite doc 0 (repeat "000"%char p)) with (mem (start_state doc p)) in E. rewrite Hread in E.
          cbn [convert] in E. discriminate. }
        assert (E1 : copy_step dec st1 = Some st').
        { rewrite <- E. unfold copy_step, st1, start_state. cbn [out mem rpos wpos src dst].
          change (overwrite doc 0 (repeat "000"%char p)) with (mem (start_state doc p)). rewrite Hread, Hmin. auto. }
        assert (S1 : safe st1).
        { unfold safe, st1. cbn [out mem rpos wpos src dst]. rewrite F3. split; [auto|]. split; auto. }
        destruct (step_ok _ _ S1 E1) as (Hs' & Hcc & _).
        destruct (copy_safe _ st' (le_n _) Hs') as [k Hk]. exists (S k). intros [|fuel] Hf; [lia|].
        cbn [copy_loop]. rewrite E, Hk by lia. rewrite Hcc. f_equal. rewrite T.
        unfold content, todo, unread, st1. cbn [out mem rpos wpos src dst app].
        rewrite (skipn_all2 (n := List.length doc)) by lia. cbn [transcode flat_map]. rewrite app_nil_r. auto.
      + exists 1. intros [|fuel] Hf; [lia|]. cbn [copy_loop]. rewrite E, (step_end _ E), app_nil_r. auto.
    - apply (copy_safe _ _ (le_n _)). unfold safe. rewrite F2, F3. unfold start_state. cbn [out mem rpos wpos src dst transcode flat_map List.length].
      split; [auto|]. split; auto. right; right. split; auto. lia.
  Qed.
End Copy.

Lemma latin1_size c : 1 <= List.length (latin1 c) <= 4.
Proof. unfold latin1. destruct (_ <? 128)%N; cbn; lia. Qed.

(* a declaration's worth of padding, one accented letter, 4095 letters a, 600 letters b *)
Definition long_doc : list ascii :=
  repeat " "%char 44 ++ [ascii_of_N 233] ++ repeat "a"%char (N.to_nat 4095) ++ repeat "b"%char (N.to_nat 600).
Lemma corrupted : exists doc p buf, p <= List.length doc /\ utf8_buffer latin1 20 doc p = Some buf /\
  buf <> repeat "000"%char p ++ transcode latin1 (skipn p doc).
Proof.
  exists long_doc, 44. eexists. split; [apply Nat.leb_le; vm_compute; reflexivity|]. split; [vm_compute; reflexivity|].
  intros E. apply (f_equal (fun l => nth (N.to_nat 4141) l " "%char)) in E. vm_compute in E. discriminate.
Qed.

Lemma content_shifted : exists u el el' off off',
  parse isort_ns u (decode u) = POk el' off' [] /\ parse_transcoded isort_ns 44 (String "010" "" ++ u) = POk el off [] /\
  u = "<a>hello</a>" /\ e_content el' = "hello" /\ e_content el = ">hell".
Proof. exists "<a>hello</a>". do 4 eexists. repeat split; vm_compute; reflexivity. Qed.
Lemma no_space : exists u el off, parse isort_ns u (decode u) = POk el off [] /\
  forall p, parse_transcoded isort_ns p u = PErr EStream.
Proof.
  exists "<a>hello</a>". do 2 eexists. split; [vm_compute; reflexivity|]. intros p.
  apply transcoded_error; [vm_compute; reflexivity|discriminate].
Qed.
Lemma empty_panics : exists u, forall sortns p, parse sortns u (decode u) = PErr EStream /\ parse_transcoded sortns p u = PErr EPanic.
Proof. exists "". intros. split; reflexivity. Qed.
