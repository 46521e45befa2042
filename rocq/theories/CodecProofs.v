From Verif Require Import Base EqualModel EqualSpec EqualProofs Utf8 Decimal GenModel GenSpec GenProofs CodecModel CodecSpec.
Local Open Scope string_scope.

(* ---------- fields ---------- *)
Lemma find_white w r : In w white -> find (fun x => String.prefix x (w ++ r)) white = Some w.
Proof.
  intros Hw. destruct (pf_check_ok _ white_pf) as [H1 H2].
  destruct (find _ white) as [w'|] eqn:E.
  - apply find_some in E as [Hin Hp]. apply prefix_iff in Hp as [r' Hr'].
    destruct (sapp_cmp _ _ _ _ Hr') as [(q & -> & _)|(q & -> & _)].
    + rewrite (H2 _ _ Hw Hin), sapp_nil_r. auto.
    + rewrite (H2 _ _ Hin Hw), sapp_nil_r. auto.
  - exfalso. apply (find_none _ _ E) in Hw. cbn beta in Hw.
    assert (String.prefix w (w ++ r) = true) by (apply prefix_iff; eauto). congruence.
Qed.
Lemma find_no_white s : irr white s -> find (fun x => String.prefix x s) white = None.
Proof.
  intros H. destruct (find _ white) as [w|] eqn:E; auto. apply find_some in E as [Hin Hp].
  apply prefix_iff in Hp as [r ->]. exfalso. eapply H; eauto.
Qed.
Lemma white_nonempty w : In w white -> exists c r, w = String c r.
Proof. intros H. destruct (white_bytes w H) as (c & r & -> & _). eauto. Qed.

Lemma blank_inv s : blank s -> s = "" \/ exists w r, In w white /\ blank r /\ s = w ++ r.
Proof. destruct 1; eauto 6. Qed.
Lemma words_blank_l g s l : blank g -> words s l -> words (g ++ s) l.
Proof.
  intros Hg H. destruct H as [s H|g' t s H1 H2 H3|g' t s l H1 H2 H3 H4 H5].
  - constructor. apply blank_app; auto.
  - rewrite sapp_assoc. constructor; auto. apply blank_app; auto.
  - rewrite sapp_assoc. constructor; auto. apply blank_app; auto.
Qed.
Lemma words_nil s : words s [] -> blank s.
Proof. inversion 1; auto. Qed.

Definition open_word (cur s : string) : Prop := forall a b, cur = a ++ b -> b <> "" -> irr white (b ++ s).
Lemma open_closed cur s : open_word cur s -> ~ has_white cur.
Proof.
  intros H (a & w & b & Hw & E). apply (H a (w ++ b) E) with (w := w) (r := b ++ s); auto.
  - destruct (white_nonempty w Hw) as (c & r & ->). discriminate.
  - rewrite sapp_assoc. auto.
Qed.
Lemma snoc_split cur c a b : cur ++ s1 c = a ++ b -> b <> "" -> b = s1 c /\ a = cur \/ exists b', b = b' ++ s1 c /\ cur = a ++ b' /\ b' <> "".
Proof.
  intros E Hb. destruct (sapp_cmp _ _ _ _ E) as [(r & -> & Er)|(r & -> & Er)].
  - destruct r as [|x r].
    + left. cbn in Er. rewrite sapp_nil_r. auto.
    + cbn in Er. injection Er as -> Er. destruct r; [|discriminate]. cbn in Er. congruence.
  - destruct r as [|x r].
    + left. rewrite sapp_nil_r. cbn in Er. auto.
    + right. exists (String x r). rewrite Er. split; auto. split; auto. discriminate.
Qed.
Lemma fields_loop_words : forall fuel cur s, String.length s <= fuel -> open_word cur s ->
  words (cur ++ s) (fields_loop fuel cur s) /\ (cur <> "" -> fields_loop fuel cur s <> []).
Proof.
  assert (F : forall cur, open_word cur "" -> words (cur ++ "") (flush cur) /\ (cur <> "" -> flush cur <> [])).
  { intros cur H. pose proof (open_closed _ _ H) as Hc. destruct cur as [|c cur]; [split; [constructor; constructor|congruence]|].
    split; [|discriminate]. change (flush (String c cur)) with [String c cur].
    apply (w_last "" (String c cur) ""); try constructor; auto. discriminate. }
  induction fuel as [|fuel IH]; intros cur s Hs Ho; cbn [fields_loop].
  - destruct s; [auto|cbn in Hs; lia].
  - destruct s as [|c r]; [auto|]. destruct (find _ white) as [w|] eqn:E.
    + apply find_some in E as [Hin Hp]. apply prefix_iff in Hp as [s' Es]. rewrite Es in *. rewrite drop_app.
      destruct (white_nonempty w Hin) as (x & w' & Ew).
      assert (Hl : String.length s' <= fuel) by (rewrite Ew, slen_app in Hs; cbn [String.length] in Hs; lia).
      assert (Ho' : open_word "" s').
      { intros a b E Hb. destruct a; [|discriminate]. cbn in E. congruence. }
      destruct (IH "" s' Hl Ho') as [IH1 _]. cbn [append] in IH1.
      assert (Hw : blank w) by (rewrite <- (sapp_nil_r w); constructor; [auto|constructor]).
      pose proof (open_closed _ _ Ho) as Hc. destruct cur as [|y cur].
      * split; [|congruence]. cbn [append flush app]. apply words_blank_l; auto.
      * split; [|discriminate]. change (flush (String y cur)) with [String y cur]. cbn [app].
        assert (Hy : word (String y cur)) by (split; [discriminate|auto]).
        destruct (fields_loop fuel "" s') as [|z l] eqn:El.
        -- apply (w_last "" (String y cur)); auto; [constructor|]. apply blank_app; auto. apply words_nil; auto.
        -- apply (w_cons "" (String y cur)); eauto; [constructor|discriminate|]. apply words_blank_l; auto.
    + assert (Ho' : open_word (cur ++ s1 c) r).
      { intros a b Es Hb. apply snoc_split in Es as [[-> ->]|(b' & -> & -> & Hb')]; auto.
        - intros w q Hw Eq. apply (find_none _ _ E) in Hw. cbn beta in Hw. cbn in Eq. rewrite Eq in Hw.
          assert (String.prefix w (w ++ q) = true) by (apply prefix_iff; eauto). congruence.
        - rewrite <- sapp_assoc. cbn. eapply Ho; eauto. }
      destruct (IH (cur ++ s1 c) r) as [IH1 IH2]; [cbn in Hs; lia|auto|].
      rewrite <- sapp_assoc in IH1. cbn in IH1. split; auto. intros _. apply IH2. destruct cur; discriminate.
Qed.
Lemma fields_words s : words s (fields s).
Proof.
  apply (fields_loop_words (String.length s) "" s); auto. intros a b E Hb. destruct a; [|discriminate]. cbn in E. congruence.
Qed.

(* the words are determined by the text *)
Definition stop (s : string) : Prop := s = "" \/ exists w r, In w white /\ s = w ++ r.
Lemma word_open t s : ~ has_white t -> stop s -> open_word t s.
Proof.
  intros Ht Hs a b Eb Hb w r Hw E. destruct (sapp_cmp _ _ _ _ E) as [(q & Hq & Hw')|(q & Hq & _)].
  - destruct (white_bytes w Hw) as (x & s' & -> & Hx & Hc).
    destruct b as [|y b]; [congruence|]. cbn in Hq. injection Hq as <- ->.
    rewrite s_all_app in Hc. apply andb_true_iff in Hc as [_ Hc].
    destruct q as [|z q].
    + apply Ht. exists a, (String x b), "". rewrite sapp_nil_r in Hw. rewrite sapp_nil_r. auto.
    + cbn [s_all] in Hc. apply andb_true_iff in Hc as [Hz _].
      destruct Hs as [->|(v & r' & Hv & ->)]; [discriminate|].
      destruct (white_bytes v Hv) as (x' & s'' & -> & Hx' & _). cbn in Hw'. congruence.
  - apply Ht. exists a, w, q. subst. auto.
Qed.
Lemma fields_loop_word : forall t fuel cur s, (forall a b, t = a ++ b -> b <> "" -> irr white (b ++ s)) ->
  String.length t <= fuel -> fields_loop fuel cur (t ++ s) = fields_loop (fuel - String.length t) (cur ++ t) s.
Proof.
  induction t as [|c t IH]; intros fuel cur s Ho Hf.
  - cbn [String.length append]. rewrite Nat.sub_0_r, sapp_nil_r. auto.
  - cbn [String.length] in *. destruct fuel as [|fuel]; [lia|]. cbn [append fields_loop].
    rewrite (find_no_white (String c (t ++ s))); [|apply (Ho "" (String c t)); [auto|discriminate]].
    rewrite IH; [|intros a b -> Hb; apply (Ho (String c a) b); auto|lia].
    rewrite <- sapp_assoc. auto.
Qed.
Lemma fields_loop_white : forall w fuel cur s, In w white -> String.length (w ++ s) <= fuel ->
  exists fuel', String.length s <= fuel' /\ fields_loop fuel cur (w ++ s) = (flush cur ++ fields_loop fuel' "" s)%list.
Proof.
  intros w fuel cur s Hw Hf. pose proof (find_white w s Hw) as E. destruct (white_nonempty w Hw) as (c & r & ->).
  rewrite slen_app in Hf. cbn [String.length] in Hf. destruct fuel as [|fuel]; [lia|]. exists fuel. split; [lia|].
  cbn [append] in *. cbn [fields_loop]. rewrite E. f_equal. f_equal. apply (drop_app (String c r) s).
Qed.
Lemma fields_loop_blank g : blank g -> forall fuel cur s, String.length (g ++ s) <= fuel -> g <> "" ->
  exists fuel', String.length s <= fuel' /\ fields_loop fuel cur (g ++ s) = (flush cur ++ fields_loop fuel' "" s)%list.
Proof.
  induction 1 as [|w r Hw Hr IH]; intros fuel cur s Hf Hg; [congruence|]. rewrite <- sapp_assoc in *.
  destruct (fields_loop_white w fuel cur (r ++ s) Hw Hf) as (f1 & H1 & ->).
  destruct r as [|c r]; [exists f1; auto|].
  destruct (IH f1 "" s H1) as (f2 & H2 & ->); [discriminate|]. exists f2. auto.
Qed.
Lemma fields_loop_end cur fuel : fields_loop fuel cur "" = flush cur.
Proof. destruct fuel; auto. Qed.
Lemma fields_fuel : forall s f g cur, String.length s <= f -> String.length s <= g -> fields_loop f cur s = fields_loop g cur s.
Proof.
  intros s. remember (String.length s) as n eqn:En. assert (Hn : String.length s <= n) by lia. clear En. revert s Hn.
  induction n as [|n IHn]; intros s Hn f g cur Hf Hg.
  - destruct s; [|cbn in Hn; lia]. rewrite !fields_loop_end. auto.
  - destruct f, g; try lia. destruct s as [|c s]; auto. cbn [fields_loop]. cbn [String.length] in *. destruct (find _ white) as [w|] eqn:E.
    + apply find_some in E as [Hin Hp]. apply prefix_iff in Hp as [r Er]. rewrite Er, drop_app. f_equal.
      destruct (white_nonempty w Hin) as (x & w' & ->). cbn in Er. injection Er as <- Er.
      assert (String.length r <= n) by (rewrite Er, slen_app in Hn; lia). apply IHn; lia.
    + apply IHn; lia.
Qed.
Lemma fields_loop_of_words s l : words s l -> forall fuel, String.length s <= fuel -> fields_loop fuel "" s = l.
Proof.
  assert (G : forall g fuel s, blank g -> String.length (g ++ s) <= fuel ->
      exists fuel', String.length s <= fuel' /\ fields_loop fuel "" (g ++ s) = fields_loop fuel' "" s).
  { intros g fuel s' Hg Hf. destruct g as [|c g]; [exists fuel; auto|].
    destruct (fields_loop_blank _ Hg fuel "" s' Hf) as (f & H1 & H2); [discriminate|]. exists f. auto. }
  induction 1 as [s H|g t s H1 [H2 H2'] H3|g t s l H1 [H2 H2'] H3 H4 IH H5]; intros fuel Hf.
  - rewrite <- (sapp_nil_r s) in Hf |- *. destruct (G s fuel "" H Hf) as (f & _ & ->). apply fields_loop_end.
  - destruct (G g fuel (t ++ s) H1 Hf) as (f & Hf' & ->). rewrite slen_app in Hf'.
    rewrite fields_loop_word; [|apply word_open; auto; destruct (blank_inv s H3) as [->|(w & r & Hw & _ & ->)]; [left; auto|right; eauto]|lia].
    cbn [append]. destruct s as [|c s].
    + rewrite fields_loop_end. destruct t; [congruence|auto].
    + rewrite <- (sapp_nil_r (String c s)).
      destruct (fields_loop_blank _ H3 (f - String.length t) t "") as (f2 & _ & ->); [rewrite sapp_nil_r; lia|discriminate|].
      rewrite fields_loop_end. destruct t; [congruence|auto].
  - destruct (G g fuel (t ++ s) H1 Hf) as (f & Hf' & ->). rewrite slen_app in Hf'. destruct H5 as (w & r & Hw & ->).
    rewrite fields_loop_word; [|apply word_open; auto; right; eauto|lia]. cbn [append].
    destruct (fields_loop_white w (f - String.length t) t r Hw) as (f2 & Hf2 & E2); [lia|].
    rewrite E2. specialize (IH (S (String.length (w ++ r))) ltac:(lia)).
    destruct (fields_loop_white w (S (String.length (w ++ r))) "" r Hw) as (f3 & Hf3 & E3); [lia|].
    rewrite E3 in IH. cbn [flush app] in IH. rewrite <- IH.
    destruct t; [congruence|]. cbn [flush app]. f_equal.
    apply fields_fuel; lia.
Qed.
Lemma fields_spec s l : fields s = l <-> words s l.
Proof. split; [intros <-; apply fields_words|]. intros H. apply fields_loop_of_words; auto. Qed.
Lemma words_words s l : words s l -> Forall word l.
Proof. induction 1; constructor; auto. Qed.

Lemma space_white : In " " white.
Proof. unfold white. cbn [map In]. auto 10. Qed.
Lemma blank_space : blank " ".
Proof. change " " with (" " ++ ""). constructor; [apply space_white|constructor]. Qed.
Lemma join_words l : Forall word l -> words (join_sp l) l.
Proof.
  induction l as [|a l IH]; intros H; [constructor; constructor|]. inversion H as [|a' l' Ha Hl]; subst.
  destruct l as [|b l].
  - cbn [join_sp]. rewrite <- (sapp_nil_r a) at 1. apply (w_last "" a ""); auto; constructor.
  - cbn [join_sp]. apply (w_cons "" a); auto; [constructor|discriminate| |].
    + apply words_blank_l; [apply blank_space|]. apply IH; auto.
    + exists " ", (join_sp (b :: l)). split; [apply space_white|auto].
Qed.
Lemma fields_join l : fields (join_sp l) = l <-> Forall word l.
Proof.
  split.
  - intros H. apply fields_spec in H. apply words_words in H. auto.
  - intros H. apply fields_spec, join_words; auto.
Qed.

(* ---------- list codecs ---------- *)
Lemma list_loop_map {A} (read : string -> option A) (show : A -> string) l : forall x,
  (forall v, In v l -> read (show v) = Some v) -> list_loop read x (map show l) = ((x ++ l)%list, true).
Proof.
  induction l as [|v l IH]; intros x H; cbn [map list_loop]; [rewrite app_nil_r; auto|].
  rewrite H by (left; auto). rewrite IH by (intros; apply H; right; auto). rewrite <- app_assoc. auto.
Qed.
Lemma list_round_trip {A} (show : A -> string) (read : string -> option A) x0 l :
  (forall v, In v l -> word (show v) /\ read (show v) = Some v) ->
  list_unmarshal read x0 (list_marshal show l) = ((x0 ++ l)%list, true).
Proof.
  intros H. unfold list_unmarshal, list_marshal. rewrite (proj2 (fields_join (map show l))).
  - apply list_loop_map. intros v Hv. apply H; auto.
  - apply Forall_forall. intros s Hs. apply in_map_iff in Hs as (v & <- & Hv). apply H; auto.
Qed.
Lemma list_loop_ok {A} (read : string -> option A) fs : forall x y, list_loop read x fs = (y, true) <->
  exists vs, y = (x ++ vs)%list /\ Forall2 (fun f v => read f = Some v) fs vs.
Proof.
  induction fs as [|f fs IH]; intros x y; cbn [list_loop].
  - split; [intros [= <-]; exists []; rewrite app_nil_r; auto|]. intros (vs & -> & H). inversion H. rewrite app_nil_r. auto.
  - destruct (read f) as [v|] eqn:E.
    + rewrite IH. split.
      * intros (vs & -> & H). exists (v :: vs). rewrite <- app_assoc. auto.
      * intros (vs & -> & H). inversion H as [|f' w fs' vs' Hf Hv]; subst. exists vs'. rewrite <- app_assoc. cbn.
        split; auto. congruence.
    + split; [discriminate|]. intros (vs & -> & H). inversion H; subst. congruence.
Qed.
Lemma list_unmarshal_spec {A} (read : string -> option A) x0 text y :
  list_unmarshal read x0 text = (y, true) <->
  exists fs vs, words text fs /\ Forall2 (fun f v => read f = Some v) fs vs /\ y = (x0 ++ vs)%list.
Proof.
  unfold list_unmarshal. rewrite list_loop_ok. split.
  - intros (vs & -> & H). exists (fields text), vs. split; [apply fields_words|auto].
  - intros (fs & vs & Hw & H & ->). apply fields_spec in Hw. rewrite Hw. eauto.
Qed.

Lemma strings_round_trip x0 l : strings_unmarshal x0 (strings_marshal l) = ((x0 ++ l)%list, true) <-> Forall word l.
Proof.
  unfold strings_unmarshal, strings_marshal. split.
  - intros H. apply list_unmarshal_spec in H as (fs & vs & Hw & H2 & E). apply app_inv_head in E. subst vs.
    assert (fs = l) as ->.
    { clear Hw. induction H2 as [|f v fs vs E H2 IH]; auto. congruence. }
    apply words_words in Hw. auto.
  - intros H. apply list_round_trip. rewrite Forall_forall in H. auto.
Qed.
Lemma not_white_digits s : s <> "" -> s_all (fun c => digit_char_b c || Ascii.eqb c "-") s = true -> word s.
Proof.
  intros Hne H. split; auto. intros (a & w & b & Hw & ->).
  rewrite !s_all_app in H. apply andb_true_iff in H as [_ H]. apply andb_true_iff in H as [H _].
  assert (K : forallb (fun w => negb (s_all (fun c => digit_char_b c || Ascii.eqb c "-") w)) white = true) by (vm_compute; reflexivity).
  rewrite forallb_forall in K. apply K in Hw. rewrite H in Hw. discriminate.
Qed.
Lemma s_all_weaken (f g : ascii -> bool) s : (forall c, f c = true -> g c = true) -> s_all f s = true -> s_all g s = true.
Proof. intros H. induction s as [|c s IH]; auto. cbn [s_all]. rewrite !andb_true_iff. intros [H1 H2]. auto. Qed.
Lemma dec_N_word n : word (dec_N n).
Proof.
  destruct (dec_N_head n) as (c & s & E & _). apply not_white_digits; [rewrite E; discriminate|].
  apply (s_all_weaken digit_char_b); [intros x ->; auto|]. apply dec_N_digits.
Qed.
Lemma dec_word z : word (dec z).
Proof.
  destruct z as [|p|p]; [apply (dec_N_word 0)|apply (dec_N_word (Npos p))|].
  apply not_white_digits; [discriminate|]. change (s_all (fun c => digit_char_b c || Ascii.eqb c "-") (dec_N (Npos p)) = true).
  apply (s_all_weaken digit_char_b); [intros x ->; auto|]. apply dec_N_digits.
Qed.
Lemma ints_round_trip x0 l : (forall z, In z l -> (- 2 ^ 63 <= z < 2 ^ 63)%Z) ->
  ints_unmarshal x0 (ints_marshal l) = ((x0 ++ l)%list, true).
Proof.
  intros H. apply list_round_trip. intros v Hv. split; [apply dec_word|]. apply atoi_dec. apply H in Hv. unfold in_int64. lia.
Qed.
Lemma uints_round_trip x0 l : (forall n, In n l -> (n < 2 ^ 32)%N) ->
  uints_unmarshal x0 (uints_marshal l) = ((x0 ++ l)%list, true).
Proof.
  intros H. apply list_round_trip. intros v Hv. split; [apply dec_N_word|]. apply parse_uint_dec. auto.
Qed.
Lemma Forall2_iff {A B} (P Q : A -> B -> Prop) l m : (forall a b, P a b <-> Q a b) -> Forall2 P l m <-> Forall2 Q l m.
Proof. intros H. split; induction 1; constructor; auto; apply H; auto. Qed.
Lemma ints_unmarshal_spec x0 text y : ints_unmarshal x0 text = (y, true) <->
  exists fs vs, words text fs /\ Forall2 (fun f v => int_literal f v /\ (- 2 ^ 63 <= v < 2 ^ 63)%Z) fs vs /\ y = (x0 ++ vs)%list.
Proof.
  unfold ints_unmarshal. rewrite list_unmarshal_spec. split; intros (fs & vs & H1 & H2 & H3); exists fs, vs; split; auto; split; auto;
    (eapply Forall2_iff; [|exact H2]); intros a b; [symmetry|]; apply atoi_spec.
Qed.
Lemma byte_lists_raw : exists text fs vs, words text fs /\ Forall2 numeral fs vs /\ (forall v, In v vs -> (v < 128)%N) /\
  fst (bytes_unmarshal [] text) <> vs.
Proof.
  exists "1 2", ["1"; "2"], [1; 2]%N. split; [apply fields_spec; vm_compute; reflexivity|]. split.
  - constructor; [|constructor; [|constructor]]; apply digits_numeral; vm_compute; reflexivity.
  - split; [cbn [In]; intros v Hv; repeat destruct Hv as [<-|Hv]; try lia; destruct Hv|]. vm_compute. discriminate.
Qed.

(* ---------- hexBinary ---------- *)
Lemma from_hex_spec c v : from_hex c = Some v <-> hex_digit c v.
Proof.
  unfold from_hex, between. split.
  - intros H. destruct ((48 <=? N_of_ascii c) && (N_of_ascii c <=? 57))%N eqn:E1.
    { injection H as <-. constructor. lia. }
    destruct ((97 <=? N_of_ascii c) && (N_of_ascii c <=? 102))%N eqn:E2.
    { injection H as <-. replace (N_of_ascii c - 97 + 10)%N with (N_of_ascii c - 87)%N by lia. apply hx_lower. lia. }
    destruct ((65 <=? N_of_ascii c) && (N_of_ascii c <=? 70))%N eqn:E3; [|discriminate].
    injection H as <-. replace (N_of_ascii c - 65 + 10)%N with (N_of_ascii c - 55)%N by lia. apply hx_upper. lia.
  - intros [x H|x H|x H].
    + assert (((48 <=? N_of_ascii x) && (N_of_ascii x <=? 57))%N = true) as -> by lia. auto.
    + assert (((48 <=? N_of_ascii x) && (N_of_ascii x <=? 57))%N = false) as -> by lia.
      assert (((97 <=? N_of_ascii x) && (N_of_ascii x <=? 102))%N = true) as -> by lia. f_equal. lia.
    + assert (((48 <=? N_of_ascii x) && (N_of_ascii x <=? 57))%N = false) as -> by lia.
      assert (((97 <=? N_of_ascii x) && (N_of_ascii x <=? 102))%N = false) as -> by lia.
      assert (((65 <=? N_of_ascii x) && (N_of_ascii x <=? 70))%N = true) as -> by lia. f_equal. lia.
Qed.
Lemma hex_digit_16 c v : hex_digit c v -> (v < 16)%N.
Proof. destruct 1; lia. Qed.
Lemma hex_decode_spec : forall s b, hex_decode s = Some b <-> hex_text s b.
Proof.
  assert (G : forall n s b, String.length s <= n -> (hex_decode s = Some b <-> hex_text s b)).
  { induction n as [|n IH]; intros s b Hs.
    - destruct s; [|cbn in Hs; lia]. split; [intros [= <-]; constructor|]. inversion 1; auto.
    - destruct s as [|x [|y r]].
      + split; [intros [= <-]; constructor|]. inversion 1; auto.
      + split; [discriminate|]. inversion 1.
      + cbn [hex_decode]. cbn [String.length] in Hs. split.
        * destruct (from_hex x) as [u|] eqn:Ex; [|discriminate]. destruct (from_hex y) as [v|] eqn:Ey; [|discriminate].
          destruct (hex_decode r) as [t|] eqn:Er; [|discriminate]. intros [= <-].
          apply from_hex_spec in Ex, Ey. apply IH in Er; [|lia]. econstructor; eauto.
          apply hex_digit_16 in Ex, Ey. rewrite N_ascii_embedding by lia. lia.
        * inversion 1 as [|a' b' c x' y' s' t Hx Hy Hc Ht]; subst. apply from_hex_spec in Hx, Hy. rewrite Hx, Hy.
          apply IH in Ht; [|lia]. rewrite Ht. do 2 f_equal. apply ascii_is. lia. }
  intros s b. apply (G (String.length s)); auto.
Qed.
Lemma hex1_digit n : (n < 16)%N -> hex_digit (hex1 n) n.
Proof.
  intros H. apply from_hex_spec. apply (small_cases n 16) in H. cbn in H. repeat destruct H as [<-|H]; try reflexivity. destruct H.
Qed.
Ltac Zify.zify_post_hook ::= Z.to_euclidean_division_equations.
Lemma hex_encode_text b : hex_text (hex_encode b) b.
Proof.
  induction b as [|c r IH]; cbn [hex_encode]; [constructor|]. pose proof (N_ascii_bounded c).
  econstructor; [apply hex1_digit; lia|apply hex1_digit; lia|lia|auto].
Qed.
Lemma hex_round_trip b : hex_decode (hex_encode b) = Some b.
Proof. apply hex_decode_spec, hex_encode_text. Qed.
Lemma hex_no_collapse : exists t b, hex_decode t = Some b /\ hex_decode (t ++ s1 "010") = None.
Proof. exists "00", (s1 "000"). split; vm_compute; reflexivity. Qed.

(* ---------- base64Binary ---------- *)
Lemma dec64_table : forallb (fun n => match dec64 (enc64 n) with Some m => (n =? m)%N | None => false end) (map N.of_nat (seq 0 64)) = true.
Proof. vm_compute. reflexivity. Qed.
Lemma dec_enc64 n : (n < 64)%N -> dec64 (enc64 n) = Some n.
Proof.
  intros H. pose proof dec64_table as K. rewrite forallb_forall in K. specialize (K n).
  assert (Hin : In n (map N.of_nat (seq 0 64))).
  { apply in_map_iff. exists (N.to_nat n). split; [lia|]. apply in_seq. lia. }
  specialize (K Hin). cbn beta in K. destruct (dec64 (enc64 n)) as [m|]; [|discriminate]. apply N.eqb_eq in K. congruence.
Qed.
Lemma enc64_no_nl n : (n < 64)%N -> (Ascii.eqb (enc64 n) "013" || Ascii.eqb (enc64 n) "010")%bool = false.
Proof.
  intros H. assert (K : forallb (fun n => negb (Ascii.eqb (enc64 n) "013" || Ascii.eqb (enc64 n) "010")) (map N.of_nat (seq 0 64)) = true) by (vm_compute; reflexivity).
  rewrite forallb_forall in K. apply negb_true_iff, K. apply in_map_iff. exists (N.to_nat n). split; [lia|]. apply in_seq. lia.
Qed.
Lemma dec64_eq : dec64 "=" = None. Proof. reflexivity. Qed.
Lemma b64_drop : forall n b, String.length b <= n -> drop_nl (b64_encode b) = b64_encode b.
Proof.
  induction n as [|n IH]; intros b Hb; [destruct b; [auto|cbn in Hb; lia]|].
  destruct b as [|a [|b [|c r]]]; cbn [b64_encode drop_nl]; auto.
  - pose proof (N_ascii_bounded a). rewrite !enc64_no_nl by lia. auto.
  - pose proof (N_ascii_bounded a). pose proof (N_ascii_bounded b). rewrite !enc64_no_nl by lia. auto.
  - pose proof (N_ascii_bounded a). pose proof (N_ascii_bounded b). pose proof (N_ascii_bounded c). rewrite !enc64_no_nl by lia.
    rewrite IH; auto. cbn [String.length] in Hb. lia.
Qed.
Lemma b64_groups_enc : forall n b, String.length b <= n -> b64_groups (b64_encode b) = Some b.
Proof.
  induction n as [|n IH]; intros b Hb; [destruct b; [auto|cbn in Hb; lia]|].
  destruct b as [|a [|b [|c r]]]; cbn [b64_encode b64_groups]; auto.
  - pose proof (N_ascii_bounded a). rewrite !dec_enc64 by lia. cbn [b64_groups]. rewrite dec64_eq. cbn [Ascii.eqb Bool.eqb andb String.eqb].
    f_equal. cbn [bytes fold_right]. f_equal. apply ascii_is. lia.
  - pose proof (N_ascii_bounded a). pose proof (N_ascii_bounded b). rewrite !dec_enc64 by lia. rewrite dec64_eq. cbn [Ascii.eqb Bool.eqb andb String.eqb].
    f_equal. cbn [bytes fold_right]. f_equal; [|f_equal]; apply ascii_is; lia.
  - pose proof (N_ascii_bounded a). pose proof (N_ascii_bounded b). pose proof (N_ascii_bounded c). rewrite !dec_enc64 by lia.
    rewrite IH by (cbn [String.length] in Hb; lia). f_equal. cbn [bytes fold_right append]. f_equal; [|f_equal; [|f_equal]]; apply ascii_is; lia.
Qed.
Lemma b64_round_trip b : b64_decode (b64_encode b) = Some b.
Proof. unfold b64_decode. rewrite (b64_drop (String.length b)) by auto. apply (b64_groups_enc (String.length b)). auto. Qed.

Lemma bits_app m : forall k n, bits (k + m) n = (bits k (n / 2 ^ N.of_nat m) ++ bits m n)%list.
Proof.
  induction m as [|m IH]; intros k n.
  - rewrite Nat.add_0_r, app_nil_r. cbn [N.of_nat]. rewrite N.div_1_r. auto.
  - rewrite Nat.add_succ_r. cbn [bits]. rewrite IH, Nat2N.inj_succ, N.pow_succ_r', N.div_div, <- app_assoc by lia. auto.
Qed.
Lemma bits_mod k : forall n, bits k (n mod 2 ^ N.of_nat k) = bits k n.
Proof.
  induction k as [|k IH]; intros n; auto. cbn [bits]. rewrite Nat2N.inj_succ, N.pow_succ_r'. f_equal.
  - rewrite <- (IH (n / 2)%N). f_equal. rewrite N.mod_mul_r by (try apply N.pow_nonzero; lia).
    rewrite (N.mul_comm 2 ((n / 2) mod _)), N.div_add by lia. rewrite N.div_small by (apply N.mod_lt; lia). lia.
  - f_equal. rewrite <- N.pow_succ_r', <- !N.bit0_odd, N.mod_pow2_bits_low by lia. auto.
Qed.
Lemma bits_length k : forall n, List.length (bits k n) = k.
Proof. induction k as [|k IH]; intros n; auto. cbn [bits]. rewrite app_length, IH. cbn. lia. Qed.
Lemma sextet_enc n : (n < 64)%N -> sextet (enc64 n) = Some n.
Proof.
  intros H. assert (K : forallb (fun n => match sextet (enc64 n) with Some m => (n =? m)%N | None => false end) (map N.of_nat (seq 0 64)) = true) by (vm_compute; reflexivity).
  rewrite forallb_forall in K. specialize (K n). cbn beta in K.
  destruct (sextet (enc64 n)) as [m|].
  - f_equal. symmetry. apply N.eqb_eq, K. apply in_map_iff. exists (N.to_nat n). split; [lia|]. apply in_seq. lia.
  - exfalso. discriminate K. apply in_map_iff. exists (N.to_nat n). split; [lia|]. apply in_seq. lia.
Qed.
Lemma four_three v : (bits 8 (v / 65536) ++ bits 8 (v / 256 mod 256) ++ bits 8 (v mod 256))%list =
  (bits 6 (v / 262144) ++ bits 6 (v / 4096 mod 64) ++ bits 6 (v / 64 mod 64) ++ bits 6 (v mod 64))%list.
Proof.
  change 256%N with (2 ^ N.of_nat 8)%N at 2 3. change 64%N with (2 ^ N.of_nat 6)%N at 1 3 4. rewrite !bits_mod.
  pose proof (bits_app 16 8 v) as A. change (bits 16 v) with (bits (8 + 8) v) in A. rewrite (bits_app 8 8 v) in A.
  pose proof (bits_app 18 6 v) as B. change (bits 18 v) with (bits (6 + 12) v) in B. rewrite (bits_app 12 6 v) in B.
  change (bits 12 v) with (bits (6 + 6) v) in B. rewrite (bits_app 6 6 v) in B. change (6 + 18) with 24 in B. change (8 + 16) with 24 in A.
  change (2 ^ N.of_nat 16)%N with 65536%N in A. change (2 ^ N.of_nat 8)%N with 256%N in A.
  change (2 ^ N.of_nat 18)%N with 262144%N in B. change (2 ^ N.of_nat 12)%N with 4096%N in B. change (2 ^ N.of_nat 6)%N with 64%N in B.
  rewrite <- A, <- B. auto.
Qed.
Lemma sextets_app a b x y : sextets a = Some x -> sextets b = Some y -> sextets (a ++ b) = Some (x ++ y)%list.
Proof.
  revert x. induction a as [|c a IH]; intros x; cbn [sextets append]; [intros [= <-]; auto|].
  destruct (sextet c); [|discriminate]. destruct (sextets a) as [l|] eqn:E; [|discriminate]. intros [= <-] Hb.
  rewrite (IH l eq_refl Hb), app_assoc. auto.
Qed.
Lemma app_len_inj {A} (a b c d : list A) : List.length a = List.length c -> (a ++ b = c ++ d)%list -> a = c.
Proof.
  revert c. induction a as [|x a IH]; intros [|y c] L E; cbn in *; try discriminate; auto.
  injection E as -> E. f_equal. apply IH; auto.
Qed.
Lemma b64_encode_text : forall n b, String.length b <= n -> base64_text (b64_encode b) b.
Proof.
  induction n as [|n IH]; intros b Hb.
  { destruct b; [|cbn in Hb; lia]. exists "", "", []. cbn. split; auto. split; auto. split; [intros x []|]. auto. }
  destruct b as [|a [|b [|c r]]].
  - exists "", "", []. cbn. split; auto. split; auto. split; [intros x []|]. auto.
  - pose proof (N_ascii_bounded a). cbn [b64_encode]. set (v := (N_of_ascii a * 65536)%N).
    exists (String (enc64 (v / 262144)) (s1 (enc64 (v / 4096 mod 64)))), "==", [false; false; false; false].
    split; auto. split.
    + cbn [sextets s1]. rewrite !sextet_enc by (unfold v; lia).
      pose proof (four_three v) as F. f_equal. rewrite app_nil_r.
      assert (E : forall (p q r s t u w : list bool), List.length p = 8 -> List.length q = 8 -> List.length r = 8 ->
        List.length s = 6 -> List.length t = 6 -> List.length u = 6 -> List.length w = 6 -> (p ++ q ++ r = s ++ t ++ u ++ w)%list ->
        (s ++ t = p ++ firstn 4 q)%list).
      { intros p q r0 s t u w L1 L2 L3 L4 L5 L6 L7 X. apply (app_len_inj _ (u ++ w)%list _ (skipn 4 q ++ r0)%list).
        - rewrite !app_length, firstn_length. lia.
        - rewrite <- !app_assoc, (app_assoc (firstn 4 q)), firstn_skipn. auto. }
      rewrite (E _ _ _ _ _ _ _ (bits_length 8 _) (bits_length 8 _) (bits_length 8 _) (bits_length 6 _) (bits_length 6 _) (bits_length 6 _) (bits_length 6 _) F).
      replace (v / 65536)%N with (N_of_ascii a) by (unfold v; lia). replace (v / 256 mod 256)%N with 0%N by (unfold v; lia).
      unfold byte_bits. cbn [list_ascii_of_string flat_map]. rewrite app_nil_r. auto.
    + split; [cbn; intuition|]. split; auto.
  - pose proof (N_ascii_bounded a). pose proof (N_ascii_bounded b). cbn [b64_encode]. set (v := (N_of_ascii a * 65536 + N_of_ascii b * 256)%N).
    exists (String (enc64 (v / 262144)) (String (enc64 (v / 4096 mod 64)) (s1 (enc64 (v / 64 mod 64))))), "=", [false; false].
    split; auto. split.
    + cbn [sextets s1]. rewrite !sextet_enc by (unfold v; lia).
      pose proof (four_three v) as F. f_equal. rewrite app_nil_r.
      assert (E : forall (p q r s t u w : list bool), List.length p = 8 -> List.length q = 8 -> List.length r = 8 ->
        List.length s = 6 -> List.length t = 6 -> List.length u = 6 -> List.length w = 6 -> (p ++ q ++ r = s ++ t ++ u ++ w)%list ->
        (s ++ t ++ u = (p ++ q) ++ firstn 2 r)%list).
      { intros p q r0 s t u w L1 L2 L3 L4 L5 L6 L7 X. apply (app_len_inj _ w _ (skipn 2 r0)).
        - rewrite !app_length, firstn_length. lia.
        - rewrite <- !app_assoc, firstn_skipn. auto. }
      rewrite (E _ _ _ _ _ _ _ (bits_length 8 _) (bits_length 8 _) (bits_length 8 _) (bits_length 6 _) (bits_length 6 _) (bits_length 6 _) (bits_length 6 _) F).
      replace (v / 65536)%N with (N_of_ascii a) by (unfold v; lia). replace (v / 256 mod 256)%N with (N_of_ascii b) by (unfold v; lia).
      replace (v mod 256)%N with 0%N by (unfold v; lia).
      unfold byte_bits. cbn [list_ascii_of_string flat_map]. rewrite app_nil_r. auto.
    + split; [cbn; intuition|]. split; auto.
  - pose proof (N_ascii_bounded a). pose proof (N_ascii_bounded b). pose proof (N_ascii_bounded c). cbn [b64_encode].
    set (v := (N_of_ascii a * 65536 + N_of_ascii b * 256 + N_of_ascii c)%N).
    destruct (IH r) as (body & padding & fill & E & Es & Hf & Hl & Hp); [cbn [String.length] in Hb; lia|].
    rewrite E in *. exists (String (enc64 (v / 262144)) (String (enc64 (v / 4096 mod 64)) (String (enc64 (v / 64 mod 64)) (s1 (enc64 (v mod 64))))) ++ body), padding, fill.
    split; [reflexivity|]. split.
    + assert (H4 : sextets (String (enc64 (v / 262144)) (String (enc64 (v / 4096 mod 64)) (String (enc64 (v / 64 mod 64)) (s1 (enc64 (v mod 64)))))) =
        Some (bits 6 (v / 262144) ++ bits 6 (v / 4096 mod 64) ++ bits 6 (v / 64 mod 64) ++ bits 6 (v mod 64))%list).
      { cbn [sextets s1]. rewrite !sextet_enc by (unfold v; lia). rewrite app_nil_r. auto. }
      rewrite (sextets_app _ _ _ _ H4 Es). rewrite <- four_three.
      replace (v / 65536)%N with (N_of_ascii a) by (unfold v; lia). replace (v / 256 mod 256)%N with (N_of_ascii b) by (unfold v; lia).
      replace (v mod 256)%N with (N_of_ascii c) by (unfold v; lia).
      unfold byte_bits. cbn [list_ascii_of_string flat_map]. rewrite <- !app_assoc. auto.
    + split; auto. split; auto. change (4 + String.length (body ++ padding)) with (S (S (S (S (String.length (body ++ padding)))))) in *.
      cbn [String.length]. replace (S (S (S (S (String.length (body ++ padding)))))) with (String.length (body ++ padding) + 1 * 4) by lia.
      rewrite Nat.mod_add by lia. auto.
Qed.
Lemma b64_spaces : exists t b, b64_decode t = Some b /\ b64_decode (t ++ s1 "010") = Some b /\ b64_decode (t ++ " ") = None.
Proof. exists "QUJD", "ABC". split; [|split]; vm_compute; reflexivity. Qed.
Lemma b64_wrapped t b : drop_nl t = b64_encode b -> b64_decode t = Some b.
Proof. intros E. unfold b64_decode. rewrite E. apply (b64_groups_enc (String.length b)). auto. Qed.
