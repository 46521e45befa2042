From Verif Require Import Base EqualModel EqualSpec EqualProofs Utf8 Decimal GenModel GenSpec GenProofs CodecModel CodecSpec.
Local Open Scope string_scope.
Ltac Zify.zify_post_hook ::= Z.to_euclidean_division_equations.

Lemma zeros_length n : String.length (zeros n) = n.
Proof. induction n; cbn; auto. Qed.
Lemma dec_loop_length : forall fuel k n acc, (n < 10 ^ N.of_nat k)%N -> 0 < k ->
  String.length (dec_loop fuel n acc) <= k + String.length acc.
Proof.
  induction fuel as [|fuel IH]; intros k n acc H Hk; cbn [dec_loop]; [lia|].
  destruct (n <? 10)%N eqn:E; [cbn [String.length]; lia|].
  destruct k as [|[|k]]; [lia|cbn in H; lia|].
  rewrite Nat2N.inj_succ, N.pow_succ_r' in H.
  specialize (IH (S k) (n / 10)%N (String (digit_char (n mod 10)) acc)). cbn [String.length] in IH.
  assert (n / 10 < 10 ^ N.of_nat (S k))%N by lia. specialize (IH H0 ltac:(lia)). lia.
Qed.
Lemma dec_N_length k n : (n < 10 ^ N.of_nat k)%N -> 0 < k -> String.length (dec_N n) <= k.
Proof. intros H Hk. unfold dec_N. pose proof (dec_loop_length (S (N.to_nat (N.log2 n))) k n "" H Hk). cbn [String.length] in *. lia. Qed.
Lemma pad_length k n : (n < 10 ^ N.of_nat k)%N -> 0 < k -> String.length (pad k n) = k.
Proof. intros H Hk. unfold pad. rewrite slen_app, zeros_length. pose proof (dec_N_length k n H Hk). lia. Qed.
Lemma zeros_val k s : digits_val 0 (zeros k ++ s) = digits_val 0 s.
Proof. induction k; cbn; auto. Qed.
Lemma digits_nonempty s : s <> "" -> digits s = digits_val 0 s.
Proof. destruct s; [congruence|auto]. Qed.
Lemma pad_val k n : digits_val 0 (pad k n) = Some n.
Proof.
  unfold pad. rewrite zeros_val. pose proof (digits_dec_N n) as D. rewrite digits_nonempty in D; auto.
  destruct (dec_N_head n) as (c & s & -> & _). discriminate.
Qed.
Lemma zeros_digits k : s_all digit_char_b (zeros k) = true.
Proof. induction k; cbn; auto. Qed.
Lemma pad_digits k n : s_all digit_char_b (pad k n) = true.
Proof. unfold pad. rewrite s_all_app, zeros_digits, dec_N_digits. auto. Qed.

Lemma append_int_pad w z : (0 <= z)%Z -> append_int w z = pad w (Z.to_N z).
Proof. intros H. unfold append_int. assert ((z <? 0)%Z = false) as -> by lia. auto. Qed.
Lemma getnum_pad fixed z s : (0 <= z < 100)%Z -> getnum fixed (append_int 2 z ++ s) = Some (z, s).
Proof.
  intros H. rewrite append_int_pad by lia. assert (L : String.length (pad 2 (Z.to_N z)) = 2) by (apply pad_length; [change (10 ^ N.of_nat 2)%N with 100%N; lia|lia]). pose proof (pad_val 2 (Z.to_N z)) as V.
  destruct (pad 2 (Z.to_N z)) as [|a [|b [|c r]]]; try discriminate.
  cbn [append getnum digits_val] in *. destruct (digit_val a) as [x|]; [|discriminate].
  destruct (digit_val b) as [y|]; [|discriminate]. injection V as V. f_equal. f_equal. rewrite <- (Z2N.id z) by lia. rewrite <- V. reflexivity.
Qed.
Lemma take_app k a b : String.length a = k -> s_take k (a ++ b) = a.
Proof. intros <-. induction a as [|c a IH]; cbn; [destruct b; auto|]. f_equal. auto. Qed.
Lemma drop_app' k a b : String.length a = k -> s_drop k (a ++ b) = b.
Proof. intros <-. apply drop_app. Qed.

(* fractions of a second *)
Lemma strip0_zeros s : exists k, s = strip0 s ++ zeros k.
Proof.
  induction s as [|c s [k IH]]; [exists 0; auto|]. cbn [strip0]. destruct (strip0 s) as [|d t] eqn:E.
  - destruct (Ascii.eqb c "0") eqn:Ec.
    + apply Ascii.eqb_eq in Ec. subst c. exists (S k). cbn in *. f_equal. auto.
    + exists k. cbn in *. f_equal. auto.
  - exists k. cbn in *. f_equal. auto.
Qed.
Lemma zeros_app a b : zeros a ++ zeros b = zeros (a + b).
Proof. induction a; cbn; f_equal; auto. Qed.
Lemma take_zeros k m : k <= m -> s_take k (zeros m) = zeros k.
Proof. revert m. induction k as [|k IH]; intros m H; [destruct m; auto|]. destruct m; [lia|]. cbn. f_equal. apply IH. lia. Qed.
Lemma take_app_long k : forall a b, String.length a <= k -> s_take k (a ++ b) = a ++ s_take (k - String.length a) b.
Proof.
  induction k as [|k IH]; intros a b H.
  - destruct a; [destruct b; auto|cbn in H; lia].
  - destruct a as [|c a]; [cbn [append String.length]; rewrite Nat.sub_0_r; auto|]. cbn [append s_take String.length] in *. f_equal. apply IH. lia.
Qed.
Lemma nanos_strip n : (n < 1000000000)%N -> nanos (strip0 (pad 9 n)) = Z.of_N n.
Proof.
  intros H. destruct (strip0_zeros (pad 9 n)) as [k E].
  assert (L : String.length (pad 9 n) = 9) by (apply pad_length; [exact H|lia]).
  unfold nanos. rewrite E, slen_app, zeros_length in L.
  rewrite take_app_long by lia. rewrite take_zeros by lia. replace (9 - String.length (strip0 (pad 9 n))) with k by lia.
  rewrite <- E, pad_val. auto.
Qed.
Definition no_digit (s : string) : Prop := match s with String c _ => digit_char_b c = false | "" => True end.
Lemma digit_run_app a s : s_all digit_char_b a = true -> no_digit s -> digit_run (a ++ s) = (a, s).
Proof.
  induction a as [|c a IH]; intros Ha Hs; cbn [append digit_run].
  - destruct s as [|c s]; auto. cbn in Hs. cbn [digit_run]. rewrite Hs. auto.
  - cbn [s_all] in Ha. apply andb_true_iff in Ha as [Hc Ha]. rewrite Hc, IH; auto.
Qed.

(* ---------- one chunk at a time ---------- *)
Definition set_chunk (t u : civil) (k : chunk) : civil :=
  let 'mkCivil y mo d h mi se ns off := u in
  match k with
  | KLit _ => u
  | KYear => mkCivil (c_year t) mo d h mi se ns off | KMonth => mkCivil y (c_month t) d h mi se ns off
  | KDay => mkCivil y mo (c_day t) h mi se ns off | KHour => mkCivil y mo d (c_hour t) mi se ns off
  | KMin => mkCivil y mo d h (c_min t) se ns off | KSec => mkCivil y mo d h mi (c_sec t) ns off
  | KFrac => mkCivil y mo d h mi se (c_ns t) off | KZone => mkCivil y mo d h mi se ns (c_off t)
  end.
Lemma days_31 m y : (days_in m y <= 31)%Z.
Proof. unfold days_in. repeat match goal with |- context [if ?b then _ else _] => destruct b end; lia. Qed.
Lemma ranged_ok lo hi v s f : (lo <= v <= hi)%Z -> ranged lo hi (Some (v, s)) f = Some (f v, s).
Proof. intros H. unfold ranged. assert (((lo <=? v) && (v <=? hi))%Z = true) as -> by lia. auto. Qed.

Definition zone_text (off : Z) : string :=
  if (off =? 0)%Z then "Z" else String (if (off <? 0)%Z then "-" else "+") (append_int 2 (Z.abs off / 3600) ++ ":" ++ append_int 2 (Z.abs off / 60 mod 60)).
Lemma format_zone_text off : (60 | off)%Z -> format_zone off = zone_text off.
Proof.
  intros [q ->]. unfold format_zone, zone_text. destruct (q * 60 =? 0)%Z eqn:E; auto. cbn zeta.
  rewrite Z.quot_mul by lia. assert ((q <? 0)%Z = (q * 60 <? 0)%Z) as -> by lia.
  f_equal. f_equal; [f_equal; lia|]. do 3 f_equal. lia.
Qed.
Lemma zone_case sg r : sg <> "Z"%char -> forall t,
  parse1 t KZone (String sg r) =
  let 'mkCivil y mo d h mi se ns off := t in
  match getnum true r with
  | Some (hh, String ":" r') =>
      match getnum true r' with
      | Some (mm, r'') =>
          if ((hh <=? 24) && (mm <=? 60))%Z then
            let o := ((hh * 60 + mm) * 60)%Z in
            if Ascii.eqb sg "+" then Some (mkCivil y mo d h mi se ns o, r'')
            else if Ascii.eqb sg "-" then Some (mkCivil y mo d h mi se ns (- o), r'') else None
          else None
      | None => None
      end
  | _ => None
  end.
Proof. intros H [y mo d h mi se ns off]. destruct sg as [[] [] [] [] [] [] [] []]; try reflexivity. congruence. Qed.

Lemma parse1_format t u k s : valid_time t -> (k = KFrac -> c_ns u = 0%Z /\ no_digit s /\ (forall x b r, s = String x (String b r) -> x <> "."%char /\ x <> ","%char)) ->
  parse1 u k (format1 t k ++ s) = Some (set_chunk t u k, s).
Proof.
  intros (Hy & Hmo & Hd & Hh & Hmi & Hs & Hns & Ho & H60) HF. pose proof (days_31 (c_month t) (c_year t)).
  destruct u as [y mo d h mi se ns off]. destruct k; cbn [format1 set_chunk].
  - cbn [s1 append parse1]. rewrite Ascii.eqb_refl. auto.
  - rewrite append_int_pad by lia. cbn [parse1].
    assert (L : String.length (pad 4 (Z.to_N (c_year t))) = 4) by (apply pad_length; [change (10 ^ N.of_nat 4)%N with 10000%N; lia|lia]).
    rewrite (take_app 4), (drop_app' 4) by auto. rewrite L. cbn [Nat.eqb]. rewrite digits_nonempty by (intros E; rewrite E in L; discriminate).
    rewrite pad_val. do 3 f_equal. lia.
  - cbn [parse1]. rewrite getnum_pad, ranged_ok by lia. auto.
  - cbn [parse1]. rewrite getnum_pad, ranged_ok by lia. auto.
  - cbn [parse1]. rewrite getnum_pad, ranged_ok by lia. auto.
  - cbn [parse1]. rewrite getnum_pad, ranged_ok by lia. auto.
  - cbn [parse1]. rewrite getnum_pad, ranged_ok by lia. auto.
  - destruct (HF eq_refl) as (Hn & Hds & Hdot). cbn [c_ns] in Hn. subst ns.
    pose proof (nanos_strip (Z.to_N (c_ns t)) ltac:(lia)) as N0. rewrite Z2N.id in N0 by lia.
    assert (D : s_all digit_char_b (strip0 (pad 9 (Z.to_N (c_ns t)))) = true).
    { pose proof (pad_digits 9 (Z.to_N (c_ns t))) as P. destruct (strip0_zeros (pad 9 (Z.to_N (c_ns t)))) as [k E].
      rewrite E, s_all_app in P. apply andb_true_iff in P as [P _]. auto. }
    destruct (strip0 (pad 9 (Z.to_N (c_ns t)))) as [|a f].
    + cbn in N0. rewrite <- N0. cbn [append parse1]. destruct s as [|x [|b r]]; auto.
      destruct (Hdot x b r eq_refl) as [H1 H2]. apply Ascii.eqb_neq in H1, H2. rewrite H1, H2. auto.
    + cbn [append parse1]. cbn [s_all] in D. apply andb_true_iff in D as [Da Df]. rewrite Da. cbn [Ascii.eqb Bool.eqb orb andb].
      change (String a (f ++ s)) with (String a f ++ s). rewrite digit_run_app; auto; [|cbn [s_all]; rewrite Da; auto].
      rewrite N0. auto.
  - rewrite format_zone_text by auto. unfold zone_text. destruct (c_off t =? 0)%Z eqn:E0.
    { apply Z.eqb_eq in E0. rewrite E0. reflexivity. }
    destruct H60 as [q Hq]. set (a := Z.abs (c_off t)).
    assert (Ha : (0 <= a <= 86400)%Z) by (unfold a; lia).
    cbn [append]. rewrite zone_case by (destruct (c_off t <? 0)%Z; discriminate).
    rewrite <- sapp_assoc, getnum_pad by lia. cbn [append]. rewrite getnum_pad by lia.
    assert (((a / 3600 <=? 24) && (a / 60 mod 60 <=? 60))%Z = true) as -> by lia. cbn zeta.
    assert (E : ((a / 3600 * 60 + a / 60 mod 60) * 60 = a)%Z) by (unfold a; lia). rewrite E.
    destruct (c_off t <? 0)%Z eqn:En; cbn [Ascii.eqb Bool.eqb]; do 3 f_equal; unfold a; lia.
Qed.

(* ---------- whole layouts ---------- *)
Definition no_frac (l : list chunk) : Prop := ~ In KFrac l.
Definition set_all (t u : civil) (l : list chunk) : civil := fold_left (set_chunk t) l u.
Lemma parse_prefix t l : valid_time t -> no_frac l -> forall u m s,
  parse_chunks u (l ++ m)%list (format t l ++ s) = parse_chunks (set_all t u l) m s.
Proof.
  intros Hv. induction l as [|k l IH]; intros Hl u m s; auto. cbn [app format parse_chunks]. rewrite <- sapp_assoc.
  rewrite parse1_format; auto.
  - apply IH. intros H. apply Hl. right. auto.
  - intros ->. exfalso. apply Hl. left. auto.
Qed.
Lemma format_app t l m : format t (l ++ m)%list = format t l ++ format t m.
Proof. induction l as [|k l IH]; cbn [app format append]; auto. rewrite IH, sapp_assoc. auto. Qed.
Lemma zone_head t : valid_time t -> exists c r, format_zone (c_off t) = String c r /\ digit_char_b c = false /\ c <> "."%char /\ c <> ","%char.
Proof.
  intros (_ & _ & _ & _ & _ & _ & _ & _ & H). rewrite format_zone_text by auto. unfold zone_text.
  destruct (c_off t =? 0)%Z; [do 2 eexists; repeat split; discriminate|].
  destruct (c_off t <? 0)%Z; do 2 eexists; repeat split; discriminate.
Qed.

Definition time_char (c : ascii) : bool := digit_char_b c || Ascii.eqb c "-" || Ascii.eqb c "+" || Ascii.eqb c ":" || Ascii.eqb c "." || Ascii.eqb c "T" || Ascii.eqb c "Z".
Lemma digits_time s : s_all digit_char_b s = true -> s_all time_char s = true.
Proof. induction s as [|c s IH]; auto. cbn [s_all]. rewrite !andb_true_iff. intros [H1 H2]. unfold time_char. rewrite H1. auto. Qed.
Lemma append_int_time w z : (0 <= z)%Z -> s_all time_char (append_int w z) = true.
Proof. intros. rewrite append_int_pad by auto. apply digits_time, pad_digits. Qed.
Lemma format1_time t k : valid_time t -> (forall c, k = KLit c -> time_char c = true) -> s_all time_char (format1 t k) = true.
Proof.
  intros (Hy & Hmo & Hd & Hh & Hmi & Hs & Hns & Ho & H60) HL. destruct k; cbn [format1]; try (apply append_int_time; lia).
  - cbn [s1 s_all]. rewrite (HL c eq_refl). auto.
  - assert (D : s_all digit_char_b (strip0 (pad 9 (Z.to_N (c_ns t)))) = true).
    { pose proof (pad_digits 9 (Z.to_N (c_ns t))) as P. destruct (strip0_zeros (pad 9 (Z.to_N (c_ns t)))) as [k E].
      rewrite E, s_all_app in P. apply andb_true_iff in P as [P _]. auto. }
    destruct (strip0 (pad 9 (Z.to_N (c_ns t)))) as [|a f]; auto. apply digits_time in D. cbn [s_all]. cbn [s_all] in D. rewrite D. auto.
  - rewrite format_zone_text by auto. unfold zone_text. destruct (c_off t =? 0)%Z; auto. cbn [s_all].
    rewrite !s_all_app, !append_int_time by lia. destruct (c_off t <? 0)%Z; auto.
Qed.
Definition plain (l : list chunk) : Prop := forall c, In (KLit c) l -> time_char c = true.
Lemma format_time t l : valid_time t -> plain l -> s_all time_char (format t l) = true.
Proof.
  intros Hv. induction l as [|k l IH]; intros Hp; auto. cbn [format]. rewrite s_all_app, format1_time, IH; auto.
  - intros c Hc. apply Hp. right. auto.
  - intros c ->. apply Hp. left. auto.
Qed.
Lemma trim_none s : s_all time_char s = true -> trim_space s = s.
Proof.
  intros H. assert (K : forallb (fun w => negb (s_all time_char w)) white = true) by (vm_compute; reflexivity).
  rewrite forallb_forall in K.
  pose proof (trim_unique "" s "" bl_nil bl_nil) as T. cbn [append] in T. rewrite sapp_nil_r in T. apply T.
  - intros w r Hw ->. rewrite s_all_app in H. apply andb_true_iff in H as [H _]. apply K in Hw. rewrite H in Hw. discriminate.
  - intros w r Hw E. apply in_map_iff in Hw as (v & <- & Hv). apply (f_equal s_rev) in E. rewrite s_rev_rev, s_rev_app, s_rev_rev in E.
    rewrite E, s_all_app in H. apply andb_true_iff in H as [_ H]. apply K in Hv. rewrite H in Hv. discriminate.
Qed.

Definition day_ok (t : civil) : Prop := (1 <= c_day t <= days_in (c_month t) (c_year t))%Z.
Lemma day_ok_true t : day_ok t -> ((1 <=? c_day t) && (c_day t <=? days_in (c_month t) (c_year t)))%Z = true.
Proof. unfold day_ok. lia. Qed.
Lemma time_round_trip t l : valid_time t -> no_frac l -> plain l -> day_ok (set_all t zero_civil (l ++ [KZone])) ->
  unmarshal_time l (marshal_time l t) = Some (set_all t zero_civil (l ++ [KZone])).
Proof.
  intros Hv Hf Hp Hd. unfold unmarshal_time, marshal_time.
  assert (Hp' : plain (l ++ [KZone])%list).
  { intros c Hc. apply in_app_or in Hc as [Hc|[Hc|[]]]; [auto|discriminate]. }
  rewrite trim_none by (apply format_time; auto). destruct (zone_head t Hv) as (c & r & E & _).
  assert (F : time_parse l (format t (l ++ [KZone])) = None).
  { unfold time_parse. rewrite format_app. pose proof (parse_prefix t l Hv Hf zero_civil [] (format t [KZone])) as P.
    rewrite app_nil_r in P. rewrite P. cbn [parse_chunks format format1]. rewrite E. auto. }
  rewrite F. unfold time_parse. rewrite <- (sapp_nil_r (format t (l ++ [KZone]))).
  pose proof (parse_prefix t (l ++ [KZone]) Hv) as P. specialize (P ltac:(intros H; apply in_app_or in H as [H|[H|[]]]; [auto|discriminate]) zero_civil [] "").
  rewrite app_nil_r in P. rewrite P. cbn [parse_chunks String.eqb]. rewrite day_ok_true by auto. auto.
Qed.
Lemma set_all_ns t l : no_frac l -> forall u, c_ns (set_all t u l) = c_ns u.
Proof.
  induction l as [|k l IH]; intros Hf u; auto. cbn [set_all fold_left]. change (c_ns (set_all t (set_chunk t u k) l) = c_ns u).
  rewrite IH by (intros H; apply Hf; right; auto). destruct u, k; auto. exfalso. apply Hf. left. auto.
Qed.
Lemma time_round_trip_frac t l : valid_time t -> no_frac l -> plain l -> day_ok (set_all t zero_civil (l ++ [KFrac; KZone])) ->
  unmarshal_time (l ++ [KFrac])%list (marshal_time (l ++ [KFrac])%list t) = Some (set_all t zero_civil (l ++ [KFrac; KZone])).
Proof.
  intros Hv Hf Hp Hd. unfold unmarshal_time, marshal_time. rewrite <- app_assoc. cbn [app].
  assert (Hp' : plain (l ++ [KFrac; KZone])%list).
  { intros c Hc. apply in_app_or in Hc as [Hc|[Hc|[Hc|[]]]]; [auto|discriminate|discriminate]. }
  rewrite trim_none by (apply format_time; auto). destruct (zone_head t Hv) as (c & r & E & E1 & E2 & E3).
  set (u := set_all t zero_civil l).
  assert (Hu : c_ns u = 0%Z) by (unfold u; rewrite set_all_ns; auto).
  assert (HF : forall z, z = format_zone (c_off t) -> KFrac = KFrac -> c_ns u = 0%Z /\ no_digit z /\
      (forall x b r, z = String x (String b r) -> x <> "."%char /\ x <> ","%char)).
  { intros z -> _. rewrite E. split; auto. split; [exact E1|]. intros x b r' Ez. injection Ez as <- _. auto. }
  assert (F : time_parse (l ++ [KFrac])%list (format t (l ++ [KFrac; KZone])) = None).
  { unfold time_parse. rewrite format_app, parse_prefix by auto. cbn [parse_chunks format]. rewrite sapp_nil_r.
    rewrite parse1_format; auto. cbn [format1]. rewrite E. auto. }
  rewrite F. unfold time_parse. rewrite format_app, parse_prefix by auto. fold u. cbn [parse_chunks format].
  rewrite parse1_format; auto.
  - rewrite parse1_format; auto; [|discriminate]. cbn [parse_chunks String.eqb].
    unfold set_all in *. rewrite fold_left_app in *. cbn [fold_left] in *. fold (set_all t zero_civil l) in *. fold u in Hd |- *.
    rewrite day_ok_true by auto. auto.
  - rewrite sapp_nil_r. auto.
Qed.

Ltac plain_tac := let c := fresh in let H := fresh in intros c H; cbn in H; repeat destruct H as [H|H]; first [discriminate H|injection H as <-; reflexivity|destruct H].
Ltac frac_tac := let H := fresh in intros H; cbn in H; repeat destruct H as [H|H]; first [discriminate H|destruct H].
Lemma date_round_trip t : valid_time t -> unmarshal_time layout_date (marshal_time layout_date t) = Some (only_date t).
Proof. intros Hv. apply (time_round_trip t layout_date); auto; [frac_tac|plain_tac|]. destruct Hv as (_ & _ & Hd & _). exact Hd. Qed.
Lemma dateTime_round_trip t : valid_time t -> unmarshal_time layout_dateTime (marshal_time layout_dateTime t) = Some t.
Proof.
  intros Hv. replace (Some t) with (Some (set_all t zero_civil (layout_dateTime ++ [KZone]))) by (destruct t; reflexivity).
  apply (time_round_trip_frac t (ymd ++ [KLit "T"; KHour; KLit ":"; KMin; KLit ":"; KSec])); auto; [frac_tac|plain_tac|].
  destruct Hv as (_ & _ & Hd & _). exact Hd.
Qed.
Lemma gTime_round_trip t : valid_time t -> unmarshal_time layout_time (marshal_time layout_time t) = Some (only_time t).
Proof.
  intros Hv. apply (time_round_trip_frac t [KHour; KLit ":"; KMin; KLit ":"; KSec]); auto; [frac_tac|plain_tac|]. unfold day_ok. cbn. lia.
Qed.
Lemma gDay_round_trip t : valid_time t -> unmarshal_time layout_gDay (marshal_time layout_gDay t) = Some (only_gDay t).
Proof.
  intros Hv. apply (time_round_trip t layout_gDay); auto; [frac_tac|plain_tac|]. pose proof (days_31 (c_month t) (c_year t)).
  unfold valid_time in Hv. unfold day_ok. cbn. lia.
Qed.
Lemma gMonth_round_trip t : valid_time t -> unmarshal_time layout_gMonth (marshal_time layout_gMonth t) = Some (only_gMonth t).
Proof.
  intros Hv. apply (time_round_trip t layout_gMonth); auto; [frac_tac|plain_tac|]. unfold day_ok. cbn.
  unfold days_in. repeat match goal with |- context [if ?b then _ else _] => destruct b end; lia.
Qed.
Lemma gMonthDay_round_trip t : valid_time t -> unmarshal_time layout_gMonthDay (marshal_time layout_gMonthDay t) = Some (only_gMonthDay t).
Proof.
  intros Hv. apply (time_round_trip t layout_gMonthDay); auto; [frac_tac|plain_tac|]. unfold day_ok. cbn [set_all fold_left app layout_gMonthDay set_chunk zero_civil c_day c_month c_year].
  unfold valid_time in Hv. destruct Hv as (_ & _ & Hd & _). unfold days_in in *. change (leap 0) with true.
  destruct (c_month t =? 2)%Z; auto. destruct (leap (c_year t)); lia.
Qed.
Lemma gYear_round_trip t : valid_time t -> unmarshal_time layout_gYear (marshal_time layout_gYear t) = Some (only_gYear t).
Proof. intros Hv. apply (time_round_trip t layout_gYear); auto; [frac_tac|plain_tac|]. unfold day_ok. cbn. lia. Qed.
Lemma gYearMonth_round_trip t : valid_time t -> unmarshal_time layout_gYearMonth (marshal_time layout_gYearMonth t) = Some (only_gYearMonth t).
Proof.
  intros Hv. apply (time_round_trip t layout_gYearMonth); auto; [frac_tac|plain_tac|]. unfold day_ok. cbn.
  unfold days_in. repeat match goal with |- context [if ?b then _ else _] => destruct b end; lia.
Qed.
Lemma far_years : exists t, (c_year t = 10000)%Z /\ unmarshal_time layout_date (marshal_time layout_date t) = None.
Proof. exists (mkCivil 10000 1 1 0 0 0 0 0). split; [auto|]. vm_compute. reflexivity. Qed.
Lemma odd_offsets : exists t, (c_off t = 5025)%Z /\ unmarshal_time layout_dateTime (marshal_time layout_dateTime t) <> Some t.
Proof. exists (mkCivil 2000 1 1 0 0 0 0 5025). split; [auto|]. vm_compute. discriminate. Qed.
Lemma time_spaces l u x v : blank u -> blank v -> unmarshal_time l (u ++ x ++ v) = unmarshal_time l x.
Proof.
  intros Hu Hv. unfold unmarshal_time. replace (trim_space (u ++ x ++ v)) with (trim_space x); auto.
  destruct (trim_space_split x) as (a & b & Ha & Hb & E & H1 & H2). symmetry.
  rewrite E at 1. rewrite <- !sapp_assoc. rewrite (sapp_assoc u a). apply trim_unique; auto using blank_app.
Qed.
