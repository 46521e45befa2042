(* strconv.Itoa / FormatInt(.., 10) / FormatUint(.., 10), %d, and strconv.Atoi / ParseInt(.., 10, 64) /
   ParseUint(.., 10, bits). *)
From Verif Require Import Base EqualModel Utf8.
Local Open Scope string_scope.

Definition digit_char (n : N) : ascii := ascii_of_N (48 + n).
Fixpoint dec_loop (fuel : nat) (n : N) (acc : string) : string :=
  match fuel with
  | O => acc
  | S fuel' => let acc' := String (digit_char (n mod 10)%N) acc in
               if (n <? 10)%N then acc' else dec_loop fuel' (n / 10)%N acc'
  end.
Definition dec_N (n : N) : string := dec_loop (S (N.to_nat (N.log2 n))) n "".
Definition dec (z : Z) : string :=
  match z with Zneg p => String "-" (dec_N (Npos p)) | _ => dec_N (Z.to_N z) end.

Definition digit_val (c : ascii) : option N :=
  let n := N_of_ascii c in if between 48 57 n then Some (n - 48)%N else None.
Fixpoint digits_val (acc : N) (s : string) : option N :=
  match s with
  | EmptyString => Some acc
  | String c s' => match digit_val c with Some d => digits_val (10 * acc + d)%N s' | None => None end
  end.
Definition digits (s : string) : option N := match s with EmptyString => None | _ => digits_val 0 s end.

(* ParseUint(s, 10, bits) *)
Definition parse_uint (bits : N) (s : string) : option N :=
  match digits s with Some n => if (n <? 2 ^ bits)%N then Some n else None | None => None end.

(* ParseInt(s, 10, 64), and Atoi where int has 64 bits *)
Definition in_int64 (z : Z) : bool := ((- 2 ^ 63 <=? z) && (z <? 2 ^ 63))%Z.
Definition atoi (s : string) : option Z :=
  let check z := if in_int64 z then Some z else None in
  match s with
  | String "-" r => match digits r with Some n => check (- Z.of_N n)%Z | None => None end
  | String "+" r => match digits r with Some n => check (Z.of_N n) | None => None end
  | _ => match digits s with Some n => check (Z.of_N n) | None => None end
  end.

(* s is a decimal numeral for n *)
Inductive numeral : string -> N -> Prop :=
| nu_one c d : digit_val c = Some d -> numeral (s1 c) d
| nu_snoc s n c d : numeral s n -> digit_val c = Some d -> numeral (s ++ s1 c) (10 * n + d).
(* with an optional sign *)
Inductive int_literal : string -> Z -> Prop :=
| il_plain s n : numeral s n -> int_literal s (Z.of_N n)
| il_plus s n : numeral s n -> int_literal (String "+" s) (Z.of_N n)
| il_minus s n : numeral s n -> int_literal (String "-" s) (- Z.of_N n).

Ltac Zify.zify_post_hook ::= Z.to_euclidean_division_equations.

Lemma digit_val_char d : (d < 10)%N -> digit_val (digit_char d) = Some d.
Proof.
  intros H. unfold digit_val, digit_char. rewrite N_ascii_embedding by lia. unfold between.
  assert (((48 <=? 48 + d) && (48 + d <=? 57))%N = true) as -> by lia. f_equal. lia.
Qed.
Lemma dec_loop_val : forall fuel n acc, (n < 2 ^ N.of_nat fuel)%N -> (0 < fuel) ->
  digits_val 0 (dec_loop fuel n acc) = digits_val n acc.
Proof.
  induction fuel as [|fuel IH]; intros n acc H Hf; [lia|]. cbn [dec_loop].
  rewrite Nat2N.inj_succ, N.pow_succ_r' in H.
  destruct (n <? 10)%N eqn:E.
  - cbn [digits_val]. rewrite digit_val_char by lia. f_equal. lia.
  - destruct fuel as [|fuel]; [cbn in H; lia|]. rewrite IH by lia. cbn [digits_val].
    rewrite digit_val_char by lia. f_equal. lia.
Qed.
Lemma dec_loop_nonempty fuel n acc : 0 < fuel -> dec_loop fuel n acc <> "".
Proof.
  revert n acc. induction fuel as [|fuel IH]; intros n acc H; [lia|]. cbn [dec_loop].
  destruct (n <? 10)%N; [discriminate|]. destruct fuel; [discriminate|]. apply IH. lia.
Qed.
Lemma digits_dec_N n : digits (dec_N n) = Some n.
Proof.
  unfold digits, dec_N. assert (H : digits_val 0 (dec_loop (S (N.to_nat (N.log2 n))) n "") = Some n).
  { rewrite dec_loop_val; auto; [|lia]. rewrite Nat2N.inj_succ, N2Nat.id.
    destruct (N.eq_0_gt_0_cases n) as [->|Hn]; [reflexivity|]. apply N.log2_spec; auto. }
  destruct (dec_loop _ n "") eqn:E; auto. exfalso. eapply (dec_loop_nonempty (S (N.to_nat (N.log2 n)))); eauto. apply Nat.lt_0_succ.
Qed.
Lemma dec_inj_N a b : dec_N a = dec_N b -> a = b.
Proof. intros E. pose proof (digits_dec_N a) as H. rewrite E, digits_dec_N in H. congruence. Qed.

Definition digit_char_b (c : ascii) : bool := between 48 57 (N_of_ascii c).
Lemma digit_char_digit d : (d < 10)%N -> digit_char_b (digit_char d) = true.
Proof. intros. unfold digit_char_b, digit_char. rewrite N_ascii_embedding by lia. unfold between. lia. Qed.
Lemma dec_loop_digits fuel : forall n acc, s_all digit_char_b acc = true -> s_all digit_char_b (dec_loop fuel n acc) = true.
Proof.
  induction fuel as [|fuel IH]; intros n acc H; cbn [dec_loop]; auto.
  assert (G : s_all digit_char_b (String (digit_char (n mod 10)) acc) = true).
  { cbn [s_all]. rewrite digit_char_digit, H by lia. auto. }
  destruct (n <? 10)%N; auto.
Qed.
Lemma dec_N_digits n : s_all digit_char_b (dec_N n) = true.
Proof. apply dec_loop_digits. auto. Qed.

Lemma dec_N_head n : exists c s, dec_N n = String c s /\ digit_char_b c = true.
Proof.
  pose proof (dec_N_digits n) as H. destruct (dec_N n) as [|c s] eqn:E.
  - pose proof (digits_dec_N n) as D. rewrite E in D. discriminate.
  - cbn [s_all] in H. apply andb_true_iff in H as [H _]. eauto.
Qed.

Lemma atoi_plain c s : digit_char_b c = true ->
  atoi (String c s) = match digits (String c s) with Some n => if in_int64 (Z.of_N n) then Some (Z.of_N n) else None | None => None end.
Proof.
  intros H. destruct c as [[] [] [] [] [] [] [] []]; try reflexivity; discriminate.
Qed.
Lemma atoi_dec z : in_int64 z = true -> atoi (dec z) = Some z.
Proof.
  intros H. destruct z as [|p|p]; [reflexivity| |].
  - cbn [dec Z.to_N]. destruct (dec_N_head (Npos p)) as (c & s & E & Hc). rewrite E.
    rewrite atoi_plain by auto. rewrite <- E, digits_dec_N. cbn [Z.of_N]. rewrite H. auto.
  - cbn [dec atoi]. rewrite digits_dec_N. cbn [Z.of_N Z.opp]. rewrite H. auto.
Qed.
Lemma parse_uint_dec bits n : (n < 2 ^ bits)%N -> parse_uint bits (dec_N n) = Some n.
Proof. intros H. unfold parse_uint. rewrite digits_dec_N. apply N.ltb_lt in H. rewrite H. auto. Qed.

Lemma digits_val_snoc s : forall acc c, digits_val acc (s ++ s1 c) =
  match digits_val acc s with Some n => match digit_val c with Some d => Some (10 * n + d)%N | None => None end | None => None end.
Proof.
  induction s as [|x s IH]; intros acc c; cbn [append digits_val]; auto. destruct (digit_val x); auto.
Qed.
Lemma numeral_nonempty s n : numeral s n -> s <> "".
Proof. destruct 1; [discriminate|]. destruct s; discriminate. Qed.
Lemma numeral_digits s n : numeral s n -> digits s = Some n.
Proof.
  intros H. pose proof (numeral_nonempty s n H) as Ne. unfold digits. destruct s; [congruence|]. clear Ne.
  induction H as [c d Hd|s' n c d Hs IH Hd].
  - cbn [s1 digits_val]. rewrite Hd. auto.
  - rewrite digits_val_snoc, IH, Hd. auto.
Qed.
Lemma digits_val_numeral : forall s p m, numeral p m -> forall n, digits_val m s = Some n -> numeral (p ++ s) n.
Proof.
  induction s as [|c s IH]; intros p m Hp n H.
  - cbn in H. injection H as <-. rewrite sapp_nil_r. auto.
  - cbn [digits_val] in H. destruct (digit_val c) as [d|] eqn:E; [|discriminate].
    replace (p ++ String c s) with ((p ++ s1 c) ++ s) by (rewrite <- sapp_assoc; auto).
    eapply IH; eauto. constructor; auto.
Qed.
Lemma digits_numeral s n : digits s = Some n <-> numeral s n.
Proof.
  split; [|apply numeral_digits]. destruct s as [|c s]; [discriminate|]. cbn [digits digits_val].
  destruct (digit_val c) as [d|] eqn:E; [|discriminate]. intros H.
  change (String c s) with (s1 c ++ s). eapply digits_val_numeral; eauto.
  replace (10 * 0 + d)%N with d by lia. constructor; auto.
Qed.
Lemma numeral_head s n : numeral s n -> exists c r, s = String c r /\ digit_char_b c = true.
Proof.
  induction 1 as [c d Hd|s n c d Hs IH Hd].
  - exists c, "". split; auto. unfold digit_val in Hd. unfold digit_char_b. destruct (between 48 57 _); auto. discriminate.
  - destruct IH as (x & r & -> & Hx). exists x, (r ++ s1 c). auto.
Qed.
Lemma atoi_spec s z : atoi s = Some z <-> int_literal s z /\ (- 2 ^ 63 <= z < 2 ^ 63)%Z.
Proof.
  split.
  - intros H. assert (G : forall r f, match digits r with Some n => if in_int64 (f n) then Some (f n) else None | None => None end = Some z ->
      exists n, numeral r n /\ z = f n /\ (- 2 ^ 63 <= z < 2 ^ 63)%Z).
    { intros r f K. destruct (digits r) as [n|] eqn:E; [|discriminate]. destruct (in_int64 (f n)) eqn:B; [|discriminate].
      injection K as <-. exists n. split; [apply digits_numeral; auto|]. split; auto. unfold in_int64 in B. lia. }
    unfold atoi in H.
    assert (D : s = "" \/ (exists r, s = String "-" r) \/ (exists r, s = String "+" r) \/
      (match digits s with Some n => if in_int64 (Z.of_N n) then Some (Z.of_N n) else None | None => None end = Some z)).
    { destruct s as [|c r]; [left; auto|right].
      destruct c as [[] [] [] [] [] [] [] []]; try (right; right; exact H); [right; left|left]; eexists; reflexivity. }
    destruct D as [->|[(r & ->)|[(r & ->)|D]]].
    + discriminate.
    + destruct (G r (fun n => - Z.of_N n)%Z H) as (n & Hn & -> & B). split; auto. apply il_minus; auto.
    + destruct (G r Z.of_N H) as (n & Hn & -> & B). split; auto. apply il_plus; auto.
    + destruct (G s Z.of_N D) as (n & Hn & -> & B). split; auto. constructor; auto.
  - intros [L B]. assert (I : in_int64 z = true) by (unfold in_int64; lia).
    destruct L as [s n H|s n H|s n H].
    + pose proof (numeral_head s n H) as (c & r & E & Hc). rewrite E. rewrite atoi_plain by auto. rewrite <- E.
      rewrite (numeral_digits s n H), I. auto.
    + cbn [atoi]. rewrite (numeral_digits s n H), I. auto.
    + cbn [atoi]. rewrite (numeral_digits s n H), I. auto.
Qed.

Lemma dec_no_space z : s_all (fun c => negb (Ascii.eqb c " ")) (dec z) = true.
Proof.
  assert (G : forall n, s_all (fun c => negb (Ascii.eqb c " ")) (dec_N n) = true).
  { intros n. pose proof (dec_N_digits n) as H. revert H. generalize (dec_N n). induction s as [|c s IH]; auto.
    cbn [s_all]. rewrite andb_true_iff. intros [Hc Hs]. rewrite IH by auto. rewrite andb_true_r.
    destruct c as [[] [] [] [] [] [] [] []]; try reflexivity; discriminate. }
  destruct z; cbn [dec s_all]; auto. rewrite G. auto.
Qed.
