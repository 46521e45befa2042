(* UTF-8 as in Go's unicode/utf8. *)
From Verif Require Import Base EqualModel.

Definition byte_at (s : string) (i : nat) : option N :=
  match String.get i s with Some c => Some (N_of_ascii c) | None => None end.
Definition between (lo hi n : N) : bool := ((lo <=? n) && (n <=? hi))%N.

(* utf8.DecodeRuneInString on a non-empty string: rune and width; None is an invalid
   encoding (RuneError with width 1) *)
Definition decode_rune (s : string) : option (N * nat) :=
  match byte_at s 0, byte_at s 1, byte_at s 2, byte_at s 3 with
  | Some b0, o1, o2, o3 =>
      if (b0 <? 128)%N then Some (b0, 1)
      else if between 194 223 b0 then
        match o1 with
        | Some b1 => if between 128 191 b1 then Some ((b0 - 192) * 64 + (b1 - 128), 2%nat)%N else None
        | None => None
        end
      else if between 224 239 b0 then
        match o1, o2 with
        | Some b1, Some b2 =>
            if between (if (b0 =? 224)%N then 160 else 128) (if (b0 =? 237)%N then 159 else 191) b1 && between 128 191 b2
            then Some ((b0 - 224) * 4096 + (b1 - 128) * 64 + (b2 - 128), 3%nat)%N else None
        | _, _ => None
        end
      else if between 240 244 b0 then
        match o1, o2, o3 with
        | Some b1, Some b2, Some b3 =>
            if between (if (b0 =? 240)%N then 144 else 128) (if (b0 =? 244)%N then 143 else 191) b1 && between 128 191 b2 && between 128 191 b3
            then Some ((b0 - 240) * 262144 + (b1 - 128) * 4096 + (b2 - 128) * 64 + (b3 - 128), 4%nat)%N else None
        | _, _, _ => None
        end
      else None
  | None, _, _, _ => None
  end.

(* the UTF-8 encoding of a code point *)
Definition encode_rune (r : N) : string :=
  if (r <? 128)%N then bytes [r]
  else if (r <? 2048)%N then bytes [192 + r / 64; 128 + r mod 64]%N
  else if (r <? 65536)%N then bytes [224 + r / 4096; 128 + (r / 64) mod 64; 128 + r mod 64]%N
  else bytes [240 + r / 262144; 128 + (r / 4096) mod 64; 128 + (r / 64) mod 64; 128 + r mod 64]%N.

(* Unicode scalar values *)
Definition scalar (r : N) : Prop := (r < 55296 \/ (57344 <= r /\ r < 1114112))%N.

Inductive utf8 : string -> Prop :=
| u_nil : utf8 ""
| u_cons r s : scalar r -> utf8 s -> utf8 (encode_rune r ++ s).

Ltac Zify.zify_post_hook ::= Z.to_euclidean_division_equations.

Lemma of_ascii_of_N c : ascii_of_N (N_of_ascii c) = c.
Proof. apply ascii_N_embedding. Qed.

Lemma byte_at_cons c s i : byte_at (String c s) (S i) = byte_at s i.
Proof. reflexivity. Qed.
Lemma byte_at_0 c s : byte_at (String c s) 0 = Some (N_of_ascii c).
Proof. reflexivity. Qed.

Lemma ascii_is n c : N_of_ascii c = n -> ascii_of_N n = c.
Proof. intros <-. apply ascii_N_embedding. Qed.

Lemma decode_encode s r w : decode_rune s = Some (r, w) ->
  scalar r /\ 1 <= w <= 4 /\ s = (encode_rune r ++ s_drop w s)%string.
Proof.
  unfold decode_rune. destruct s as [|c0 s]; [discriminate|]. rewrite byte_at_0.
  pose proof (N_ascii_bounded c0) as B0.
  destruct (N_of_ascii c0 <? 128)%N eqn:E0.
  { intros [= <- <-]. split; [unfold scalar; lia|]. split; [lia|]. unfold encode_rune. rewrite E0.
    cbn [bytes fold_right append s_drop]. rewrite (ascii_is _ c0); auto. }
  destruct s as [|c1 s].
  { cbn [byte_at String.get]. destruct (between 194 223 (N_of_ascii c0)), (between 224 239 (N_of_ascii c0)), (between 240 244 (N_of_ascii c0)); discriminate. }
  rewrite (byte_at_cons c0), byte_at_0. pose proof (N_ascii_bounded c1) as B1.
  destruct (between 194 223 (N_of_ascii c0)) eqn:E1.
  { destruct (between 128 191 (N_of_ascii c1)) eqn:E2; [|discriminate]. intros [= <- <-].
    unfold between in *. set (b0 := N_of_ascii c0) in *. set (b1 := N_of_ascii c1) in *.
    split; [unfold scalar; lia|]. split; [lia|]. unfold encode_rune.
    assert (((b0 - 192) * 64 + (b1 - 128) <? 128)%N = false) as -> by lia.
    assert (((b0 - 192) * 64 + (b1 - 128) <? 2048)%N = true) as -> by lia.
    cbn [bytes fold_right append s_drop].
    rewrite (ascii_is (192 + ((b0 - 192) * 64 + (b1 - 128)) / 64)%N c0), (ascii_is (128 + ((b0 - 192) * 64 + (b1 - 128)) mod 64)%N c1); auto;
      fold b0 b1; lia. }
  destruct s as [|c2 s].
  { cbn [byte_at String.get]. destruct (between 224 239 (N_of_ascii c0)), (between 240 244 (N_of_ascii c0)); discriminate. }
  rewrite (byte_at_cons c0), (byte_at_cons c1), byte_at_0. pose proof (N_ascii_bounded c2) as B2.
  destruct (between 224 239 (N_of_ascii c0)) eqn:E2.
  { destruct (between _ _ (N_of_ascii c1) && between 128 191 (N_of_ascii c2)) eqn:E3; [|discriminate]. intros [= <- <-].
    unfold between in *. set (b0 := N_of_ascii c0) in *. set (b1 := N_of_ascii c1) in *. set (b2 := N_of_ascii c2) in *.
    assert (H1 : (128 <= b1 <= 191)%N) by (destruct (b0 =? 224)%N, (b0 =? 237)%N; lia).
    assert (H2 : (b0 = 224 -> 160 <= b1)%N) by (destruct (b0 =? 224)%N eqn:?; lia).
    assert (H3 : (b0 = 237 -> b1 <= 159)%N) by (destruct (b0 =? 237)%N eqn:?, (b0 =? 224)%N eqn:?; lia).
    assert (H4 : (128 <= b2 <= 191)%N) by (destruct (b0 =? 224)%N, (b0 =? 237)%N; lia).
    assert (Hb : (224 <= b0 <= 239)%N) by lia. clear E3 E2 E1 E0.
    set (r := ((b0 - 224) * 4096 + (b1 - 128) * 64 + (b2 - 128))%N).
    assert (Hr : (2048 <= r < 65536)%N) by (unfold r; lia).
    split; [unfold scalar, r in *; lia|]. split; [lia|]. unfold encode_rune.
    assert ((r <? 128)%N = false) as -> by lia. assert ((r <? 2048)%N = false) as -> by lia. assert ((r <? 65536)%N = true) as -> by lia.
    cbn [bytes fold_right append s_drop].
    rewrite (ascii_is (224 + r / 4096)%N c0), (ascii_is (128 + (r / 64) mod 64)%N c1), (ascii_is (128 + r mod 64)%N c2); auto;
      fold b0 b1 b2; unfold r; lia. }
  destruct s as [|c3 s].
  { cbn [byte_at String.get]. destruct (between 240 244 (N_of_ascii c0)); discriminate. }
  rewrite (byte_at_cons c0), (byte_at_cons c1), (byte_at_cons c2), byte_at_0. pose proof (N_ascii_bounded c3) as B3.
  destruct (between 240 244 (N_of_ascii c0)) eqn:E3; [|discriminate].
  destruct (between _ _ (N_of_ascii c1) && between 128 191 (N_of_ascii c2) && between 128 191 (N_of_ascii c3)) eqn:E4; [|discriminate]. intros [= <- <-].
  unfold between in *. set (b0 := N_of_ascii c0) in *. set (b1 := N_of_ascii c1) in *. set (b2 := N_of_ascii c2) in *. set (b3 := N_of_ascii c3) in *.
  assert (H1 : (128 <= b1 <= 191)%N) by (destruct (b0 =? 240)%N, (b0 =? 244)%N; lia).
  assert (H2 : (b0 = 240 -> 144 <= b1)%N) by (destruct (b0 =? 240)%N eqn:?; lia).
  assert (H3 : (b0 = 244 -> b1 <= 143)%N) by (destruct (b0 =? 244)%N eqn:?, (b0 =? 240)%N eqn:?; lia).
  assert (H4 : (128 <= b2 <= 191)%N) by (destruct (b0 =? 240)%N, (b0 =? 244)%N; lia).
  assert (H5 : (128 <= b3 <= 191)%N) by (destruct (b0 =? 240)%N, (b0 =? 244)%N; lia).
  assert (Hb : (240 <= b0 <= 244)%N) by lia. clear E4 E3 E2 E1 E0.
  set (r := ((b0 - 240) * 262144 + (b1 - 128) * 4096 + (b2 - 128) * 64 + (b3 - 128))%N).
  assert (Hr : (65536 <= r < 1114112)%N) by (unfold r; lia).
  split; [unfold scalar; lia|]. split; [lia|]. unfold encode_rune.
  assert ((r <? 128)%N = false) as -> by lia. assert ((r <? 2048)%N = false) as -> by lia. assert ((r <? 65536)%N = false) as -> by lia.
  cbn [bytes fold_right append s_drop].
  rewrite (ascii_is (240 + r / 262144)%N c0), (ascii_is (128 + (r / 4096) mod 64)%N c1), (ascii_is (128 + (r / 64) mod 64)%N c2), (ascii_is (128 + r mod 64)%N c3); auto;
    fold b0 b1 b2 b3; unfold r; lia.
Qed.
