(* White-space separated lists, the lexical forms of binary values, dates. *)
From Verif Require Import Base EqualModel EqualSpec Utf8 Decimal CodecModel.
Local Open Scope string_scope.

(* some white space character occurs in s *)
Definition has_white (s : string) : Prop := exists a w b, In w white /\ s = a ++ w ++ b.
Definition word (s : string) : Prop := s <> "" /\ ~ has_white s.
(* s consists of the words l, separated by non-empty white space, with white space around *)
Inductive words : string -> list string -> Prop :=
| w_nil s : blank s -> words s []
| w_last g t s : blank g -> word t -> blank s -> words (g ++ t ++ s) [t]
| w_cons g t s l : blank g -> word t -> l <> [] -> words s l -> (exists c r, In c white /\ s = c ++ r) -> words (g ++ t ++ s) (t :: l).

(* hexBinary: pairs of hexadecimal digits of either case *)
Inductive hex_digit : ascii -> N -> Prop :=
| hx_digit c : (48 <= N_of_ascii c <= 57)%N -> hex_digit c (N_of_ascii c - 48)
| hx_lower c : (97 <= N_of_ascii c <= 102)%N -> hex_digit c (N_of_ascii c - 87)
| hx_upper c : (65 <= N_of_ascii c <= 70)%N -> hex_digit c (N_of_ascii c - 55).
Inductive hex_text : string -> string -> Prop :=
| ht_nil : hex_text "" ""
| ht_cons a b c x y s t : hex_digit a x -> hex_digit b y -> N_of_ascii c = (16 * x + y)%N -> hex_text s t ->
    hex_text (String a (String b s)) (String c t).

(* the bits of a byte string, most significant first; six bits for each base64 character *)
Fixpoint bits (k : nat) (n : N) : list bool := match k with O => [] | S k' => (bits k' (n / 2) ++ [N.odd n])%list end.
Definition byte_bits (s : string) : list bool := flat_map (fun c => bits 8 (N_of_ascii c)) (list_ascii_of_string s).
Definition sextet (c : ascii) : option N :=
  let n := N_of_ascii c in
  if between 65 90 n then Some (n - 65)%N else if between 97 122 n then Some (n - 71)%N
  else if between 48 57 n then Some (n + 4)%N else if (n =? 43)%N then Some 62%N else if (n =? 47)%N then Some 63%N else None.
Fixpoint sextets (s : string) : option (list bool) :=
  match s with
  | "" => Some []
  | String c r => match sextet c, sextets r with Some v, Some l => Some (bits 6 v ++ l)%list | _, _ => None end
  end.
(* RFC 4648 section 4: t is the base64 text of b *)
Definition base64_text (t b : string) : Prop :=
  exists body padding fill, t = body ++ padding /\ sextets body = Some (byte_bits b ++ fill)%list /\
    (forall x, In x fill -> x = false) /\
    String.length t mod 4 = 0 /\
    (padding = "" /\ fill = [] \/ padding = "=" /\ List.length fill = 2 \/ padding = "==" /\ List.length fill = 4).

(* Times that a schema value can denote: a day of the calendar, an offset in minutes *)
Definition valid_time (t : civil) : Prop :=
  (0 <= c_year t <= 9999 /\ 1 <= c_month t <= 12 /\ 1 <= c_day t <= days_in (c_month t) (c_year t) /\
   0 <= c_hour t <= 23 /\ 0 <= c_min t <= 59 /\ 0 <= c_sec t <= 59 /\ 0 <= c_ns t < 1000000000 /\
   - 86400 <= c_off t <= 86400 /\ (60 | c_off t))%Z.
(* what remains of t in each type *)
Definition only_date t := mkCivil (c_year t) (c_month t) (c_day t) 0 0 0 0 (c_off t).
Definition only_time t := mkCivil 0 1 1 (c_hour t) (c_min t) (c_sec t) (c_ns t) (c_off t).
Definition only_gDay t := mkCivil 0 1 (c_day t) 0 0 0 0 (c_off t).
Definition only_gMonth t := mkCivil 0 (c_month t) 1 0 0 0 0 (c_off t).
Definition only_gMonthDay t := mkCivil 0 (c_month t) (c_day t) 0 0 0 0 (c_off t).
Definition only_gYear t := mkCivil (c_year t) 1 1 0 0 0 0 (c_off t).
Definition only_gYearMonth t := mkCivil (c_year t) (c_month t) 1 0 0 0 0 (c_off t).
