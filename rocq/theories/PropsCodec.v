(* C54, C55, C69: generated marshal and unmarshal methods. *)
From Verif Require Import Base EqualModel EqualSpec Utf8 Decimal CodecModel CodecSpec CodecProofs CodecTime.
Local Open Scope string_scope.

(* C54: lists. x0 is what the receiver held before. *)
Theorem C54_strings (x0 l : list string) :
  strings_unmarshal x0 (strings_marshal l) = ((x0 ++ l)%list, true) <-> Forall word l.
Proof. exact (strings_round_trip x0 l). Qed.
Print Assumptions C54_strings.
Theorem C54_ints (x0 l : list Z) : (forall z, In z l -> (- 2 ^ 63 <= z < 2 ^ 63)%Z) ->
  ints_unmarshal x0 (ints_marshal l) = ((x0 ++ l)%list, true).
Proof. exact (ints_round_trip x0 l). Qed.
Print Assumptions C54_ints.
Theorem C54_uints (x0 l : list N) : (forall n, In n l -> (n < 2 ^ 32)%N) ->
  uints_unmarshal x0 (uints_marshal l) = ((x0 ++ l)%list, true).
Proof. exact (uints_round_trip x0 l). Qed.
Print Assumptions C54_uints.
(* floats: FormatFloat and ParseFloat are parameters *)
Theorem C54_items {A : Type} (show : A -> string) (read : string -> option A) (x0 l : list A) :
  (forall v, In v l -> word (show v) /\ read (show v) = Some v) ->
  list_unmarshal read x0 (list_marshal show l) = ((x0 ++ l)%list, true).
Proof. exact (list_round_trip show read x0 l). Qed.
Print Assumptions C54_items.
(* which texts are accepted, and as what *)
Theorem C54_accepts_ints (x0 : list Z) (text : string) (y : list Z) : ints_unmarshal x0 text = (y, true) <->
  exists fs vs, words text fs /\ Forall2 (fun f v => int_literal f v /\ (- 2 ^ 63 <= v < 2 ^ 63)%Z) fs vs /\ y = (x0 ++ vs)%list.
Proof. exact (ints_unmarshal_spec x0 text y). Qed.
Print Assumptions C54_accepts_ints.
(* lists of byte and unsignedByte are not read as numbers *)
Theorem C54_bytes_refuted : exists text fs vs, words text fs /\ Forall2 numeral fs vs /\ (forall v, In v vs -> (v < 128)%N) /\
  fst (bytes_unmarshal [] text) <> vs.
Proof. exact byte_lists_raw. Qed.
Print Assumptions C54_bytes_refuted.
Example c54_ex : strings_marshal ["a"; "bc"] = "a bc" /\ Forall word ["a"; "bc"] /\
  ints_unmarshal [7%Z] (String "009" "-5  +12") = ([7; -5; 12]%Z, true) /\ ints_unmarshal [] "3 x 4" = ([3%Z], false).
Proof.
  split; [reflexivity|]. split; [|vm_compute; auto].
  apply (fields_join ["a"; "bc"]). vm_compute. reflexivity.
Qed.

(* C55: binary *)
Theorem C55_hex (b : string) : hex_decode (hex_encode b) = Some b.
Proof. exact (hex_round_trip b). Qed.
Print Assumptions C55_hex.
Theorem C55_hex_text (s b : string) : hex_decode s = Some b <-> hex_text s b.
Proof. exact (hex_decode_spec s b). Qed.
Print Assumptions C55_hex_text.
Theorem C55_base64 (b : string) : b64_decode (b64_encode b) = Some b.
Proof. exact (b64_round_trip b). Qed.
Print Assumptions C55_base64.
Theorem C55_base64_text (b : string) : base64_text (b64_encode b) b.
Proof. exact (b64_encode_text (String.length b) b (le_n _)). Qed.
Print Assumptions C55_base64_text.
Theorem C55_base64_wrapped (t b : string) : drop_nl t = b64_encode b -> b64_decode t = Some b.
Proof. exact (b64_wrapped t b). Qed.
Print Assumptions C55_base64_wrapped.
(* surrounding white space, which XML Schema says to collapse, makes a value unreadable *)
Theorem C55_hex_space_refuted : exists t b, hex_decode t = Some b /\ hex_decode (t ++ s1 "010") = None.
Proof. exact hex_no_collapse. Qed.
Print Assumptions C55_hex_space_refuted.
Theorem C55_base64_space_refuted : exists t b, b64_decode t = Some b /\ b64_decode (t ++ s1 "010") = Some b /\ b64_decode (t ++ " ") = None.
Proof. exact b64_spaces. Qed.
Print Assumptions C55_base64_space_refuted.
Example c55_ex : hex_encode "Go" = "476f" /\ hex_decode "476F" = Some "Go" /\ b64_encode "any carnal pleas" = "YW55IGNhcm5hbCBwbGVhcw==" /\
  drop_nl (String "010" "R28=") = b64_encode "Go".
Proof. vm_compute. auto. Qed.

(* C69: dates and times *)
Theorem C69_dateTime (t : civil) : valid_time t -> unmarshal_time layout_dateTime (marshal_time layout_dateTime t) = Some t.
Proof. exact (dateTime_round_trip t). Qed.
Print Assumptions C69_dateTime.
Theorem C69_date (t : civil) : valid_time t -> unmarshal_time layout_date (marshal_time layout_date t) = Some (only_date t).
Proof. exact (date_round_trip t). Qed.
Print Assumptions C69_date.
Theorem C69_time (t : civil) : valid_time t -> unmarshal_time layout_time (marshal_time layout_time t) = Some (only_time t).
Proof. exact (gTime_round_trip t). Qed.
Print Assumptions C69_time.
Theorem C69_gDay (t : civil) : valid_time t -> unmarshal_time layout_gDay (marshal_time layout_gDay t) = Some (only_gDay t).
Proof. exact (gDay_round_trip t). Qed.
Print Assumptions C69_gDay.
Theorem C69_gMonth (t : civil) : valid_time t -> unmarshal_time layout_gMonth (marshal_time layout_gMonth t) = Some (only_gMonth t).
Proof. exact (gMonth_round_trip t). Qed.
Print Assumptions C69_gMonth.
Theorem C69_gMonthDay (t : civil) : valid_time t -> unmarshal_time layout_gMonthDay (marshal_time layout_gMonthDay t) = Some (only_gMonthDay t).
Proof. exact (gMonthDay_round_trip t). Qed.
Print Assumptions C69_gMonthDay.
Theorem C69_gYear (t : civil) : valid_time t -> unmarshal_time layout_gYear (marshal_time layout_gYear t) = Some (only_gYear t).
Proof. exact (gYear_round_trip t). Qed.
Print Assumptions C69_gYear.
Theorem C69_gYearMonth (t : civil) : valid_time t -> unmarshal_time layout_gYearMonth (marshal_time layout_gYearMonth t) = Some (only_gYearMonth t).
Proof. exact (gYearMonth_round_trip t). Qed.
Print Assumptions C69_gYearMonth.
Theorem C69_white_space (l : list chunk) (u x v : string) : blank u -> blank v -> unmarshal_time l (u ++ x ++ v) = unmarshal_time l x.
Proof. exact (time_spaces l u x v). Qed.
Print Assumptions C69_white_space.
(* outside years 0 to 9999 and whole minutes values are lost *)
Theorem C69_far_years_refuted : exists t, (c_year t = 10000)%Z /\ unmarshal_time layout_date (marshal_time layout_date t) = None.
Proof. exact far_years. Qed.
Print Assumptions C69_far_years_refuted.
Theorem C69_offset_seconds_refuted : exists t, (c_off t = 5025)%Z /\ unmarshal_time layout_dateTime (marshal_time layout_dateTime t) <> Some t.
Proof. exact odd_offsets. Qed.
Print Assumptions C69_offset_seconds_refuted.
Example c69_ex : let t := mkCivil 2024 2 29 23 5 9 120000000 (-19800) in
  valid_time t /\ marshal_time layout_dateTime t = "2024-02-29T23:05:09.12-05:30" /\ marshal_time layout_gMonthDay t = "--02-29-05:30" /\
  unmarshal_time layout_time " 7:05:09.5Z " = Some (mkCivil 0 1 1 7 5 9 500000000 0).
Proof.
  cbn zeta. split; [|vm_compute; auto]. unfold valid_time. cbn [c_year c_month c_day c_hour c_min c_sec c_ns c_off].
  change (days_in 2 2024) with 29%Z. repeat split; try lia. exists (-330)%Z. reflexivity.
Qed.
