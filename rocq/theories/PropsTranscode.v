(* C11, C66: documents in other encodings. *)
From Verif Require Import Base ScopeModel TreeModel ParseModel ParseSpec ParseProofs DecodeModel TranscodeModel TranscodeSpec TranscodeProofs.

(* u: the transcoded text after the XML declaration, without its first byte x *)
Theorem C11_content_off_by_one :
  forall sortns p x u el' off rest,
  parse sortns u (decode u) = POk el' off rest ->
  exists el, parse_transcoded sortns p (String x u) = POk el (p + off) (shift_stream p rest) /\
             off_by_one (String x u) el el'.
Proof. exact transcoded_content. Qed.
Print Assumptions C11_content_off_by_one.

Theorem C11_errors_unchanged :
  forall sortns p x u err,
  parse sortns u (decode u) = PErr err -> err <> EPanic ->
  parse_transcoded sortns p (String x u) = PErr err.
Proof. exact transcoded_error. Qed.
Print Assumptions C11_errors_unchanged.

Definition newline1 := String "010" "".
(* Content is not the text between the tags; nothing after the declaration: panic; no white
   space after the declaration: the first < is lost *)
Theorem C11_content_refuted :
  exists u el el' off off',
  parse isort_ns u (decode u) = POk el' off' [] /\ parse_transcoded isort_ns 44 (newline1 ++ u) = POk el off [] /\
  u = "<a>hello</a>" /\ e_content el' = "hello" /\ e_content el = ">hell".
Proof. exact content_shifted. Qed.
Print Assumptions C11_content_refuted.
Theorem C11_no_space_refuted :
  exists u el off, parse isort_ns u (decode u) = POk el off [] /\
  forall p, parse_transcoded isort_ns p u = PErr EStream.
Proof. exact no_space. Qed.
Print Assumptions C11_no_space_refuted.
Theorem C11_empty_panics_refuted :
  exists u, forall sortns p, parse sortns u (decode u) = PErr EStream /\ parse_transcoded sortns p u = PErr EPanic.
Proof. exact empty_panics. Qed.
Print Assumptions C11_empty_panics_refuted.

(* C66: the buffer after the copy; dec is a single-byte character set *)
Theorem C66_copy_in_place :
  forall dec, (forall c, 1 <= List.length (dec c) <= 4) ->
  forall doc p, p <= List.length doc ->
  ((N.of_nat (List.length doc) <= N.of_nat p + 4096)%N \/ (forall c, In c (skipn p doc) -> List.length (dec c) = 1)) ->
  exists k, forall fuel, k <= fuel ->
  utf8_buffer dec fuel doc p = Some (repeat "000"%char p ++ transcode dec (skipn p doc)).
Proof. exact copy_ok. Qed.
Print Assumptions C66_copy_in_place.

Example latin1_example : (forall c, 1 <= List.length (latin1 c) <= 4) /\
  utf8_buffer latin1 10 ["?"%char; ">"%char; "x"%char; ascii_of_N 233; "y"%char] 2 =
  Some (["000"%char; "000"%char; "x"%char; ascii_of_N 195; ascii_of_N 169; "y"%char]).
Proof. split; [exact latin1_size|]. vm_compute. reflexivity. Qed.

Theorem C66_long_documents_corrupted_refuted :
  exists doc p buf, p <= List.length doc /\ utf8_buffer latin1 20 doc p = Some buf /\
  buf <> repeat "000"%char p ++ transcode latin1 (skipn p doc).
Proof. exact corrupted. Qed.
Print Assumptions C66_long_documents_corrupted_refuted.
