(* C94: fields of date and time types are written unless they hold the zero time. *)
From Verif Require Import Base CodecModel CodecSpec ZeroModel ZeroProofs.
Local Open Scope string_scope.

(* C94: the days are counted as the calendar has them *)
Theorem C94_calendar : day_number 1 1 1 = 0%Z /\
  (forall y m d, day_number y m (d + 1) = (day_number y m d + 1)%Z) /\
  (forall y m, (1 <= m <= 11)%Z -> day_number y (m + 1) 1 = (day_number y m (days_in m y) + 1)%Z) /\
  (forall y, day_number (y + 1) 1 1 = (day_number y 12 31 + 1)%Z).
Proof. exact (conj eq_refl (conj next_day (conj next_month next_year))). Qed.
Print Assumptions C94_calendar.
(* C94: no element and no attribute is written exactly for January 1, year 1, 00:00:00 UTC, told in any zone *)
Theorem C94_left_out l name t : valid_time t -> name <> "" ->
  (marshal_xml l t = None <-> midnight1 t) /\ (written_attr (marshal_xml_attr l name t) = [] <-> midnight1 t).
Proof. exact (left_out l name t). Qed.
Print Assumptions C94_left_out.
(* C94: what is read back into a new struct: what the type keeps of the time, or the zero time *)
Theorem C94_element l only t : In (l, only) kinds -> valid_time t -> read_xml l (marshal_xml l t) = Some (if is_zero t then zero_time else only t).
Proof. exact (element_read l only t). Qed.
Print Assumptions C94_element.
Theorem C94_attribute l only t name more : In (l, only) kinds -> valid_time t -> name <> "" -> (forall v, ~ In (name, v) more) ->
  read_attr l name (more ++ written_attr (marshal_xml_attr l name t)) = Some (if is_zero t then zero_time else only t).
Proof. exact (attribute_read l only t name more). Qed.
Print Assumptions C94_attribute.
(* C94: a dateTime is the same instant afterwards *)
Theorem C94_instant t : valid_time t -> exists u, read_xml layout_dateTime (marshal_xml layout_dateTime t) = Some u /\ seconds u = seconds t /\ c_ns u = c_ns t.
Proof. exact (instant t). Qed.
Print Assumptions C94_instant.
(* C94: what was read as time, gDay or gMonth is always written *)
Theorem C94_always_written l s t : In l [layout_time; layout_gDay; layout_gMonth] -> unmarshal_time l s = Some t -> marshal_xml l t <> None.
Proof. exact (always_written l s t). Qed.
Print Assumptions C94_always_written.
Example zero_example : let t := mkCivil 2024 2 29 23 5 9 0 (-19800) in valid_time t /\ ~ midnight1 t /\ marshal_xml layout_date t = Some "2024-02-29-05:30" /\
  seconds t = 63844864509%Z /\ read_attr layout_date "d" [("a", "1"); ("d", "2024-02-29-05:30")] = Some (only_date t).
Proof. exact zero_case. Qed.
Example zero_noon : let t := mkCivil 1 1 1 1 0 0 0 3600 in valid_time t /\ midnight1 t /\ marshal_xml layout_dateTime t = None.
Proof. exact zero_zone. Qed.
(* values in a document that are dropped when it is written again, required or not *)
Theorem C94_reproduced_refuted : Forall (fun p => exists t, unmarshal_time (fst p) (snd p) = Some t /\ marshal_xml (fst p) t = None /\ written_attr (marshal_xml_attr (fst p) "day" t) = [])
  [(layout_date, "0001-01-01"); (layout_dateTime, "0001-01-01T00:00:00"); (layout_gYear, "0001"); (layout_gYearMonth, "0001-01"); (layout_gMonthDay, "--12-31-24:00")].
Proof. exact dropped. Qed.
Print Assumptions C94_reproduced_refuted.
(* the zone of the zero time is lost *)
Theorem C94_zone_refuted : exists t, valid_time t /\ c_off t <> 0%Z /\ exists u, read_xml layout_dateTime (marshal_xml layout_dateTime t) = Some u /\ c_off u = 0%Z /\ u <> t.
Proof. exact zone_lost. Qed.
Print Assumptions C94_zone_refuted.
