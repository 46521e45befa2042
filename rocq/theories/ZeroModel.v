(* Model of MarshalXML and MarshalXMLAttr of the helper types for dates and times (xsdgen/config.go:646-675),
   of time.Time.IsZero, and of what encoding/xml makes of them: a MarshalXML that writes nothing leaves
   no trace, an attribute without a name is not written (marshal.go, marshalAttr), a field that is not in
   the document keeps its value, in a new struct time.Time{}. *)
From Verif Require Import Base CodecModel.
Local Open Scope string_scope.

(* days from January 1, year 1, to January 1, year y, and to the first of a month *)
Definition year_days (y : Z) : Z := (365 * (y - 1) + (y - 1) / 4 - (y - 1) / 100 + (y - 1) / 400)%Z.
Definition month_days (m y : Z) : Z := fold_left (fun n k => if (k <? m)%Z then (n + days_in k y)%Z else n) [1; 2; 3; 4; 5; 6; 7; 8; 9; 10; 11]%Z 0%Z.
Definition day_number (y m d : Z) : Z := (year_days y + month_days m y + (d - 1))%Z.
(* seconds since January 1, year 1, 00:00:00 UTC *)
Definition seconds (t : civil) : Z := (((day_number (c_year t) (c_month t) (c_day t) * 24 + c_hour t) * 60 + c_min t) * 60 + c_sec t - c_off t)%Z.
(* time.Time.IsZero *)
Definition is_zero (t : civil) : bool := ((seconds t =? 0) && (c_ns t =? 0))%Z.
(* time.Time{} *)
Definition zero_time : civil := mkCivil 1 1 1 0 0 0 0 0.

(* config.go:646-664 with the fields' layout: the text of the element, or no element *)
Definition marshal_xml (l : list chunk) (t : civil) : option string := if is_zero t then None else Some (marshal_time l t).
(* config.go:665-675: name and value of an xml.Attr *)
Definition marshal_xml_attr (l : list chunk) (name : string) (t : civil) : string * string :=
  if is_zero t then ("", "") else (name, marshal_time l t).
(* marshalAttr: what is appended to start.Attr *)
Definition written_attr (a : string * string) : list (string * string) := if String.eqb (fst a) "" then [] else [a].
(* the field of a new struct after Unmarshal; None: an error *)
Definition read_xml (l : list chunk) (text : option string) : option civil :=
  match text with Some s => unmarshal_time l s | None => Some zero_time end.
Definition read_attr (l : list chunk) (name : string) (attrs : list (string * string)) : option civil :=
  read_xml l (option_map snd (find (fun a => String.eqb (fst a) name) attrs)).
