(* Model of xsd/builtin.go, xsd/builtin_string.go, the built-in schema of
   xsd/standard-schema.go:1414-1423, xsdgen/builtin.go and the case analysis of
   genSimpleListSpec (xsdgen/xsdgen.go:937-1136). A Builtin is an int, here Z. *)
From Verif Require Import Base EqualModel Utf8 Decimal.
Local Open Scope string_scope.

Definition schemaNS := "http://www.w3.org/2001/XMLSchema".

(* builtin_string.go: _Builtin_name, _Builtin_index *)
Definition blob := "AnyTypeENTITIESENTITYIDIDREFIDREFSNCNameNMTOKENNMTOKENSNOTATIONNameQNameAnyURIBase64BinaryBooleanByteDateDateTimeDecimalDoubleDurationFloatGDayGMonthGMonthDayGYearGYearMonthHexBinaryIntIntegerLanguageLongNegativeIntegerNonNegativeIntegerNonPositiveIntegerNormalizedStringPositiveIntegerShortStringTimeTokenUnsignedByteUnsignedIntUnsignedLongUnsignedShortXMLLangXMLSpaceXMLBaseXMLIdAnySimpleType".
Definition index : list nat :=
  [0; 7; 15; 21; 23; 28; 34; 40; 47; 55; 63; 67; 72; 78; 90; 97; 101; 105; 113; 120; 126; 134; 139; 143; 149; 158; 163;
   173; 182; 185; 192; 200; 204; 219; 237; 255; 271; 286; 291; 297; 301; 306; 318; 329; 341; 354; 361; 369; 376; 381; 394].

(* builtin_string.go: String *)
Definition b_string (i : Z) : string :=
  if ((i <? 0) || (Z.of_nat (List.length index - 1) <=? i))%Z then "Builtin(" ++ dec i ++ ")"
  else let k := Z.to_nat i in let a := nth k index 0 in let b := nth (S k) index 0 in substring a (b - a) blob.

(* unicode.ToLower for the first letters that occur (all ASCII) *)
Definition to_lower (c : ascii) : ascii :=
  let n := N_of_ascii c in if between 65 90 n then ascii_of_N (n + 32) else c.
Definition lower_first (s : string) : string := match s with String c r => String (to_lower c) r | "" => "" end.

Definition upper_names : list Z := [1; 2; 3; 4; 5; 6; 7; 8; 9; 11; 10]%Z.
Definition xml_names : list Z := [45; 46; 47; 48]%Z.
Definition memb (b : Z) (l : list Z) : bool := existsb (Z.eqb b) l.

(* builtin.go:77-90 *)
Definition b_name (b : Z) : xname :=
  let name := b_string b in
  if memb b upper_names then mkName schemaNS name
  else if memb b xml_names then mkName "http://www.w3.org/2009/01/xml.xsd" (lower_first name)
  else mkName schemaNS (lower_first name).

(* builtin.go:95-102: for i := AnyType; i <= AnySimpleType; i++ *)
Definition all_builtins : list Z := map Z.of_nat (seq 0 50).
Definition parse_builtin (q : xname) : option Z := find (fun i => xname_eqb (b_name i) q) all_builtins.

(* standard-schema.go:1414-1423: the keys of builtinSchema.Types with their values *)
Definition builtin_schema : list (xname * Z) := map (fun i => (b_name (Z.of_nat i), Z.of_nat i)) (seq 0 44).

(* xsdgen/builtin.go: the table; None is a nil entry of the slice literal *)
Inductive gotype := GIdent (n : string) | GArray (n : string).
Definition tbl : list (option gotype) :=
  let S := Some (GIdent "string") in let SS := Some (GArray "string") in let T := Some (GIdent "time.Time") in
  let B := Some (GArray "byte") in let I := Some (GIdent "int") in
  [S; SS; S; S; S; SS; S; S; SS; SS; S; Some (GIdent "xml.Name"); S; B; Some (GIdent "bool"); Some (GIdent "byte"); T; T;
   Some (GIdent "float64"); Some (GIdent "float64"); S; Some (GIdent "float32"); T; T; T; T; T; B; I; I; S; Some (GIdent "int64");
   I; I; I; S; I; I; S; T; S; Some (GIdent "byte"); Some (GIdent "uint"); Some (GIdent "uint64"); Some (GIdent "uint");
   None; None; None; None; S].

(* builtin.go:9-14 *)
Inductive result := Panics | Returns (t : option gotype).
Definition builtin_expr (b : Z) : result :=
  if ((Z.of_nat (List.length tbl) <? b) || (b <? 0))%Z then Returns None
  else match nth_error tbl (Z.to_nat b) with Some t => Returns t | None => Panics end.

(* builtin.go:18-30 *)
Definition non_trivial (b : Z) : bool := memb b [13; 27; 16; 39; 17; 22; 23; 24; 25; 26]%Z.

(* xsdgen.go:962-1120: which method bodies are generated for the built-in at the end of the
   item type's base chain *)
Inductive codec := CStrings | CTimes | CInt64 | CFloats | CInts | CUints | CUint64 | CBytes | CBools.
Definition list_codec (b : Z) : option codec :=
  if memb b [3; 6; 7; 10; 11; 2; 12; 30; 38; 40; 45; 46; 47; 48; 20; 35; 49]%Z then Some CStrings
  else if memb b [16; 17; 22; 23; 24; 25; 26; 39]%Z then Some CTimes
  else if memb b [31]%Z then Some CInt64
  else if memb b [18; 19]%Z then Some CFloats
  else if memb b [28; 29; 32; 33; 34; 37]%Z then Some CInts
  else if memb b [42; 44]%Z then Some CUints
  else if memb b [43]%Z then Some CUint64
  else if memb b [15; 41]%Z then Some CBytes
  else if memb b [14]%Z then Some CBools
  else None.
(* the bodies go through go/parser; that of MarshalText for booleans has a syntax error
   (line 1093: make([][]byte without closing parenthesis) *)
Definition body_parses (c : codec) : bool := match c with CBools => false | _ => true end.

(* The item type of a list, with its chain of bases: a built-in, a user type whose Base may be
   nil (a union without member types has none), or an unresolved link. *)
Inductive item := IBuiltin (b : Z) | IType (base : option item) | ILink.
(* xsd/xsd.go:309-320 Base, followed to the end (xsdgen.go:957-960) *)
Fixpoint chain_end (i : item) : item := match i with IType (Some j) => chain_end j | _ => i end.
Inductive listgen := LPanic | LErr | LOk (c : codec).
(* xsdgen.go:937-1136. cfg.expr (xsdgen/config.go:442-451) fails on a nil table entry and, through
   XMLName, panics on a nil type; it names any other type. base.(xsd.Builtin) panics unless the
   chain ends in a built-in. *)
Definition gen_list (base : option item) : listgen :=
  match base with
  | None => LPanic
  | Some i =>
      let go := match chain_end i with
        | IBuiltin b => match list_codec b with Some c => if body_parses c then LOk c else LErr | None => LErr end
        | _ => LPanic end in
      match i with
      | IBuiltin b => match builtin_expr b with Panics => LPanic | Returns None => LErr | Returns (Some _) => go end
      | _ => go
      end
  end.
