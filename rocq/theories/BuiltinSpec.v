(* The XML Schema built-in types and Go's integer types, written down independently. *)
From Verif Require Import Base BuiltinModel.
Local Open Scope string_scope.

(* XML Schema Part 2, section 3: primitive and derived types, and the two ur-types *)
Definition w3c : list string :=
  ["string"; "boolean"; "decimal"; "float"; "double"; "duration"; "dateTime"; "time"; "date"; "gYearMonth"; "gYear"; "gMonthDay";
   "gDay"; "gMonth"; "hexBinary"; "base64Binary"; "anyURI"; "QName"; "NOTATION";
   "normalizedString"; "token"; "language"; "NMTOKEN"; "NMTOKENS"; "Name"; "NCName"; "ID"; "IDREF"; "IDREFS"; "ENTITY"; "ENTITIES";
   "integer"; "nonPositiveInteger"; "negativeInteger"; "long"; "int"; "short"; "byte"; "nonNegativeInteger"; "unsignedLong";
   "unsignedInt"; "unsignedShort"; "unsignedByte"; "positiveInteger"; "anyType"; "anySimpleType"].

(* bounded integer types: least and greatest value *)
Definition xsd_range (n : string) : option (Z * Z) :=
  match n with
  | "long" => Some (- 2 ^ 63, 2 ^ 63 - 1) | "int" => Some (- 2 ^ 31, 2 ^ 31 - 1)
  | "short" => Some (- 2 ^ 15, 2 ^ 15 - 1) | "byte" => Some (- 2 ^ 7, 2 ^ 7 - 1)
  | "unsignedLong" => Some (0, 2 ^ 64 - 1) | "unsignedInt" => Some (0, 2 ^ 32 - 1)
  | "unsignedShort" => Some (0, 2 ^ 16 - 1) | "unsignedByte" => Some (0, 2 ^ 8 - 1)
  | _ => None
  end%Z.
(* int and uint have at least 32 bits *)
Definition go_range (t : gotype) : option (Z * Z) :=
  match t with
  | GIdent "int" => Some (- 2 ^ 31, 2 ^ 31 - 1) | GIdent "int64" => Some (- 2 ^ 63, 2 ^ 63 - 1)
  | GIdent "uint" => Some (0, 2 ^ 32 - 1) | GIdent "uint64" => Some (0, 2 ^ 64 - 1) | GIdent "byte" => Some (0, 255)
  | _ => None
  end%Z.
(* the lists of tokens among the built-ins *)
Definition token_lists : list string := ["NMTOKENS"; "IDREFS"; "ENTITIES"].

(* What genSimpleListSpec should do, by the name of the built-in that ends the chain of bases *)
Inductive derives : item -> Z -> Prop :=
| d_builtin b : derives (IBuiltin b) b
| d_step i b : derives i b -> derives (IType (Some i)) b.
Definition strings : list string :=
  ["ENTITY"; "ID"; "NCName"; "NMTOKEN"; "Name"; "QName"; "anyURI"; "duration"; "language"; "normalizedString"; "string"; "token"; "anySimpleType"].
Definition xml_attrs : list string := ["xMLLang"; "xMLSpace"; "xMLBase"; "xMLId"].
Definition family (n : string) : option codec :=
  if existsb (String.eqb n) strings then Some CStrings
  else if existsb (String.eqb n) xml_attrs then Some CStrings
  else if existsb (String.eqb n) ["date"; "dateTime"; "gDay"; "gMonth"; "gMonthDay"; "gYear"; "gYearMonth"; "time"] then Some CTimes
  else if existsb (String.eqb n) ["int"; "integer"; "negativeInteger"; "nonNegativeInteger"; "nonPositiveInteger"; "short"] then Some CInts
  else if existsb (String.eqb n) ["unsignedInt"; "unsignedShort"] then Some CUints
  else if existsb (String.eqb n) ["decimal"; "double"] then Some CFloats
  else if existsb (String.eqb n) ["byte"; "unsignedByte"] then Some CBytes
  else match n with "long" => Some CInt64 | "unsignedLong" => Some CUint64 | _ => None end.
(* the Go type a user expects *)
Definition go_type (n : string) : option gotype :=
  if existsb (String.eqb n) ["NMTOKENS"; "IDREFS"; "ENTITIES"] then Some (GArray "string")
  else if existsb (String.eqb n) ["date"; "dateTime"; "gDay"; "gMonth"; "gMonthDay"; "gYear"; "gYearMonth"; "time"] then Some (GIdent "time.Time")
  else if existsb (String.eqb n) ["integer"; "negativeInteger"; "nonNegativeInteger"; "nonPositiveInteger"; "positiveInteger"; "int"; "short"] then Some (GIdent "int")
  else if existsb (String.eqb n) ["unsignedInt"; "unsignedShort"] then Some (GIdent "uint")
  else if existsb (String.eqb n) ["hexBinary"; "base64Binary"] then Some (GArray "byte")
  else if existsb (String.eqb n) xml_attrs then None
  else match n with
  | "boolean" => Some (GIdent "bool") | "decimal" => Some (GIdent "float64") | "double" => Some (GIdent "float64") | "float" => Some (GIdent "float32")
  | "long" => Some (GIdent "int64") | "unsignedLong" => Some (GIdent "uint64") | "byte" => Some (GIdent "int8")
  | "unsignedByte" => Some (GIdent "byte") | "QName" => Some (GIdent "xml.Name") | _ => Some (GIdent "string")
  end.
