(* Types whose declarations do not depend on the order of the types. *)
From Verif Require Import Base ScopeModel TreeModel BuiltinModel XsdModel TypesModel TypesSpec GenModel SgModel SgStruct SgFlatSpec.
Local Open Scope string_scope.

(* the text of a Builtin other than anyType, or of a simple type *)
Definition is_text (st : store) (t : ty) : Prop := match t with TB b => b <> 0%Z | _ => is_simple st t = true end.
Definition no_attributes (fa : option (attribute -> bool)) (c : complexT) : Prop := forall a, In a (ct_attrs c) -> filtered fa a = true.
(* simple types are derived from simple types; a plain one is not derived from anyType; a complex type
   without attributes is not derived from a complex type that has text and nothing else *)
Record steady (fa : option (attribute -> bool)) (st : store) : Prop := mkSteady {
  sy_simple : forall i s j, nth_error st i = Some (DS s) -> sd_base s = TPtr j -> is_simple st (TPtr j) = true;
  sy_any : forall i s, nth_error st i = Some (DS s) -> plain s 0 -> ~ ancestor st (TPtr i) (TB 0);
  sy_text : forall i c j b, nth_error st i = Some (DC c) -> no_attributes fa c -> ct_base c = TPtr j -> nth_error st j = Some (DC b) -> no_attributes fa b -> ~ is_text st (ct_base b) }.
(* the wildcards are the elements without a name *)
Definition wild_named (st : store) : Prop := forall i c e, nth_error st i = Some (DC c) -> In e (ct_elems c) -> el_wild e = true <-> el_name e = mkName "" "".
(* the types that code is generated from: those listed and wanted, and those they refer to *)
Inductive reached (ft : option (xname -> bool)) (allow : option (list xname)) (st : store) (schemas : list (list ty)) : ty -> Prop :=
| rc_listed types t n : In types schemas -> In t types -> type_name st t = Some n -> picked ft allow n -> reached ft allow st schemas t
| rc_used i d u : reached ft allow st schemas (TPtr i) -> nth_error st i = Some d -> In u (uses d) -> reached ft allow st schemas u.
(* different ones get different Go names *)
Definition names_apart (public : xname -> string) (ft : option (xname -> bool)) (allow : option (list xname)) (st : store) (schemas : list (list ty)) : Prop :=
  forall i j n m, reached ft allow st schemas (TPtr i) -> reached ft allow st schemas (TPtr j) -> type_name st (TPtr i) = Some n -> type_name st (TPtr j) = Some m -> public n = public m -> i = j.
