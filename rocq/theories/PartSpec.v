(* Vocabulary for the elements a schema declares, as WSDL parts refer to them. *)
From Verif Require Import Base ScopeModel TreeModel BuiltinModel XsdModel TypesModel TypesSpec GenModel SgFlatSpec PipeSpec.
Local Open Scope string_scope.

(* <element name="x" type="..."> below the root, its type t; without a type attribute it is anyType *)
Definition top_element (root : elem) (x : string) (t : xname) : Prop := exists el, In el (e_children root) /\ e_name el = xs "element" /\
  attr el "" "name" = x /\ (attr el "" "type" = "" /\ t = xs "anyType" \/ attr el "" "type" <> "" /\ t = resolve (e_scope el) (attr el "" "type")).
(* a type of XML Schema, or of this namespace *)
Definition at_home (ns : string) (t : xname) : Prop := (exists b, parse_builtin t = Some b) \/ nspace t = ns.
Definition tops (root : elem) : list elem := filter (fun e => xname_eqb (e_name e) (xs "element")) (e_children root).
(* the elements below the root have names without a prefix, each its own, and nothing is declared inside
   them (Normalize has moved it away) *)
Record plain_tops (root : elem) : Prop := mkPlainTops {
  pt_names : forall el, In el (tops root) -> s_in colon (attr el "" "name") = false;
  pt_once : NoDup (map (fun el => attr el "" "name") (tops root));
  pt_flat : forall el q d, In el (tops root) -> q <> [] -> sub el q = Some d -> e_name d <> xs "element" /\ e_name d <> xs "any" }.
(* no type is derived from, or has a field of, the type that stands for a document *)
Definition unused_self (l : list rd) : Prop := forall n d m, declares l n d -> In (TLink m) (uses d) -> nlocal m <> "_self".
