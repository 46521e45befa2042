(* Documents whose types keep their fields in the code, in terms of what they declare. *)
From Verif Require Import Base ScopeModel TreeModel BuiltinModel XsdModel TypesModel TypesSpec GenModel SgModel SgStruct SgFlatSpec SgExpandSpec SgGenSpec PipeSpec.
Local Open Scope string_scope.

(* the wildcards are the elements without a name *)
Definition wild_declared (l : list rd) : Prop := forall n c e, declares l n (DC c) -> In e (ct_elems c) -> (el_wild e = true <-> el_name e = mkName "" "").
(* a complex type that others are derived from gets a declaration of its own, or there is nothing to inherit from it *)
Definition firm_declared (fa : option (attribute -> bool)) (l : list rd) : Prop := forall n c m b, declares l n (DC c) -> ct_base c = TLink m -> declares l m (DC b) ->
  own_declaration fa l (DC b) \/ ct_elems b = [] /\ ct_attrs b = [] /\ forall k x, ct_base b = TLink k -> ~ declares l k (DC x).
