(* What the author of a schema has written, and the code it leads to. *)
From Verif Require Import Base ScopeModel ScopeSpec TreeModel TreeSpec BuiltinModel XsdModel NormModel NormDocs XsdparseSpec TypesModel TypesSpec GenModel SgModel SgStruct SgGen PipeSpec.
Local Open Scope string_scope.

(* no schema is inside another *)
Definition unnested (docs : list elem) : Prop := forall d e q k, In d docs -> In e (schemas_of d) -> descendant e q k -> e_name k <> xs "schema".
(* the namespaces of the schemas in the documents, in order *)
Definition spaces_of (docs : list elem) : list string := filter (fun n => negb (String.eqb n "")) (map namespace_of (flat_map schemas_of docs)).
(* a complex type in its short form: <complexType name="..."> without simpleContent or complexContent *)
Definition short (k : elem) : Prop := e_name k = xs "complexType" /\ forall c, In c (e_children k) -> e_name c <> xs "simpleContent" /\ e_name c <> xs "complexContent".
(* a simple type that is a list *)
Definition list_type (k : elem) : Prop := e_name k = xs "simpleType" /\ exists c, In c (e_children k) /\ e_name c = xs "list".
(* a simple type with an enumeration *)
Definition enumeration (k : elem) : Prop := e_name k = xs "simpleType" /\ exists l1 r l2 f, e_children k = (l1 ++ r :: l2)%list /\ e_name r = xs "restriction" /\ (forall c, In c l2 -> e_name c <> xs "restriction") /\
  In f (e_children r) /\ e_name f = xs "enumeration".
(* the prefixes in scope are written once, and without colons *)
Definition clean_scope (s : scope) : Prop := no_shadowing s /\ prefixes_ok s.
(* el is an element of a sequence, choice or all right in the complex type k *)
Definition member (k el : elem) : Prop := exists g, In g (e_children k) /\ (e_name g = xs "sequence" \/ e_name g = xs "choice" \/ e_name g = xs "all") /\ In el (e_children g) /\ e_name el = xs "element".
(* a is an attribute right in the complex type k *)
Definition attribute_of (k a : elem) : Prop := In a (e_children k) /\ e_name a = xs "attribute".
(* no other type has the Go name of n, and no helper *)
Definition only_name (public : xname -> string) (l : list rd) (n : xname) : Prop :=
  (forall m d, PipeSpec.declares l m d -> public m = public n -> m = n) /\ forall b, non_trivial b = true -> public n <> helper_name b.
