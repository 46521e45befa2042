(* What parts of messages are to be for the code generated from a set of documents. *)
From Verif Require Import Base ScopeModel TreeModel BuiltinModel XsdModel TypesModel TypesSpec GenModel SgModel SgStruct SgFlatSpec WsdlModel SliceModel SgGen PipeSpec PartSpec.
Local Open Scope string_scope.

(* the XML type of a part: its own, or that of the element it names *)
Inductive xml_type (roots : list elem) (p : part) : xname -> Prop :=
| xt_type : nlocal (pa_type p) <> "" -> xml_type roots p (pa_type p)
| xt_element root t : nlocal (pa_type p) = "" -> nlocal (pa_elem p) <> "" -> In root roots -> attr root "" "targetNamespace" = nspace (pa_elem p) ->
    top_element root (nlocal (pa_elem p)) t -> at_home (nspace (pa_elem p)) t -> xml_type roots p t.
(* a type of XML Schema that has a Go type, or one with a declaration of its own *)
Definition usable (fa : option (attribute -> bool)) (ft : option (xname -> bool)) (allow : option (list xname)) (ns : list string) (l : list rd) (t : xname) : Prop :=
  (exists b g, parse_builtin t = Some b /\ builtin_expr b = Returns (Some g)) \/
  exists d, In (nspace t) ns /\ declares l t d /\ picked ft allow t /\ own_declaration fa l d.
(* the Go type of a type: that of a built-in, or the name it was declared under *)
Definition go_for (public : xname -> string) (decls : list string) (t : xname) (s : string) : Prop :=
  (exists b g, parse_builtin t = Some b /\ builtin_expr b = Returns (Some g) /\ s = expr_text (of_gotype g)) \/ s = public t /\ In s decls.
(* an operation whose messages are there and have parts that can be used *)
Definition fit (roots : list elem) (ok : xname -> Prop) (d : definition) (op : operation) : Prop := forall n, n = op_input op \/ n = op_output op ->
  exists m, lookup n (df_messages d) = Some m /\ forall p, In p (ms_parts m) -> exists t, xml_type roots p t /\ ok t.
