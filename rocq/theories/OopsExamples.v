(* Concrete errors of wsdlgen. *)
From Verif Require Import Base ScopeModel TreeModel GenModel BuiltinModel XsdModel SgStruct OptModel WsdlModel WsdlSpec WsdlGen WsdlExamples OopsModel OopsSpec.
Local Open Scope string_scope.

Definition u (l : string) := mkName "urn:t" l.
Definition bare := mkName "" "".
Definition docs (ns : string) : option (list (xname * xname)) := if String.eqb ns "urn:t" then Some [(u "known", int)] else None.
Definition told := ports_told title1 public1 yes [] nlocal docs w0.
Definition op_of (i o : string) := mkOperation "" "" (u "op") (u i) (u o).
Definition one_part (n : string) (p : part) := (u n, mkMessage (u n) [mkPart "a" int bare; p]).
Definition messages1 :=
  [one_part "good" (mkPart "b" bare (u "known")); one_part "lost" (mkPart "b" bare (u "unknown"));
   one_part "far" (mkPart "b" bare (mkName "urn:far" "known")); one_part "empty" (mkPart "b" bare bare)].
Definition asks (ops : list operation) := mkDefinition "" [mkPort "A" "http://a" "POST" [op_of "good" "good"]; mkPort "B" "http://b" "POST" (op_of "good" "good" :: ops)] messages1 "urn:t".
Definition text_of {A} (x : tried A) : string := match x with Fine _ => "" | Oops e => oops_text (fun _ => "parse error") e end.
Lemma texts_told :
  text_of (told (asks [op_of "good" "good"])) = "" /\
  text_of (told (asks [op_of "none" "lost"; op_of "good" "none"])) = "unknown input message type none" /\
  text_of (told (asks [op_of "lost" "none"])) = "unknown output message type none" /\
  text_of (told (asks [op_of "good" "far"; op_of "lost" "good"])) = "part b: could not lookup element {urn:far known}" /\
  text_of (told (asks [op_of "empty" "far"])) = "part b has no element or type" /\
  text_of (told (asks [op_of "lost" "far"])) = "part b has no element or type".
Proof. repeat split; vm_compute; reflexivity. Qed.
Lemma untyped_counter : exists (c : wconf unit) d p op m x, ports_told title1 public1 yes [] nlocal docs c d = Oops (OUntyped (pa_name x)) /\
  df_ports d = [p] /\ po_ops p = [op] /\ op_input op = op_output op /\ lookup (op_input op) (df_messages d) = Some m /\ ms_parts m = [x] /\ nlocal (pa_elem x) <> "".
Proof.
  exists w0, (mkDefinition "" [mkPort "A" "http://a" "POST" [op_of "lost" "lost"]] [(u "lost", mkMessage (u "lost") [mkPart "b" bare (u "unknown")])] "urn:t").
  exists (mkPort "A" "http://a" "POST" [op_of "lost" "lost"]), (op_of "lost" "lost"), (mkMessage (u "lost") [mkPart "b" bare (u "unknown")]), (mkPart "b" bare (u "unknown")).
  split; [vm_compute; reflexivity|]. repeat (split; [reflexivity|]). discriminate.
Qed.
(* the text leaves out the namespace of a message *)
Lemma namespace_left_out : exists a b, a <> b /\ plain_oops a /\ plain_oops b /\ forall parser, oops_text parser a = oops_text parser b.
Proof. exists (ONoInput (mkName "urn:a" "m")), (ONoInput (mkName "urn:b" "m")). split; [discriminate|]. repeat split. Qed.
