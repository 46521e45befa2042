(* C108: what the errors of wsdlgen tell. *)
From Verif Require Import Base ScopeModel TreeModel GenModel BuiltinModel XsdModel SgStruct SgTags OptModel WsdlModel WsdlSpec WsdlGen WsdlExamples OopsModel OopsSpec OopsProofs OopsExamples.
Local Open Scope string_scope.

(* there is an error exactly when C65_fails says so *)
Theorem C108_reported : forall title public parses names other doc_type Log (c : wconf Log) d,
  (forall ds, ports_told title public parses names other doc_type c d = Fine ds <-> gen_ports title public parses names other doc_type c d = Some ds) /\
  ((exists e, ports_told title public parses names other doc_type c d = Oops e) <-> gen_ports title public parses names other doc_type c d = None).
Proof. intros title public parses names other doc_type Log. exact (oops_reported title public parses names other doc_type). Qed.
Print Assumptions C108_reported.

(* it is about the first operation that cannot be generated, and what it tells of it is so *)
Theorem C108_told : forall title public parses names other doc_type Log (c : wconf Log) d e,
  ports_told title public parses names other doc_type c d = Oops e ->
  exists l1 p l2 m1 op m2, df_ports d = (l1 ++ p :: l2)%list /\ po_ops p = (m1 ++ op :: m2)%list /\
    (forall q o, In q l1 -> In o (po_ops q) -> gen_operation title public parses names other doc_type (w_args _ c) (w_returns _ c) d q o <> None) /\
    (forall o, In o m1 -> gen_operation title public parses names other doc_type (w_args _ c) (w_returns _ c) d p o <> None) /\
    said title public parses names other doc_type (w_args _ c) (w_returns _ c) d p op e.
Proof. intros title public parses names other doc_type Log. exact (oops_said title public parses names other doc_type). Qed.
Print Assumptions C108_told.

(* "part has no element or type" is told of parts that have an element, too *)
Theorem C108_untyped_refuted : exists (c : wconf unit) d p op m x, ports_told title1 public1 yes [] nlocal docs c d = Oops (OUntyped (pa_name x)) /\
  df_ports d = [p] /\ po_ops p = [op] /\ op_input op = op_output op /\ lookup (op_input op) (df_messages d) = Some m /\ ms_parts m = [x] /\ nlocal (pa_elem x) <> "".
Proof. exact untyped_counter. Qed.
Print Assumptions C108_untyped_refuted.

(* the text tells which error it is, and the names in it *)
Theorem C108_text : forall parser a b, plain_oops a -> plain_oops b -> oops_text parser a = oops_text parser b -> same_said a b.
Proof. exact oops_tells. Qed.
Print Assumptions C108_text.

Theorem C108_named : forall parser e, plain_oops e ->
  let ws := split_at " " (oops_text parser e) in
  match e with
  | ONoInput m => nth 1 ws "" = "input" /\ last ws "" = nlocal m
  | ONoOutput m => nth 1 ws "" = "output" /\ last ws "" = nlocal m
  | ONoElement p el => nth 1 ws "" = p ++ ":" /\ exists u, ws = (u ++ ["{" ++ nspace el; nlocal el ++ "}"]%string)%list
  | OUntyped p => nth 1 ws "" = p /\ last ws "" = "type"
  | OParse _ => False
  end.
Proof. exact oops_named. Qed.
Print Assumptions C108_named.

(* but not the namespace of a message *)
Theorem C108_text_refuted : exists a b, a <> b /\ plain_oops a /\ plain_oops b /\ forall parser, oops_text parser a = oops_text parser b.
Proof. exact namespace_left_out. Qed.
Print Assumptions C108_text_refuted.

Example oops_texts :
  text_of (told (asks [op_of "good" "good"])) = "" /\
  text_of (told (asks [op_of "none" "lost"; op_of "good" "none"])) = "unknown input message type none" /\
  text_of (told (asks [op_of "lost" "none"])) = "unknown output message type none" /\
  text_of (told (asks [op_of "good" "far"; op_of "lost" "good"])) = "part b: could not lookup element {urn:far known}" /\
  text_of (told (asks [op_of "empty" "far"])) = "part b has no element or type" /\
  text_of (told (asks [op_of "lost" "far"])) = "part b has no element or type".
Proof. exact texts_told. Qed.
