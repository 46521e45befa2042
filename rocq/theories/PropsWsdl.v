(* C63, C64, C65: WSDL documents and the methods generated from them, for every tree and every
   configuration. upper, title, public, parses, names, other and doc_type stand for strings.ToUpper,
   strings.Title, the naming of xsdgen, the Go parser and the tables of xsdgen.Code. *)
From Verif Require Import Base ScopeModel TreeModel TreeSpec GenModel BuiltinModel XsdModel SgStruct OptModel WsdlModel WsdlSpec WsdlProofs WsdlGen WsdlExamples.
Local Open Scope string_scope.

(* C63: the messages: the last declaration of a name counts; its parts in document order *)
Theorem C63_messages upper root n m : lookup n (df_messages (parse_definition upper root)) = Some m <->
  exists l1 e l2, in_order root (called wsdlNS "message") (l1 ++ e :: l2) /\ declares (attr root "" "targetNamespace") e n /\
    (forall e', In e' l2 -> ~ declares (attr root "" "targetNamespace") e' n) /\ reads_message (attr root "" "targetNamespace") e m.
Proof. exact (messages_spec upper root n m). Qed.
Print Assumptions C63_messages.
(* C63: documentation, ports, addresses, verbs and operations, of the last service; nothing else can be read from the document *)
Theorem C63_definition upper root : reads_definition upper root (parse_definition upper root) /\
  forall d, reads_definition upper root d -> df_doc d = df_doc (parse_definition upper root) /\ df_ports d = df_ports (parse_definition upper root).
Proof. exact (conj (definition_spec upper root) (definition_det upper root)). Qed.
Print Assumptions C63_definition.
(* C63: with one binding and one port type of the names used, a port has the operations of the port type *)
Theorem C63_one_binding upper tns root e p b t : reads_port upper tns root e p ->
  in_order root (defines tns "binding" (resolve (e_scope e) (attr e "" "binding"))) [b] ->
  in_order root (defines tns "portType" (resolve (e_scope b) (attr b "" "type"))) [t] ->
  exists es, in_order t (called wsdlNS "operation") es /\ Forall2 (reads_operation tns b) es (po_ops p).
Proof. exact (one_binding upper tns root e p b t). Qed.
Print Assumptions C63_one_binding.
Theorem C63_no_binding upper tns root e p : reads_port upper tns root e p ->
  in_order root (defines tns "binding" (resolve (e_scope e) (attr e "" "binding"))) [] -> po_ops p = [] /\ po_method p = "POST".
Proof. exact (no_binding upper tns root e p). Qed.
Print Assumptions C63_no_binding.
Theorem C63_one_action tns b e o x s : reads_operation tns b e o ->
  in_order b (fun y => e_name y = e_name e /\ attr y "" "name" = attr e "" "name") [x] -> in_order x (called soapNS "operation") [s] ->
  op_action o = attr s "" "soapAction".
Proof. exact (one_action tns b e o x s). Qed.
Print Assumptions C63_one_action.
Example wsdl_example : parse_definition up doc0 =
  mkDefinition "" [mkPort "A" "http://a" "POST" [add_op "urn:add"]; mkPort "B" "http://b" "POST" [add_op ""]]
  [(mkName "urn:t" "addResponse", mkMessage (mkName "urn:t" "addResponse") [mkPart "sum" int (mkName wsdlNS "")]);
   (mkName "urn:t" "addRequest", mkMessage (mkName "urn:t" "addRequest") [mkPart "a" int (mkName wsdlNS ""); mkPart "b" int (mkName wsdlNS "")])] "urn:t".
Proof. exact doc0_reads. Qed.
(* the action of a SOAP 1.2 binding is not read *)
Theorem C63_soap12_action_refuted : exists root p op s, df_ports (parse_definition up root) = [p] /\ po_ops p = [op] /\
  in_order root (called soap12NS "operation") [s] /\ attr s "" "soapAction" = "urn:add12" /\ op_action op = "".
Proof. exact soap12_counter. Qed.
Print Assumptions C63_soap12_action_refuted.
(* the ports of all but the last service are lost *)
Theorem C63_every_service_refuted : exists root s1 s2 pa pb, in_order root (called wsdlNS "service") [s1; s2] /\
  in_order s1 (called wsdlNS "port") [pa] /\ in_order s2 (called wsdlNS "port") [pb] /\
  map po_name (df_ports (parse_definition up root)) = [attr pb "" "name"] /\ attr pa "" "name" = "A" /\ attr pb "" "name" = "B".
Proof. exact services_counter. Qed.
Print Assumptions C63_every_service_refuted.
(* overloaded operations all get the action of the last one *)
Theorem C63_own_action_refuted : exists root s1 s2 p o1 o2, in_order root (called soapNS "operation") [s1; s2] /\
  attr s1 "" "soapAction" = "urn:add2" /\ attr s2 "" "soapAction" = "urn:add1" /\
  df_ports (parse_definition up root) = [p] /\ po_ops p = [o1; o2] /\ op_input o1 <> op_input o2 /\ op_action o1 = "urn:add1" /\ op_action o2 = "urn:add1".
Proof. exact overload_counter. Qed.
Print Assumptions C63_own_action_refuted.

(* C64: the method declared for an operation: parameters, results, wrapper structs and what is sent *)
Theorem C64_declared title public parses names other doc_type ma mr d p op ds :
  gen_operation title public parses names other doc_type ma mr d p op = Some ds ->
  exists input output ts us m, lookup (op_input op) (df_messages d) = Some input /\ lookup (op_output op) (df_messages d) = Some output /\
    Forall2 (go_type names other doc_type) (ms_parts input) ts /\ Forall2 (go_type names other doc_type) (ms_parts output) us /\
    declared title ma mr (df_tns d) input ts output us ds m /\ method_name m = public (op_name op) /\ method_call m = Some (po_method p, po_address p, op_action op) /\
    method_about m = Some (op_name op, ms_name input, ms_name output, op_doc op).
Proof. exact (operation_declared title public parses names other doc_type ma mr d p op ds). Qed.
Print Assumptions C64_declared.
(* a parameter is not called like its own type *)
Theorem C64_parameter_name p t v : param_ident p t v -> v <> t.
Proof. exact (param_not_type p t v). Qed.
Print Assumptions C64_parameter_name.
(* above the output threshold the method has two results, but its return statement has one value more than there are parts *)
Theorem C64_result_struct_unused title public parses names other doc_type ma mr d p op ds output :
  gen_operation title public parses names other doc_type ma mr d p op = Some ds -> lookup (op_output op) (df_messages d) = Some output ->
  (mr < Z.of_nat (List.length (ms_parts output)))%Z -> ms_parts output <> [] ->
  exists m, In m ds /\ is_method m /\ List.length (method_results m) = 2 /\ method_returns m = S (List.length (ms_parts output)).
Proof. exact (over_returns title public parses names other doc_type ma mr d p op ds output). Qed.
Print Assumptions C64_result_struct_unused.
Theorem C64_result_count_refuted : exists ma mr d op ds m, gen_op ma mr d op = Some ds /\ In m ds /\ is_method m /\
  method_results m = ["AddResponse"; "error"] /\ method_returns m = 4.
Proof. exact result_struct_counter. Qed.
Print Assumptions C64_result_count_refuted.
(* above the input threshold the parameter's type is not the struct that was declared *)
Theorem C64_input_struct_refuted : exists ma mr d op ds m fs, gen_op ma mr d op = Some ds /\ In m ds /\ is_method m /\
  method_params m = ["ctx context.Context"; "v addRequest"] /\ In (WType "AddRequest" fs) ds /\ forall fs', ~ In (WType "addRequest" fs') ds.
Proof. exact input_struct_counter. Qed.
Print Assumptions C64_input_struct_refuted.
(* parameters may have the same name; a parameter may hide the type of another one; fields of the wrapper may have the same name *)
Theorem C64_distinct_parameters_refuted : exists ma mr d op ds m t, gen_op ma mr d op = Some ds /\ In m ds /\ is_method m /\
  method_params m = ["ctx context.Context"; "ctx " ++ t].
Proof. exact ctx_counter. Qed.
Print Assumptions C64_distinct_parameters_refuted.
Theorem C64_hidden_type_refuted : exists ma mr d op ds m, gen_op ma mr d op = Some ds /\ In m ds /\ is_method m /\
  method_params m = ["ctx context.Context"; "string int"; "name string"] /\ In (mkName "urn:t" "name", ("string", "name")) (method_sends m).
Proof. exact hidden_type_counter. Qed.
Print Assumptions C64_hidden_type_refuted.
Theorem C64_distinct_fields_refuted : exists ma mr d op ds fs n t t', gen_op ma mr d op = Some ds /\ In (WType "AddRequest" fs) ds /\ fs = [(n, t); (n, t')].
Proof. exact same_field_counter. Qed.
Print Assumptions C64_distinct_fields_refuted.
(* a date is sent as a time.Time, not as the helper type that writes dates *)
Theorem C64_date_refuted : exists ma mr d op ds m,
  lookup (op_input op) (df_messages d) = Some (mkMessage (op_input op) [mkPart "day" (mkName schemaNS "date") (mkName "" "")]) /\
  gen_op ma mr d op = Some ds /\ In m ds /\ is_method m /\ method_sends m = [(mkName "urn:t" "day", ("time.Time", "day"))] /\ "time.Time" <> helper_name 16.
Proof. exact date_counter. Qed.
Print Assumptions C64_date_refuted.

(* C65: one method for each operation of each port, in order *)
Theorem C65_methods title public parses names other doc_type Log (c : wconf Log) d ds : gen_ports title public parses names other doc_type c d = Some ds ->
  methods ds = map (fun op => public (op_name op)) (flat_map po_ops (df_ports d)).
Proof. exact (ports_methods title public parses names other doc_type c d ds). Qed.
Print Assumptions C65_methods.
(* C65: when generation fails *)
Theorem C65_fails title public parses names other doc_type Log (c : wconf Log) d : gen_ports title public parses names other doc_type c d = None <->
  exists p op, In p (df_ports d) /\ In op (po_ops p) /\ gen_operation title public parses names other doc_type (w_args _ c) (w_returns _ c) d p op = None.
Proof. exact (ports_fail title public parses names other doc_type c d). Qed.
Print Assumptions C65_fails.
Theorem C65_operation_fails title public parses names other doc_type ma mr d p op :
  gen_operation title public parses names other doc_type ma mr d p op = None <->
  lookup (op_input op) (df_messages d) = None \/ lookup (op_output op) (df_messages d) = None \/
  exists input output, lookup (op_input op) (df_messages d) = Some input /\ lookup (op_output op) (df_messages d) = Some output /\
    (untyped names other doc_type input \/ untyped names other doc_type output \/
     exists a d', op_args title names other doc_type ma mr (df_tns d) input output = Some a /\ In d' (all_decls public p op a) /\ parses d' = false).
Proof. exact (operation_fails title public parses names other doc_type ma mr d p op). Qed.
Print Assumptions C65_operation_fails.
(* an operation without output makes generation from the whole document fail *)
Theorem C65_one_way_fails title public parses names other doc_type Log (c : wconf Log) upper root p op b e :
  attr root "" "targetNamespace" <> "" ->
  (forall q m, descendant root q m -> called wsdlNS "message" m -> s_in colon (attr m "" "name") = false) ->
  In p (df_ports (parse_definition upper root)) -> In op (po_ops p) ->
  reads_operation (df_tns (parse_definition upper root)) b e op -> in_order e (called wsdlNS "output") [] ->
  gen_ports title public parses names other doc_type c (parse_definition upper root) = None.
Proof. exact (one_way_fails title public parses names other doc_type c upper root p op b e). Qed.
Print Assumptions C65_one_way_fails.
Example one_way_example : gen_all w0 (parse_definition up doc3) = None /\ exists ds, gen_all w0 (parse_definition up doc0) = Some ds.
Proof. exact one_way_gen. Qed.
(* whatever OnlyPorts was given, the result is the same *)
Theorem C65_filter_ignored title public parses names other doc_type Log (c : wconf Log) f d :
  gen_ports title public parses names other doc_type (mkW _ (w_pkg _ c) (w_header _ c) (w_logger _ c) (w_level _ c) (w_x _ c) f (w_args _ c) (w_returns _ c)) d =
  gen_ports title public parses names other doc_type c d.
Proof. exact (filter_ignored title public parses names other doc_type c f d). Qed.
Print Assumptions C65_filter_ignored.
(* after OnlyPorts("A") the operations of port B are still there, as a second method of the same name *)
Theorem C65_only_ports_refuted : exists h (c c' : wconf unit) u d ds,
  wapply unit unit unit (fun _ => None) (fun x => x) (fun x => x) (fun x => x) h c (WOnlyPorts unit ["A"]) = Some (h, c', u) /\
  d = parse_definition up doc0 /\ map po_name (df_ports d) = ["A"; "B"] /\ gen_all c' d = Some ds /\ methods ds = ["Add"; "Add"].
Proof. exact only_ports_counter. Qed.
Print Assumptions C65_only_ports_refuted.
