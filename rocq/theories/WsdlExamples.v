(* Concrete documents and definitions. *)
From Coq Require Import Sorted.
From Verif Require Import Base ScopeModel TreeModel TreeSpec TreeProofs GenModel BuiltinModel XsdModel XsdProofs SgModel SgStruct OptModel WsdlModel WsdlSpec WsdlProofs WsdlGen.
Local Open Scope string_scope.

Definition sc0 : scope := [mkName wsdlNS ""; mkName "urn:t" "tns"; mkName schemaNS "xs"].
Definition tag (ns local : string) (ats : list (string * string)) (ks : list elem) : elem :=
  Elem (mkName ns local) (map (fun a => mkAttr (mkName "" (fst a)) (snd a)) ats) sc0 "" ks.
Definition w := tag wsdlNS.
Definition msg (name : string) (parts : list (string * string)) : elem := w "message" [("name", name)] (map (fun p => w "part" [("name", fst p); ("type", snd p)] []) parts).
Definition oper (name i o : string) : elem := w "operation" [("name", name)] [w "input" [("message", i)] []; w "output" [("message", o)] []].
Definition bound (ns name action : string) : elem := w "operation" [("name", name)] [tag ns "operation" [("soapAction", action)] []].
Definition doc_of (ks : list elem) : elem := w "definitions" [("targetNamespace", "urn:t")] ks.
Definition the_port (name binding ns location : string) : elem := w "port" [("name", name); ("binding", binding)] [tag ns "address" [("location", location)] []].
Definition messages0 := [msg "addRequest" [("a", "xs:int"); ("b", "xs:int")]; msg "addResponse" [("sum", "xs:int")]].
Definition calc := w "portType" [("name", "Calc")] [oper "add" "tns:addRequest" "tns:addResponse"].
Definition soap11 := w "binding" [("name", "Soap"); ("type", "tns:Calc")] [bound soapNS "add" "urn:add"].
Definition soap12 := w "binding" [("name", "Soap12"); ("type", "tns:Calc")] [bound soap12NS "add" "urn:add12"].
Definition ports0 := [the_port "A" "tns:Soap" soapNS "http://a"; the_port "B" "tns:Soap12" soap12NS "http://b"].
Definition doc0 := doc_of (messages0 ++ [calc; soap11; soap12; w "service" [("name", "S")] ports0])%list.
Definition up (s : string) := s.
Definition title1 (s : string) : string :=
  match s with String c r => String (let n := N_of_ascii c in if (97 <=? n)%N && (n <=? 122)%N then ascii_of_N (n - 32) else c) r | "" => "" end.
Definition public1 (n : xname) := title1 (nlocal n).
Definition yes (d : wdecl) := true.
Definition gen_op ma mr d op := gen_operation title1 public1 yes [] nlocal (fun _ => None) ma mr d (mkPort "A" "http://a" "POST" []) op.
Definition gen_all (c : wconf unit) (d : definition) := gen_ports title1 public1 yes [] nlocal (fun _ => None) c d.
Definition w0 : wconf unit := mkW unit "ws" "" None 0 0 None 3 2.

Definition int := mkName schemaNS "int".
Definition add_op (action : string) := mkOperation "" action (mkName "urn:t" "add") (mkName "urn:t" "addRequest") (mkName "urn:t" "addResponse").
Lemma doc0_reads : parse_definition up doc0 = mkDefinition "" [mkPort "A" "http://a" "POST" [add_op "urn:add"]; mkPort "B" "http://b" "POST" [add_op ""]]
  [(mkName "urn:t" "addResponse", mkMessage (mkName "urn:t" "addResponse") [mkPart "sum" int (mkName wsdlNS "")]);
   (mkName "urn:t" "addRequest", mkMessage (mkName "urn:t" "addRequest") [mkPart "a" int (mkName wsdlNS ""); mkPart "b" int (mkName wsdlNS "")])] "urn:t".
Proof. vm_compute. reflexivity. Qed.
(* a decidable form of in_order for examples *)
Lemma in_order_found ns local e l : ns <> "" -> found ns local e = l -> in_order e (called ns local) l.
Proof. intros NZ <-. apply found_in_order. exact NZ. Qed.

(* SOAP 1.2 *)
Lemma soap12_counter : exists root p op s, df_ports (parse_definition up root) = [p] /\ po_ops p = [op] /\
  in_order root (called soap12NS "operation") [s] /\ attr s "" "soapAction" = "urn:add12" /\ op_action op = "".
Proof.
  exists (doc_of (messages0 ++ [calc; soap12; w "service" [] [the_port "B" "tns:Soap12" soap12NS "http://b"]])%list). do 3 eexists.
  split; [vm_compute; reflexivity|]. split; [reflexivity|]. split; [apply in_order_found; [discriminate|vm_compute; reflexivity]|]. split; vm_compute; reflexivity.
Qed.
(* two services *)
Lemma services_counter : exists root s1 s2 pa pb, in_order root (called wsdlNS "service") [s1; s2] /\ in_order s1 (called wsdlNS "port") [pa] /\ in_order s2 (called wsdlNS "port") [pb] /\
  map po_name (df_ports (parse_definition up root)) = [attr pb "" "name"] /\ attr pa "" "name" = "A" /\ attr pb "" "name" = "B".
Proof.
  exists (doc_of (messages0 ++ [calc; soap11; soap12; w "service" [] [the_port "A" "tns:Soap" soapNS "http://a"]; w "service" [] [the_port "B" "tns:Soap12" soap12NS "http://b"]])%list).
  do 4 eexists. split; [apply in_order_found; [discriminate|vm_compute; reflexivity]|]. split; [apply in_order_found; [discriminate|vm_compute; reflexivity]|].
  split; [apply in_order_found; [discriminate|vm_compute; reflexivity]|]. split; [vm_compute; reflexivity|]. split; vm_compute; reflexivity.
Qed.
(* overloaded operations: each is bound to an action of its own, both get the second *)
Definition doc2 := doc_of (messages0 ++ [msg "incRequest" [("a", "xs:int")];
    w "portType" [("name", "Calc")] [oper "add" "tns:addRequest" "tns:addResponse"; oper "add" "tns:incRequest" "tns:addResponse"];
    w "binding" [("name", "Soap"); ("type", "tns:Calc")] [bound soapNS "add" "urn:add2"; bound soapNS "add" "urn:add1"];
    w "service" [] [the_port "A" "tns:Soap" soapNS "http://a"]])%list.
Lemma overload_counter : exists root s1 s2 p o1 o2, in_order root (called soapNS "operation") [s1; s2] /\ attr s1 "" "soapAction" = "urn:add2" /\ attr s2 "" "soapAction" = "urn:add1" /\
  df_ports (parse_definition up root) = [p] /\ po_ops p = [o1; o2] /\ op_input o1 <> op_input o2 /\ op_action o1 = "urn:add1" /\ op_action o2 = "urn:add1".
Proof.
  exists doc2. do 5 eexists. split; [apply in_order_found; [discriminate|vm_compute; reflexivity]|]. split; [reflexivity|]. split; [reflexivity|].
  split; [vm_compute; reflexivity|]. split; [reflexivity|]. split; [discriminate|]. split; reflexivity.
Qed.

(* methods *)
Definition def_of (ins outs : list (string * xname)) : definition :=
  mkDefinition "" [] [(mkName "urn:t" "addRequest", mkMessage (mkName "urn:t" "addRequest") (map (fun p => mkPart (fst p) (snd p) zero_name) ins));
                      (mkName "urn:t" "addResponse", mkMessage (mkName "urn:t" "addResponse") (map (fun p => mkPart (fst p) (snd p) zero_name) outs))] "urn:t".
Lemma input_struct_counter : exists ma mr d op ds m fs, gen_op ma mr d op = Some ds /\ In m ds /\ is_method m /\ method_params m = ["ctx context.Context"; "v addRequest"] /\
  In (WType "AddRequest" fs) ds /\ forall fs', ~ In (WType "addRequest" fs') ds.
Proof.
  exists 1%Z, 2%Z, (def_of [("a", int); ("b", int)] [("sum", int)]), (add_op ""). do 3 eexists. split; [vm_compute; reflexivity|].
  split; [right; left; reflexivity|]. split; [exact I|]. split; [reflexivity|]. split; [left; reflexivity|]. intros fs' [H|[H|[]]]; discriminate.
Qed.
Lemma result_struct_counter : exists ma mr d op ds m, gen_op ma mr d op = Some ds /\ In m ds /\ is_method m /\ method_results m = ["AddResponse"; "error"] /\ method_returns m = 4.
Proof.
  exists 3%Z, 2%Z, (def_of [("a", int)] [("x", int); ("y", int); ("z", int)]), (add_op ""). do 2 eexists. split; [vm_compute; reflexivity|].
  split; [right; left; reflexivity|]. split; [exact I|]. split; reflexivity.
Qed.
Lemma ctx_counter : exists ma mr d op ds m t, gen_op ma mr d op = Some ds /\ In m ds /\ is_method m /\ method_params m = ["ctx context.Context"; "ctx " ++ t].
Proof.
  exists 3%Z, 2%Z, (def_of [("ctx", int)] []), (add_op ""). do 3 eexists. split; [vm_compute; reflexivity|]. split; [left; reflexivity|]. split; [exact I|]. reflexivity.
Qed.
Lemma hidden_type_counter : exists ma mr d op ds m, gen_op ma mr d op = Some ds /\ In m ds /\ is_method m /\
  method_params m = ["ctx context.Context"; "string int"; "name string"] /\ In (mkName "urn:t" "name", ("string", "name")) (method_sends m).
Proof.
  exists 3%Z, 2%Z, (def_of [("string", int); ("name", mkName schemaNS "string")] []), (add_op ""). do 2 eexists. split; [vm_compute; reflexivity|].
  split; [left; reflexivity|]. split; [exact I|]. split; [reflexivity|]. right. left. reflexivity.
Qed.
Lemma date_counter : exists ma mr d op ds m, lookup (op_input op) (df_messages d) = Some (mkMessage (op_input op) [mkPart "day" (mkName schemaNS "date") (mkName "" "")]) /\
  gen_op ma mr d op = Some ds /\ In m ds /\ is_method m /\ method_sends m = [(mkName "urn:t" "day", ("time.Time", "day"))] /\ "time.Time" <> helper_name 16.
Proof.
  exists 3%Z, 2%Z, (def_of [("day", mkName schemaNS "date")] []), (add_op ""). do 2 eexists. split; [reflexivity|]. split; [vm_compute; reflexivity|].
  split; [left; reflexivity|]. split; [exact I|]. split; [reflexivity|discriminate].
Qed.
Lemma same_field_counter : exists ma mr d op ds fs n t t', gen_op ma mr d op = Some ds /\ In (WType "AddRequest" fs) ds /\ fs = [(n, t); (n, t')].
Proof.
  exists 1%Z, 2%Z, (def_of [("a", int); ("A", mkName schemaNS "string")] []), (add_op ""). do 5 eexists. split; [vm_compute; reflexivity|].
  split; [left; reflexivity|]. reflexivity.
Qed.

(* ports *)
Lemma only_ports_counter : exists h (c c' : wconf unit) u d ds, wapply unit unit unit (fun _ => None) (fun x => x) (fun x => x) (fun x => x) h c (WOnlyPorts unit ["A"]) = Some (h, c', u) /\
  d = parse_definition up doc0 /\ map po_name (df_ports d) = ["A"; "B"] /\ gen_all c' d = Some ds /\ methods ds = ["Add"; "Add"].
Proof.
  exists [], w0. do 4 eexists. split; [reflexivity|]. split; [reflexivity|]. split; [vm_compute; reflexivity|]. split; vm_compute; reflexivity.
Qed.
Definition one_way := w "operation" [("name", "ping")] [w "input" [("message", "tns:addRequest")] []].
Definition doc3 := doc_of (messages0 ++ [w "portType" [("name", "Calc")] [oper "add" "tns:addRequest" "tns:addResponse"; one_way];
   soap11; w "service" [("name", "S")] [the_port "A" "tns:Soap" soapNS "http://a"]])%list.
Lemma doc3_ops : map (fun p => map (fun o => (op_name o, op_output o)) (po_ops p)) (df_ports (parse_definition up doc3)) =
  [[(mkName "urn:t" "add", mkName "urn:t" "addResponse"); (mkName "urn:t" "ping", mkName "" "")]].
Proof. vm_compute. reflexivity. Qed.
Lemma one_way_gen : gen_all w0 (parse_definition up doc3) = None /\ exists ds, gen_all w0 (parse_definition up doc0) = Some ds.
Proof. split; [vm_compute; reflexivity|]. eexists. vm_compute. reflexivity. Qed.
