(* Calls of the generated client. *)
From Verif Require Import Base ScopeModel TreeModel XsdModel SgStruct BindModel ClientModel ClientSpec ClientProofs ClientExamples.
Local Open Scope string_scope.

(* C84: the request that is sent has the verb, the address and the action of the method and, for POST and
   PUT, the arguments in the body of an envelope; the hook sees it before it is sent *)
Theorem C84_request In_ Out write_in read_out refused answer hook method uri action (x : In_) (out : Out) req r o :
  do In_ Out write_in read_out refused answer hook method uri action x out = (Some req, r, o) ->
  exists q, is_request In_ write_in method uri action x q /\ refused q = false /\ req = match hook with Some h => h q | None => q end.
Proof. exact (sent In_ Out write_in read_out refused answer hook method uri action x out req r o). Qed.
Print Assumptions C84_request.
Example C84_request_case : calls (Some signed) (says proper) "POST" "pen" =
  (Some (mkReq "POST" "http://x/" "urn:Get#signed" (Some (NElem (soap "Envelope") [] [NElem (soap "Header") [] [NText ""]; NElem (soap "Body") [] [el "Get" [el "item" [NText "pen"]]]]))), Succeeded, "0").
Proof. exact a_request. Qed.
(* C84: nothing is sent only if the arguments cannot be written or the request is refused, and that is an error *)
Theorem C84_not_sent In_ Out write_in read_out refused answer hook method uri action (x : In_) (out : Out) r o :
  do In_ Out write_in read_out refused answer hook method uri action x out = (None, r, o) ->
  r = Failed /\ o = out /\ ((posts method /\ write_in x = None) \/ exists q, is_request In_ write_in method uri action x q /\ refused q = true).
Proof. exact (not_sent In_ Out write_in read_out refused answer hook method uri action x out r o). Qed.
Print Assumptions C84_not_sent.
Example C84_not_sent_case : calls None (says proper) "POST" "bad" = (None, Failed, "0").
Proof. exact not_written. Qed.
(* C84: whatever is answered, the call returns an error with code and text of the fault exactly if there is a
   fault in the body, and an error if there is no envelope or it cannot be read *)
Theorem C84_result In_ Out write_in read_out refused answer hook method uri action (x : In_) (out : Out) req r o doc :
  do In_ Out write_in read_out refused answer hook method uri action x out = (Some req, r, o) -> answer req = Some (Some doc) ->
  (in_soap "Envelope" doc = false \/ foldo (read Out read_out) out (messages doc) = None -> r = Failed) /\
  (forall o', in_soap "Envelope" doc = true -> foldo (read Out read_out) out (messages doc) = Some o' ->
    o = o' /\ (faults doc = [] -> r = Succeeded) /\ (faults doc <> [] -> r = Faulted (fault_text doc))).
Proof. exact (result In_ Out write_in read_out refused answer hook method uri action x out req r o doc). Qed.
Print Assumptions C84_result.
Example C84_fault_case : exists req, calls None (says faulty) "POST" "pen" = (Some req, Faulted "Client: no item", "0") /\ faults faulty <> [] /\ fault_text faulty = "Client: no item".
Proof. exact a_fault. Qed.
Example C84_message_case : exists req, calls None (says renamed) "POST" "pen" = (Some req, Succeeded, "12") /\ messages renamed <> [].
Proof. exact a_message. Qed.
Example C84_html_case : exists req, calls None (says (el "html" [])) "POST" "pen" = (Some req, Failed, "0") /\ in_soap "Envelope" (el "html" []) = false.
Proof. exact no_envelope. Qed.
Theorem C84_no_answer In_ Out write_in read_out refused answer hook method uri action (x : In_) (out : Out) req r o :
  do In_ Out write_in read_out refused answer hook method uri action x out = (Some req, r, o) -> (answer req = None \/ answer req = Some None) -> r = Failed /\ o = out.
Proof. exact (no_answer In_ Out write_in read_out refused answer hook method uri action x out req r o). Qed.
Print Assumptions C84_no_answer.
Example C84_no_answer_case : exists req, calls None (fun _ => Some None) "PUT" "pen" = (Some req, Failed, "0").
Proof. exact (ex_intro _ _ eq_refl). Qed.
(* C84: but a response in which no element is called Message is not read at all *)
Theorem C84_ignored In_ Out write_in read_out refused answer hook method uri action (x : In_) (out : Out) req r o doc :
  do In_ Out write_in read_out refused answer hook method uri action x out = (Some req, r, o) -> answer req = Some (Some doc) -> messages doc = [] -> o = out.
Proof. exact (ignored In_ Out write_in read_out refused answer hook method uri action x out req r o doc). Qed.
Print Assumptions C84_ignored.
(* C84: so the proper response of a service is lost without an error *)
Theorem C84_response_refuted : exists req, calls None (says proper) "POST" "pen" = (Some req, Succeeded, "0") /\ r_out (el "GetResponse" [el "price" [NText "12"]]) "0" = Some "12" /\
  in_bodies proper = [el "GetResponse" [el "price" [NText "12"]]] /\ messages proper = [].
Proof. exact lost. Qed.
Print Assumptions C84_response_refuted.
(* C84: and with other verbs the arguments of the call do not matter *)
Theorem C84_arguments_unused In_ Out write_in read_out refused answer hook method uri action (x y : In_) (out : Out) :
  ~ posts method -> do In_ Out write_in read_out refused answer hook method uri action x out = do In_ Out write_in read_out refused answer hook method uri action y out.
Proof. exact (arguments_unused In_ Out write_in read_out refused answer hook method uri action x y out). Qed.
Print Assumptions C84_arguments_unused.
Example C84_get_case : calls None (says proper) "GET" "pen" = calls None (says proper) "GET" "ink" /\ w_in "pen" <> w_in "ink" /\ ~ posts "GET" /\
  calls None (says proper) "GET" "pen" = (Some (mkReq "GET" "http://x/" "urn:Get" None), Succeeded, "0").
Proof. exact not_sent_get. Qed.
