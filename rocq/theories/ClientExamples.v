(* Cases for the generated client: a service that adds prices. *)
From Verif Require Import Base ScopeModel TreeModel XsdModel SgStruct BindModel ClientModel ClientSpec ClientProofs.
Local Open Scope string_scope.

Definition el (l : string) (kids : list node) : node := NElem (mkName "urn:shop" l) [] kids.
(* the request and the response have one field *)
Definition w_in (x : string) : option node := if String.eqb x "bad" then None else Some (el "Get" [el "item" [NText x]]).
Definition r_out (k : node) (o : string) : option string :=
  match kids_of k with [NElem n _ kids] => if String.eqb (nlocal n) "price" then Some (texts kids) else Some o | _ => None end.
Definition never (r : request) : bool := false.
Definition envelope (kids : list node) : node := NElem (soap "Envelope") [] [NText " "; NElem (soap "Header") [] []; NElem (soap "Body") [] kids].
Definition says (doc : node) (r : request) : option (option node) := Some (Some doc).

(* the response the service describes *)
Definition proper : node := envelope [el "GetResponse" [el "price" [NText "12"]]].
Definition faulty : node := envelope [NText " "; NElem (soap "Fault") [] [NElem (mkName "" "faultcode") [] [NText "Client"]; NElem (mkName "" "faultstring") [] [NText "no "; NText "item"]; NElem (mkName "" "detail") [] []]].
Definition signed (r : request) : request := mkReq (rq_method r) (rq_uri r) (rq_action r ++ "#signed") (rq_body r).
Definition calls hook answer method x : option request * outcome * string := do string string w_in r_out never answer hook method "http://x/" "urn:Get" x "0".

Example a_request : calls (Some signed) (says proper) "POST" "pen" =
  (Some (mkReq "POST" "http://x/" "urn:Get#signed" (Some (NElem (soap "Envelope") [] [NElem (soap "Header") [] [NText ""]; NElem (soap "Body") [] [el "Get" [el "item" [NText "pen"]]]]))), Succeeded, "0").
Proof. reflexivity. Qed.
Example not_written : calls None (says proper) "POST" "bad" = (None, Failed, "0").
Proof. reflexivity. Qed.
Example a_fault : exists req, calls None (says faulty) "POST" "pen" = (Some req, Faulted "Client: no item", "0") /\ faults faulty <> [] /\ fault_text faulty = "Client: no item".
Proof. eexists. split; [reflexivity|]. split; [discriminate|reflexivity]. Qed.
(* only an element called Message is read *)
Definition renamed : node := envelope [el "Message" [el "price" [NText "12"]]].
Example a_message : exists req, calls None (says renamed) "POST" "pen" = (Some req, Succeeded, "12") /\ messages renamed <> [].
Proof. eexists. split; [reflexivity|discriminate]. Qed.
Lemma lost : exists req, calls None (says proper) "POST" "pen" = (Some req, Succeeded, "0") /\ r_out (el "GetResponse" [el "price" [NText "12"]]) "0" = Some "12" /\
  in_bodies proper = [el "GetResponse" [el "price" [NText "12"]]] /\ messages proper = [].
Proof. eexists. repeat split. Qed.
Lemma not_sent_get : calls None (says proper) "GET" "pen" = calls None (says proper) "GET" "ink" /\ w_in "pen" <> w_in "ink" /\ ~ posts "GET" /\
  calls None (says proper) "GET" "pen" = (Some (mkReq "GET" "http://x/" "urn:Get" None), Succeeded, "0").
Proof. repeat split; try discriminate. intros [H|H]; discriminate. Qed.
Example no_envelope : exists req, calls None (says (el "html" [])) "POST" "pen" = (Some req, Failed, "0") /\ in_soap "Envelope" (el "html" []) = false.
Proof. eexists. repeat split. Qed.
