(* What is in a SOAP response. *)
From Verif Require Import Base ScopeModel TreeModel XsdModel SgStruct BindModel ClientModel.
Local Open Scope string_scope.

Definition kids_of (k : node) : list node := match k with NElem _ _ kids => kids | NText _ => [] end.
(* elements of a name in the name space of the envelope, elements with a local name *)
Definition in_soap (l : string) (k : node) : bool := match k with NElem n _ _ => (String.eqb l (nlocal n) && String.eqb soap_env (nspace n))%bool | NText _ => false end.
Definition local_is (l : string) (k : node) : bool := match k with NElem n _ _ => String.eqb l (nlocal n) | NText _ => false end.
(* everything in the bodies, the faults among it, and everything in these *)
Definition in_bodies (doc : node) : list node := flat_map kids_of (filter (in_soap "Body") (kids_of doc)).
Definition faults (doc : node) : list node := filter (in_soap "Fault") (in_bodies doc).
(* the elements read into the response *)
Definition messages (doc : node) : list node := filter (local_is "Message") (in_bodies doc).
(* the text of the last element of a name *)
Definition last_text (l : string) (ks : list node) : string :=
  match rev (filter (local_is l) ks) with k :: _ => texts (kids_of k) | [] => "" end.
(* what the error says *)
Definition fault_text (doc : node) : string :=
  last_text "faultcode" (flat_map kids_of (faults doc)) ++ ": " ++ last_text "faultstring" (flat_map kids_of (faults doc)).

(* requests with a body, and what a request is *)
Definition posts (method : string) : Prop := method = "POST" \/ method = "PUT".
Section Client.
  Variable In_ Out : Type.
  Variable write_in : In_ -> option node.
  Variable read_out : node -> Out -> option Out.
  Definition is_request (method uri action : string) (x : In_) (r : request) : Prop :=
    rq_method r = method /\ rq_uri r = uri /\ rq_action r = action /\
    (posts method -> exists y, write_in x = Some y /\ rq_body r = Some (NElem (soap "Envelope") [] [NElem (soap "Header") [] [NText ""]; NElem (soap "Body") [] [y]])) /\
    (~ posts method -> rq_body r = None).
  (* one element after another is read into the response *)
  Definition read (o : Out) (k : node) : option Out := read_out k o.
End Client.
