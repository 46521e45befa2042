(* Model of the method do of the generated client, wsdlgen/helper.go:12-83, on trees of names, attributes
   and text. What encoding/xml does with soapEnvelope follows marshal.go and read.go of the Go library: on
   reading, a field is found by its tag or, without one, by its own name. *)
From Verif Require Import Base ScopeModel TreeModel XsdModel SgStruct BindModel.
Local Open Scope string_scope.

Definition soap_env : string := "http://schemas.xmlsoap.org/soap/envelope/".
Definition soap (l : string) : xname := mkName soap_env l.

(* helper.go:24-28, the pointer Fault *)
Record fault := mkFault { ft_string : string; ft_code : string; ft_detail : string }.
Definition no_fault : fault := mkFault "" "" "".

Section Client.
  (* the request and response structs of a method; how they are written and read *)
  Variable In_ Out : Type.
  Variable write_in : In_ -> option node.
  Variable read_out : node -> Out -> option Out.

  (* helper.go:36-47: Header is empty, Fault is nil and left out *)
  Definition request_body (x : In_) : option node :=
    match write_in x with
    | None => None
    | Some y => Some (NElem (soap "Envelope") [] [NElem (soap "Header") [] [NText ""]; NElem (soap "Body") [] [y]])
    end.
  Record request := mkReq { rq_method : string; rq_uri : string; rq_action : string; rq_body : option node }.

  (* a field with the given name space ("" for none) and name *)
  Definition field_is (ns local : string) (n : xname) : bool := (String.eqb local (nlocal n) && (String.eqb ns "" || String.eqb ns (nspace n)))%bool.
  Definition fault_kid (f : fault) (k : node) : fault :=
    match k with
    | NElem n _ kids =>
        if field_is "" "faultstring" n then mkFault (texts kids) (ft_code f) (ft_detail f)
        else if field_is "" "faultcode" n then mkFault (ft_string f) (texts kids) (ft_detail f)
        else if field_is "" "detail" n then mkFault (ft_string f) (ft_code f) (texts kids)
        else f
    | NText _ => f
    end.
  Definition fault_of (old : option fault) (kids : list node) : fault :=
    fold_left fault_kid kids (match old with Some f => f | None => no_fault end).
  (* Message holds a pointer to the response, which is read into it *)
  Definition body_kid (so : Out * option fault) (k : node) : option (Out * option fault) :=
    match k with
    | NText _ => Some so
    | NElem n _ kids =>
        if field_is "" "Message" n then option_map (fun o => (o, snd so)) (read_out k (fst so))
        else if field_is soap_env "Fault" n then Some (fst so, Some (fault_of (snd so) kids))
        else Some so
    end.
  Definition envelope_kid (so : Out * option fault) (k : node) : option (Out * option fault) :=
    match k with
    | NElem n _ kids => if field_is soap_env "Body" n then foldo body_kid so kids else Some so
    | NText _ => Some so
    end.
  (* helper.go:73-77: XMLName must match *)
  Definition decode (doc : node) (out : Out) : option (Out * option fault) :=
    match doc with
    | NElem n _ kids => if field_is soap_env "Envelope" n then foldo envelope_kid (out, None) kids else None
    | NText _ => None
    end.

  Inductive outcome := Failed | Faulted (msg : string) | Succeeded.
  (* http.NewRequest refuses it; what the server answers: nothing, or a body that may not be XML *)
  Variable refused : request -> bool.
  Variable answer : request -> option (option node).
  Variable hook : option (request -> request).
  (* helper.go:32-82: the request that is sent if any, the result, the response struct afterwards. The
     context and the hook for responses are left out; after a response that cannot be read, the struct may be
     partly filled in, which is not followed *)
  Definition do (method uri action : string) (x : In_) (out : Out) : option request * outcome * Out :=
    let posts := (String.eqb method "POST" || String.eqb method "PUT")%bool in
    match (if posts then option_map Some (request_body x) else Some None) with
    | None => (None, Failed, out)
    | Some body =>
        let req := mkReq method uri action body in
        if refused req then (None, Failed, out)
        else
          let req := match hook with Some h => h req | None => req end in
          match answer req with
          | None | Some None => (Some req, Failed, out)
          | Some (Some doc) =>
              match decode doc out with
              | None => (Some req, Failed, out)
              | Some (out', None) => (Some req, Succeeded, out')
              | Some (out', Some f) => (Some req, Faulted (ft_code f ++ ": " ++ ft_string f), out')
              end
          end
    end.
End Client.
