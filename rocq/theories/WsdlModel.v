(* Model of wsdl/wsdl.go and of the declarations made by wsdlgen (wsdlgen/wsdlgen.go:126-351). The
   document is the tree of xmltree.Parse, which is only read. The map of messages is an association
   list, latest first. Log output is left out; Definition.String is in ShowModel.v. *)
From Verif Require Import Base ScopeModel TreeModel ParseModel GenModel BuiltinModel XsdModel SgModel SgStruct OptModel.
Local Open Scope string_scope.

(* wsdl.go:13-23 *)
Definition wsdlNS := "http://schemas.xmlsoap.org/wsdl/".
Definition soapNS := "http://schemas.xmlsoap.org/wsdl/soap/".
Definition soap12NS := "http://schemas.xmlsoap.org/wsdl/soap12/".
Definition httpNS := "http://schemas.xmlsoap.org/wsdl/http/".

(* wsdl.go:27-83 *)
Record part := mkPart { pa_name : string; pa_type : xname; pa_elem : xname }.
Record message := mkMessage { ms_name : xname; ms_parts : list part }.
Record operation := mkOperation { op_doc : string; op_action : string; op_name : xname; op_input : xname; op_output : xname }.
Record port := mkPort { po_name : string; po_address : string; po_method : string; po_ops : list operation }.
Record definition := mkDefinition { df_doc : string; df_ports : list port; df_messages : list (xname * message); df_tns : string }.

(* wsdl.go:86-95 *)
Definition documentation (el : elem) : string :=
  joined (String "010" "") (map e_content (filter (fun d => String.eqb (nlocal (e_name d)) "documentation") (e_children el))).
(* el.Search(ns, local) *)
Definition found (ns local : string) (el : elem) : list elem := search_func_elems (fun e => name_match ns local (e_name e)) el.
Definition zero_name := mkName "" "".
(* v.Resolve(v.Attr("", a)) and the like *)
Definition resolved_attr (el : elem) (a : string) : xname := resolve (e_scope el) (attr el "" a).
Definition own_name (tns : string) (el : elem) : xname := resolve_default (e_scope el) (attr el "" "name") tns.
(* assigned again each time round *)
Definition last_of {A B} (f : A -> B) (z : B) (l : list A) : B := fold_left (fun _ a => f a) l z.

(* wsdl.go:97-114 *)
Definition parse_part (el : elem) : part := mkPart (attr el "" "name") (resolved_attr el "type") (resolved_attr el "element").
Definition parse_message (tns : string) (el : elem) : message := mkMessage (own_name tns el) (map parse_part (found wsdlNS "part" el)).
Definition parse_messages (tns : string) (root : elem) : list (xname * message) :=
  fold_left (fun m el => let v := parse_message tns el in (ms_name v, v) :: m) (found wsdlNS "message" root) [].
(* the predicates of 139-143, 160-164, 168-172 *)
Definition names_it (tns local : string) (n : xname) (el : elem) : bool :=
  (String.eqb (nspace (e_name el)) wsdlNS && String.eqb (nlocal (e_name el)) local && xname_eqb (own_name tns el) n)%bool.
Definition bindings (tns : string) (root pt : elem) : list elem := search_func_elems (names_it tns "binding" (resolved_attr pt "binding")) root.
Section Wsdl.
  (* strings.ToUpper *)
  Variable upper : string -> string.
  (* wsdl.go:137-153 *)
  Definition verbs (b : elem) : list string :=
    filter (fun v => negb (String.eqb v "")) (map (fun h => attr h "" "verb") (found httpNS "binding" b)).
  Definition parse_method (tns : string) (root pt : elem) : string :=
    match flat_map verbs (bindings tns root pt) with v :: _ => upper v | [] => "POST" end.
  (* wsdl.go:184-192 *)
  Definition soap_action (b op : elem) : string :=
    last_of (fun s => attr s "" "soapAction") ""
      (flat_map (found soapNS "operation")
         (search_func_elems (fun el => (xname_eqb (e_name el) (e_name op) && String.eqb (attr el "" "name") (attr op "" "name"))%bool) b)).
  (* wsdl.go:174-193 *)
  Definition parse_operation (tns : string) (b op : elem) : operation :=
    mkOperation (documentation op) (soap_action b op) (own_name tns op)
      (last_of (fun i => resolved_attr i "message") zero_name (found wsdlNS "input" op))
      (last_of (fun o => resolved_attr o "message") zero_name (found wsdlNS "output" op)).
  (* wsdl.go:155-198 *)
  Definition parse_operations (tns : string) (root pt : elem) : list operation :=
    flat_map (fun b => flat_map (fun t => map (parse_operation tns b) (found wsdlNS "operation" t))
                                (search_func_elems (names_it tns "portType" (resolved_attr b "type")) root))
             (bindings tns root pt).
  (* wsdl.go:116-134 *)
  Definition parse_port (tns : string) (root pt : elem) : port :=
    mkPort (attr pt "" "name")
      (last_of (fun a => attr a "" "location") (last_of (fun a => attr a "" "location") "" (found soapNS "address" pt)) (found soap12NS "address" pt))
      (parse_method tns root pt) (parse_operations tns root pt).
  (* wsdl.go:205-214: every service overwrites the ports of the one before *)
  Definition parse_definition (root : elem) : definition :=
    let tns := attr root "" "targetNamespace" in
    let (doc, ports) := last_of (fun svc => (documentation svc, map (parse_port tns root) (found wsdlNS "port" svc))) ("", []) (found wsdlNS "service" root) in
    mkDefinition doc ports (parse_messages tns root) tns.
  (* wsdl.go:200-215, on the tokens of the document *)
  Definition parse_wsdl (sortns : list xname -> list xname) (data : string) (ts : stream) : option definition :=
    match parse sortns data ts with POk root _ _ => Some (parse_definition root) | PErr _ => None end.
End Wsdl.

(* ---------- wsdlgen ---------- *)
(* wsdlgen.go:41-85 *)
Record wfield := mkWField { fd_name : string; fd_type : string; fd_xml : xname; fd_public : string; fd_arg : string }.
Record opargs := mkArgs { oa_input : list string; oa_output : list string; oa_fields : list wfield; oa_outfields : list wfield;
  oa_inname : xname; oa_outname : xname; oa_intype : string; oa_rettype : string; oa_retfields : list wfield }.
(* the return statement of the body (231-241) *)
Inductive returned := RFields (l : list wfield) | RStruct (t : string) (l : list wfield) | RErr.
(* the declarations added to the file. A method: its name, comment, parameters and results as written, the
   element names and fields of the request and the response struct, the assignments to the request, the
   arguments of c.do and the return statement *)
Inductive wdecl :=
| WType (name : string) (fields : list (string * string))
| WMethod (name doc : string) (params results : list string) (msg inname outname : xname) (req : list wfield) (assigns : list (string * (string * string)))
          (resp : list wfield) (method addr action : string) (ret : returned).

(* wsdlgen.go:255-266 *)
Definition expose_type (t : string) : string :=
  if mem_str t ["xsdDate"; "xsdTime"; "xsdDateTime"; "gDay"; "gMonth"; "gMonthDay"; "gYear"; "gYearMonth"] then "time.Time"
  else if mem_str t ["hexBinary"; "base64Binary"] then "[]byte"
  else if mem_str t ["idrefs"; "nmtokens"; "notation"; "entities"] then "[]string"
  else t.

Section Wsdlgen.
  (* strings.Title; xsdgen.Config.NameOf; whether go/parser accepts the text of a declaration *)
  Variable title : string -> string.
  Variable public : xname -> string.
  Variable parses : wdecl -> bool.
  (* xsdgen.Code: the names of declared types, what NameOf finds for the types that are neither declared
     nor built in, and the elements of the documents with the names of their types (xsdgen.go:76-88) *)
  Variable names : list (xname * string).
  Variable other : xname -> string.
  Variable doc_type : string -> option (list (xname * xname)).

  (* xsdgen.go:92-132; what it remembers is what it would find again *)
  Definition name_of (n : xname) : string :=
    match lookup n names with
    | Some s => s
    | None => match parse_builtin n with
              | Some b => match builtin_expr b with Returns (Some g) => expr_text (of_gotype g) | _ => "ERROR" ++ nlocal n end
              | None => other n
              end
    end.
  (* wsdlgen.go:268-285 *)
  Definition part_type (p : part) : option string :=
    if negb (String.eqb (nlocal (pa_type p)) "") then Some (name_of (pa_type p))
    else if negb (String.eqb (nlocal (pa_elem p)) "") then
      match doc_type (nspace (pa_elem p)) with
      | None => None
      | Some els => match lookup (pa_elem p) els with Some t => Some (name_of t) | None => None end
      end
    else None.
  (* wsdlgen.go:299-311 *)
  Definition param_name (p : part) (t : string) : string := let v := Sanitize (pa_name p) in if String.eqb v t then v ++ "_" else v.
  Definition in_field (tns : string) (p : part) (t : string) : wfield :=
    mkWField (title (pa_name p)) t (mkName tns (pa_name p)) (expose_type t) (param_name p t).
  (* 326-332 *)
  Definition out_field (tns : string) (p : part) (t : string) : wfield := mkWField (title (pa_name p)) t (mkName tns (pa_name p)) "" "".
  (* 337-343 *)
  Definition ret_field (f : wfield) : wfield := mkWField (fd_name f) (expose_type (fd_type f)) zero_name "" (fd_name f).
  Definition with_arg (f : wfield) (a : string) : wfield := mkWField (fd_name f) (fd_type f) (fd_xml f) (fd_public f) a.
  (* wsdlgen.go:287-351 *)
  Definition op_args (maxargs maxreturns : Z) (tns : string) (input output : message) : option opargs :=
    match mapo part_type (ms_parts input) with
    | None => None
    | Some ts =>
        let ins := combine (ms_parts input) ts in
        let fields := map (fun pt => in_field tns (fst pt) (snd pt)) ins in
        let params := map (fun pt => param_name (fst pt) (snd pt) ++ " " ++ expose_type (snd pt)) ins in
        let over := (maxargs <? Z.of_nat (List.length params))%Z in
        match mapo part_type (ms_parts output) with
        | None => None
        | Some us =>
            let outs := combine (ms_parts output) us in
            let outfields := map (fun pt => out_field tns (fst pt) (snd pt)) outs in
            let results := map (fun pt => expose_type (snd pt)) outs in
            let rover := (maxreturns <? Z.of_nat (List.length results))%Z in
            let rettype := if rover then title (nlocal (ms_name output)) else "" in
            Some (mkArgs
              (if over then ["v " ++ nlocal (ms_name input)] else params)
              ((if rover then [rettype] else results) ++ ["error"])%list
              (if over then map (fun fp => with_arg (fst fp) ("v." ++ title (pa_name (snd fp)))) (combine fields (ms_parts input)) else fields)
              outfields (ms_name input) (ms_name output)
              (if over then title (nlocal (ms_name input)) else "") rettype
              (if rover then map ret_field outfields else []))
        end
    end.
  (* wsdlgen.go:161-250; None is the error return *)
  Definition if_parses (d : wdecl) : option wdecl := if parses d then Some d else None.
  Definition method_decl (p : port) (op : operation) (a : opargs) : wdecl :=
    WMethod (public (op_name op)) (op_doc op) ("ctx context.Context" :: oa_input a) (oa_output a) (op_name op) (oa_inname a) (oa_outname a)
      (oa_fields a) (map (fun f => (fd_name f, (fd_type f, fd_arg f))) (oa_fields a)) (oa_outfields a)
      (po_method p) (po_address p) (op_action op)
      (match oa_outfields a with _ :: _ => RFields (oa_outfields a)
       | [] => if negb (String.eqb (oa_rettype a) "") then RStruct (oa_rettype a) (oa_retfields a) else RErr end).
  Definition gen_operation (maxargs maxreturns : Z) (d : definition) (p : port) (op : operation) : option (list wdecl) :=
    match lookup (op_input op) (df_messages d), lookup (op_output op) (df_messages d) with
    | Some input, Some output =>
        match op_args maxargs maxreturns (df_tns d) input output with
        | None => None
        | Some a =>
            mapo if_parses
              ((if String.eqb (oa_intype a) "" then [] else [WType (oa_intype a) (map (fun f => (fd_name f, fd_public f)) (oa_fields a))]) ++
               (if String.eqb (oa_rettype a) "" then [] else [WType (oa_rettype a) (map (fun f => (fd_name f, fd_type f)) (oa_retfields a))]) ++
               [method_decl p op a])%list
        end
    | _, _ => None
    end.
  (* wsdlgen.go:142-159. Nothing here reads the filter of the ports *)
  Definition gen_port {Log} (c : wconf Log) (d : definition) (p : port) : option (list wdecl) :=
    option_map (@concat wdecl) (mapo (gen_operation (w_args _ c) (w_returns _ c) d p) (po_ops p)).
  Definition gen_ports {Log} (c : wconf Log) (d : definition) : option (list wdecl) := option_map (@concat wdecl) (mapo (gen_port c d) (df_ports d)).
End Wsdlgen.
