(* The errors of wsdlgen's printer (wsdlgen/wsdlgen.go:142-250, 268-351) with what they tell.
   WsdlModel has the same functions with errors that tell nothing. *)
From Verif Require Import Base ScopeModel TreeModel GenModel BuiltinModel XsdModel SgStruct OptModel WsdlModel.
Local Open Scope string_scope.

Inductive oops :=
| ONoInput (m : xname) | ONoOutput (m : xname)          (* a message that is not there *)
| ONoElement (part : string) (el : xname)               (* the namespace of the element is not known *)
| OUntyped (part : string)
| OParse (d : wdecl).                                   (* go/parser's error; its text is left out *)
Inductive tried (A : Type) := Fine (a : A) | Oops (e : oops).
Arguments Fine {A} a.
Arguments Oops {A} e.
Definition next {A B} (x : tried A) (f : A -> tried B) : tried B := match x with Fine a => f a | Oops e => Oops e end.
Fixpoint mapt {A B} (f : A -> tried B) (l : list A) : tried (list B) :=
  match l with [] => Fine [] | a :: l' => next (f a) (fun b => next (mapt f l') (fun m => Fine (b :: m))) end.

Section Wsdlgen.
  Variable title : string -> string.
  Variable public : xname -> string.
  Variable parses : wdecl -> bool.
  Variable names : list (xname * string).
  Variable other : xname -> string.
  Variable doc_type : string -> option (list (xname * xname)).

  (* wsdlgen.go:268-285 *)
  Definition part_told (p : part) : tried string :=
    if negb (String.eqb (nlocal (pa_type p)) "") then Fine (name_of names other (pa_type p))
    else if negb (String.eqb (nlocal (pa_elem p)) "") then
      match doc_type (nspace (pa_elem p)) with
      | None => Oops (ONoElement (pa_name p) (pa_elem p))
      | Some els => match lookup (pa_elem p) els with Some t => Fine (name_of names other t) | None => Oops (OUntyped (pa_name p)) end
      end
    else Oops (OUntyped (pa_name p)).
  (* wsdlgen.go:287-351: the parts of the input, then those of the output; nothing else fails, so
     that the last case is not reached *)
  Definition args_told (maxargs maxreturns : Z) (tns : string) (input output : message) : tried opargs :=
    next (mapt part_told (ms_parts input)) (fun _ =>
    next (mapt part_told (ms_parts output)) (fun _ =>
    match op_args title names other doc_type maxargs maxreturns tns input output with Some a => Fine a | None => Oops (OUntyped "") end)).
  Definition parse_told (d : wdecl) : tried wdecl := if parses d then Fine d else Oops (OParse d).
  (* wsdlgen.go:161-250 *)
  Definition operation_told (maxargs maxreturns : Z) (d : definition) (p : port) (op : operation) : tried (list wdecl) :=
    match lookup (op_input op) (df_messages d) with
    | None => Oops (ONoInput (op_input op))
    | Some input =>
        match lookup (op_output op) (df_messages d) with
        | None => Oops (ONoOutput (op_output op))
        | Some output =>
            next (args_told maxargs maxreturns (df_tns d) input output) (fun a =>
            mapt parse_told
              ((if String.eqb (oa_intype a) "" then [] else [WType (oa_intype a) (map (fun f => (fd_name f, fd_public f)) (oa_fields a))]) ++
               (if String.eqb (oa_rettype a) "" then [] else [WType (oa_rettype a) (map (fun f => (fd_name f, fd_type f)) (oa_retfields a))]) ++
               [method_decl public p op a])%list)
        end
    end.
  (* wsdlgen.go:142-159 *)
  Definition port_told {Log} (c : wconf Log) (d : definition) (p : port) : tried (list wdecl) :=
    next (mapt (operation_told (w_args _ c) (w_returns _ c) d p) (po_ops p)) (fun l => Fine (concat l)).
  Definition ports_told {Log} (c : wconf Log) (d : definition) : tried (list wdecl) :=
    next (mapt (port_told c d) (df_ports d)) (fun l => Fine (concat l)).
End Wsdlgen.

(* the formats of wsdlgen.go:164, 168, 275, 284; %v of an xml.Name is {space local} *)
Definition oops_text (parser : wdecl -> string) (e : oops) : string :=
  match e with
  | ONoInput m => "unknown input message type " ++ nlocal m
  | ONoOutput m => "unknown output message type " ++ nlocal m
  | ONoElement p el => "part " ++ p ++ ": could not lookup element {" ++ nspace el ++ " " ++ nlocal el ++ "}"
  | OUntyped p => "part " ++ p ++ " has no element or type"
  | OParse d => parser d
  end.
