(* wsdlgen's printer with the code of xsdgen (wsdlgen/wsdlgen.go:126-150): the NameOf and DocType that WsdlModel.v
   takes as arbitrary are those of SgGen.v and PartModel.v. Each name is looked up in the code that GenCode
   returned; the first part of C100_client says that for the parts it is about NameOf leaves the code as it is. *)
From Verif Require Import Base ScopeModel TreeModel EqualModel BuiltinModel XsdModel TypesModel GenModel OptModel SgModel SgStruct WsdlModel SliceModel SgGen PipeModel PartModel.
Local Open Scope string_scope.

Section Link.
  Variable public : xname -> string.
  Variable fa : option (attribute -> bool).
  Variable fe : option (element -> bool).
  Variable helpers : list Z.
  Variables (all : types) (c : code).
  (* xsdgen.go:92-132 for a name that is not declared nor built in *)
  Definition found_name (n : xname) : string := match SgGen.name_of public fa fe helpers all c n with Ret (_, id) => id | _ => "" end.
  (* xsdgen.go:84-88: the elements with the names of their types *)
  Definition doc_elements (ns : string) : option (list (xname * xname)) :=
    option_map (fun d => map (fun e => (el_name e, match type_name (co_store c) (el_type e) with Some n => n | None => mkName "" "" end)) (ct_elems d)) (doc_type all c ns).
  (* wsdlgen.go:142-150 *)
  Definition client (title : string -> string) (parses : wdecl -> bool) {Log} (w : wconf Log) (d : definition) : option (list wdecl) :=
    gen_ports title public parses (co_names c) found_name doc_elements w d.
  Definition client_operation (title : string -> string) (parses : wdecl -> bool) (ma mr : Z) (d : definition) (p : port) (op : operation) : option (list wdecl) :=
    gen_operation title public parses (co_names c) found_name doc_elements ma mr d p op.
End Link.
