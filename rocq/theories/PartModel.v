(* Model of Code.DocType (xsdgen/xsdgen.go:84-88), of the map of types it reads (143-155) and of
   getPartType (wsdlgen/wsdlgen.go:268-285), on the code that GenCode returns. WsdlModel.v has
   getPartType too, for any DocType and NameOf; here they are those of xsdgen. *)
From Verif Require Import Base ScopeModel TreeModel EqualModel BuiltinModel XsdModel TypesModel GenModel SgModel SgStruct WsdlModel SliceModel SgGen PipeModel.
Local Open Scope string_scope.

(* xsdgen.go:143-155: a later schema replaces the entries of an earlier one *)
Definition all_types (primaries deps : list (string * types)) : types :=
  fold_left (fun m d => fold_left (fun m p => mset (fst p) (snd p) m) (snd d) m) (primaries ++ deps)%list [].
(* xsdgen.go:84-88 *)
Definition doc_type (all : types) (c : code) (ns : string) : option complexT :=
  match lookup (mkName ns "_self") all with Some (TPtr i) => get_c (co_store c) i | _ => None end.

Section Part.
  Variable public : xname -> string.
  Variable fa : option (attribute -> bool).
  Variable fe : option (element -> bool).
  Variable helpers : list Z.
  (* wsdlgen.go:268-285: the code after it and the name, or an error; XMLName panics on a nil type *)
  Definition get_part_type (all : types) (c : code) (p : part) : run (option (code * string)) :=
    let named n := andthen (name_of public fa fe helpers all c n) (fun r => Ret (Some r)) in
    if negb (String.eqb (nlocal (pa_type p)) "") then named (pa_type p)
    else if negb (String.eqb (nlocal (pa_elem p)) "") then
      match doc_type all c (nspace (pa_elem p)) with
      | None => Ret None
      | Some d => match find (fun e => xname_eqb (el_name e) (pa_elem p)) (ct_elems d) with
                  | None => Ret None
                  | Some e => match type_name (co_store c) (el_type e) with Some n => named n | None => Panic end
                  end
      end
    else Ret None.
End Part.
