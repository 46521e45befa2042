(* Model of Definition.String and Message.String (wsdl/wsdl.go:34-48, 57-63). A message that the definition does not
   have is the zero Message of the map. *)
From Verif Require Import Base ScopeModel TreeModel ParseModel GenModel BuiltinModel XsdModel SgModel SgStruct OptModel WsdlModel.
Local Open Scope string_scope.

(* wsdl.go:57-63, strings.Join *)
Fixpoint joined (l : list string) : string := match l with [] => "" | [x] => x | x :: l' => x ++ ", " ++ joined l' end.
Definition show_message (m : message) : string := joined (map (fun p => nlocal (pa_type p)) (ms_parts m)).
Definition message_of (d : definition) (n : xname) : message := match lookup n (df_messages d) with Some m => m | None => mkMessage (mkName "" "") [] end.
(* wsdl.go:39-44 *)
Definition show_op (d : definition) (o : operation) : string :=
  String "009" (nlocal (op_name o) ++ "(" ++ show_message (message_of d (op_input o)) ++ ") -> " ++ show_message (message_of d (op_output o)) ++ String "010" "").
Definition show_ops (d : definition) (l : list operation) : string := fold_right (fun o s => show_op d o ++ s) "" l.
(* wsdl.go:37-45 *)
Definition show_port (d : definition) (p : port) : string := "Port " ++ po_name p ++ " " ++ po_address p ++ String "010" "" ++ show_ops d (po_ops p).
Definition show (d : definition) : string := "Namespace:  " ++ df_tns d ++ String "010" "" ++ fold_right (fun p s => show_port d p ++ s) "" (df_ports d).
