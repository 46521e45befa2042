(* Vocabulary for the errors of wsdlgen. *)
From Verif Require Import Base ScopeModel TreeModel GenModel BuiltinModel XsdModel SgStruct OptModel WsdlModel WsdlSpec WsdlGen OopsModel.
Local Open Scope string_scope.

Definition untold {A} (x : tried A) : option A := match x with Fine a => Some a | Oops _ => None end.
(* the parts of an operation: those of its input, then those of its output *)
Definition op_parts (d : definition) (op : operation) (parts : list part) : Prop :=
  exists input output, lookup (op_input op) (df_messages d) = Some input /\ lookup (op_output op) (df_messages d) = Some output /\
    parts = (ms_parts input ++ ms_parts output)%list.
Section Said.
  Variable title : string -> string.
  Variable public : xname -> string.
  Variable parses : wdecl -> bool.
  Variable names : list (xname * string).
  Variable other : xname -> string.
  Variable doc_type : string -> option (list (xname * xname)).
  (* x is the first part that has no Go type *)
  Definition first_untyped (parts : list part) (x : part) : Prop :=
    exists l1 l2, parts = (l1 ++ x :: l2)%list /\ (forall y, In y l1 -> exists t, go_type names other doc_type y t) /\ forall t, ~ go_type names other doc_type x t.
  (* what is told of an operation is so *)
  Definition said (ma mr : Z) (d : definition) (p : port) (op : operation) (e : oops) : Prop :=
    match e with
    | ONoInput m => m = op_input op /\ lookup m (df_messages d) = None
    | ONoOutput m => m = op_output op /\ lookup m (df_messages d) = None /\ lookup (op_input op) (df_messages d) <> None
    | ONoElement name el => exists parts x, op_parts d op parts /\ first_untyped parts x /\ pa_name x = name /\ pa_elem x = el /\
        nlocal (pa_type x) = "" /\ nlocal el <> "" /\ doc_type (nspace el) = None
    | OUntyped name => exists parts x, op_parts d op parts /\ first_untyped parts x /\ pa_name x = name /\ nlocal (pa_type x) = "" /\
        (nlocal (pa_elem x) = "" \/ exists els, doc_type (nspace (pa_elem x)) = Some els /\ lookup (pa_elem x) els = None)
    | OParse y => parses y = false /\ exists input output a, lookup (op_input op) (df_messages d) = Some input /\ lookup (op_output op) (df_messages d) = Some output /\
        op_args title names other doc_type ma mr (df_tns d) input output = Some a /\ In y (all_decls public p op a)
    end.
End Said.
(* the names told have no spaces *)
Definition plain_oops (e : oops) : Prop :=
  match e with
  | ONoInput m | ONoOutput m => s_in " " (nlocal m) = false
  | ONoElement p el => s_in " " p = false /\ s_in " " (nspace el) = false /\ s_in " " (nlocal el) = false
  | OUntyped p => s_in " " p = false
  | OParse _ => False
  end.
(* the same as far as the text goes *)
Definition same_said (a b : oops) : Prop :=
  match a, b with
  | ONoInput m, ONoInput m' | ONoOutput m, ONoOutput m' => nlocal m = nlocal m'
  | ONoElement p el, ONoElement p' el' => p = p' /\ el = el'
  | OUntyped p, OUntyped p' => p = p'
  | _, _ => False
  end.
