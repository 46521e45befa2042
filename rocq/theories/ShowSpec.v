(* What Definition.String tells of a definition. *)
From Verif Require Import Base ScopeModel TreeModel ParseModel GenModel GenSpec BuiltinModel XsdModel SgModel SgStruct OptModel WsdlModel.
Local Open Scope string_scope.

(* the types of the parts of the latest message with a name; none if there is no such message *)
Inductive parts_are (d : definition) (n : xname) : list string -> Prop :=
| pa_there l m l' : df_messages d = (l ++ (n, m) :: l')%list -> ~ In n (map fst l) -> parts_are d n (map (fun p => nlocal (pa_type p)) (ms_parts m))
| pa_missing : ~ In n (map fst (df_messages d)) -> parts_are d n [].
(* two operations with the same name and the same types *)
Definition same_op (d d' : definition) (o o' : operation) : Prop :=
  nlocal (op_name o) = nlocal (op_name o') /\ (exists l, parts_are d (op_input o) l /\ parts_are d' (op_input o') l) /\ (exists l, parts_are d (op_output o) l /\ parts_are d' (op_output o') l).
Definition same_port (d d' : definition) (p p' : port) : Prop := po_name p = po_name p' /\ po_address p = po_address p' /\ Forall2 (same_op d d') (po_ops p) (po_ops p').
Definition same_told (d d' : definition) : Prop := df_tns d = df_tns d' /\ Forall2 (same_port d d') (df_ports d) (df_ports d').
(* names of which a line of text can be made and read *)
Definition without (cs : list ascii) (s : string) : Prop := forall c, In c cs -> ~ occurs c s.
Record readable (d : definition) : Prop := mkReadable {
  rd_tns : without ["010"%char] (df_tns d);
  rd_ports : forall p, In p (df_ports d) -> without [" "%char; "010"%char] (po_name p) /\ without ["010"%char] (po_address p);
  rd_ops : forall p o, In p (df_ports d) -> In o (po_ops p) -> without ["("%char; "010"%char] (nlocal (op_name o));
  rd_parts : forall n m p, In (n, m) (df_messages d) -> In p (ms_parts m) -> nlocal (pa_type p) <> "" /\ without [","%char; ")"%char; "010"%char] (nlocal (pa_type p)) }.
(* the lines: a tab before each operation, with the types of its parameters *)
Inductive comma_list : list string -> string -> Prop :=
| cl_none : comma_list [] ""
| cl_one x : comma_list [x] x
| cl_more x y l s : comma_list (y :: l) s -> comma_list (x :: y :: l) (x ++ ", " ++ s).
Definition op_line (d : definition) (o : operation) (s : string) : Prop :=
  exists i r it rt, parts_are d (op_input o) i /\ parts_are d (op_output o) r /\ comma_list i it /\ comma_list r rt /\ s = String "009" (nlocal (op_name o) ++ "(" ++ it ++ ") -> " ++ rt).
Inductive port_lines (d : definition) (p : port) : list string -> Prop :=
| pl_ l : Forall2 (op_line d) (po_ops p) l -> port_lines d p (("Port " ++ po_name p ++ " " ++ po_address p) :: l).
