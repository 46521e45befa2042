(* What is wanted of the methods and functions of a file. *)
From Verif Require Import Base ScopeModel TreeModel EqualModel BuiltinModel XsdModel TypesModel GraphModel GenModel SgModel SgStruct SliceModel SgGen SgGenSpec MethodModel.
Local Open Scope string_scope.

Definition block := (string * spec * list func)%type.
Definition types_in (f : list block) : list string := map (fun b => fst (fst b)) f.
(* a method stands below the type of its receiver; a function has none *)
Definition placed (f : list block) : Prop := forall n s fs g, In (n, s, fs) f -> In g fs -> fn_recv g = Some n \/ fn_recv g = None.
(* no method or function is there twice *)
Definition distinct_funcs (f : list block) : Prop := NoDup (map (fun g => (fn_recv g, fn_name g)) (funcs f)).
(* what is called is there *)
Definition calls_resolved (f : list block) : Prop := forall g, In g (funcs f) ->
  (forall x, In x (fn_calls g) -> exists g', In g' (funcs f) /\ fn_recv g' = None /\ fn_name g' = x) /\
  (forall t m, In (t, m) (fn_methods g) -> exists g', In g' (funcs f) /\ fn_recv g' = Some t /\ fn_name g' = m).
(* and functions that are there are called *)
Definition funcs_used (f : list block) : Prop := forall g, In g (funcs f) -> fn_recv g = None -> exists g', In g' (funcs f) /\ In (fn_name g) (fn_calls g').
(* the types named in a method are there *)
Definition types_resolved (f : list block) : Prop := forall g x, In g (funcs f) -> In x (fn_types g) ->
  exists e, x = expr_text e /\ (In (expr_id e) go_types \/ In (expr_id e) (types_in f)).
(* the local declarations of a method: T is another type, and the fields are distinct *)
Definition locals_ok (g : func) : Prop := (forall x, fn_alias g = Some x -> x <> "T") /\ NoDup (fn_overlay g).
Definition method_names : list string := ["MarshalText"; "UnmarshalText"; "MarshalXML"; "UnmarshalXML"; "MarshalXMLAttr"].
(* no field has the name of a method *)
Definition fields_apart (f : list block) : Prop := forall n s fs l g fd, In (n, s, fs) f -> sp_struct s = Some l -> In g fs -> fn_recv g = Some n -> In fd l -> sf_name fd <> fn_name g.
(* what is laid over a field of a struct is in the methods of the struct, and the text of a built-in type with
   a helper is read and written by the helper's methods *)
Definition covered (st : store) (f : list block) : Prop := forall n s fs, In (n, s, fs) f ->
  (forall o, In o (sp_overrides s) -> (exists g, In g fs /\ fn_recv g = Some n /\ fn_name g = "UnmarshalXML" /\ In (ov_field o) (fn_overlay g) /\ In (ov_to o) (fn_types g)) /\
     (non_trivial_ty (ov_type o) = true -> exists g, In g fs /\ fn_recv g = Some n /\ fn_name g = "MarshalXML" /\ In (ov_field o) (fn_overlay g) /\ In (ov_to o) (fn_types g))) /\
  (forall i d b m, sp_type s = TPtr i -> nth_error st i = Some (DS d) -> In b (sp_helpers s) -> (m = "UnmarshalText" \/ m = "MarshalText") ->
     exists g, In g fs /\ fn_recv g = Some n /\ fn_name g = m /\ In (helper_name b, m) (fn_methods g)).
(* the helper types read and write text; times also as XML, because time.Time has its own methods *)
Definition helpers_work (f : list block) : Prop := forall n s fs b, In (n, s, fs) f -> sp_type s = TB b ->
  (exists g, In g fs /\ fn_recv g = Some n /\ fn_name g = "UnmarshalText" /\ (sp_expr s = Some (EId "time.Time") -> In "_unmarshalTime" (fn_calls g))) /\
  (exists g, In g fs /\ fn_recv g = Some n /\ fn_name g = "MarshalText" /\ (sp_expr s = Some (EId "time.Time") -> In "_marshalTime" (fn_calls g))) /\
  (sp_expr s = Some (EId "time.Time") -> forall m, m = "MarshalXML" \/ m = "MarshalXMLAttr" -> exists g, In g fs /\ fn_recv g = Some n /\ fn_name g = m /\ In (n, "MarshalText") (fn_methods g)).
