(* C104: what Definition.String tells. *)
From Verif Require Import Base ScopeModel TreeModel ParseModel GenModel GenSpec BuiltinModel XsdModel SgModel SgStruct OptModel WsdlModel ShowModel ShowSpec ShowProofs ShowExamples.
Local Open Scope string_scope.

Theorem C104_tells (d d' : definition) : readable d -> readable d' -> (show d = show d' <-> same_told d d').
Proof. exact (show_tells d d'). Qed.
Print Assumptions C104_tells.
Example C104_case : readable (calc_def xi) /\ readable (calc_def (mkName schemaNS "long")) /\ ~ same_told (calc_def xi) (calc_def (mkName schemaNS "long")) /\ show (calc_def xi) <> show (calc_def (mkName schemaNS "long")).
Proof. exact calc_case. Qed.
Theorem C104_lines (d : definition) : readable d -> exists pl, Forall2 (port_lines d) (df_ports d) pl /\ lines (show d) (("Namespace:  " ++ df_tns d) :: List.concat pl).
Proof. exact (show_lines d). Qed.
Print Assumptions C104_lines.
Example C104_case_lines : show (calc_def xi) = "Namespace:  urn:t
Port A http://a/?x=1 2
	add(int, int) -> int
	stop() -> 
Port B 
".
Proof. exact calc_shown. Qed.
(* parts that refer to elements have no type: the text is that of an operation without parameters *)
Theorem C104_elements_refuted : exists parts, parts <> [] /\ show (one_op parts) = show (one_op []) /\ ~ same_told (one_op parts) (one_op []).
Proof. exact (ex_intro _ [mkPart "order" (mkName "" "") (tn "order")] (conj (fun H => @nil_cons _ _ _ (eq_sym H)) element_untold)). Qed.
Print Assumptions C104_elements_refuted.
