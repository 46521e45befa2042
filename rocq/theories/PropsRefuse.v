(* C87, C107: GenCode on schemas that xsd.Parse refuses. *)
From Coq Require Import Permutation.
From Verif Require Import Base ScopeModel TreeModel BuiltinModel XsdModel TypesModel TypesSpec TypesProofs TypesExamples MissModel MissSpec MissProofs MissExamples SgModel SgGen SgExamples SgGenExamples PipeModel PipeExamples RefuseProofs.
Local Open Scope string_scope.

(* the error of GenCode is that of Parse just when Parse has one *)
Theorem C87_refused : forall public fa fe ft allow helpers slices ord ord' namespaces targets l,
  gen_code public fa fe ft allow helpers slices ord ord' namespaces targets l = Ret Unparsed <-> exists m, parse_told ord l = TErr m.
Proof. exact refused_iff. Qed.
Print Assumptions C87_refused.
(* there is no code from schemas with a reference to a name that nothing has, and no other error *)
Theorem C87_unknown : forall public fa fe ft allow helpers slices ord ord' namespaces targets l k i d n,
  any_order ord -> In (k, TPtr i) (entries l) -> nth_error (fst (initial l)) i = Some d -> In (TLink n) (refs d) -> ~ known l n ->
  gen_code public fa fe ft allow helpers slices ord ord' namespaces targets l = Ret Unparsed \/
  gen_code public fa fe ft allow helpers slices ord ord' namespaces targets l = Panic.
Proof. exact unknown_refused. Qed.
Print Assumptions C87_unknown.
Example refused_case : gen_code pub None None None None all_helpers false as_is in_order [] ["urn:a"] [no_base] = Ret Unparsed /\
  exists k i d, In (k, TPtr i) (entries [no_base]) /\ nth_error (fst (initial [no_base])) i = Some d /\ In (TLink (mkName "urn:b" "Vehicle")) (refs d) /\ ~ known [no_base] (mkName "urn:b" "Vehicle").
Proof. exact car_refused. Qed.
