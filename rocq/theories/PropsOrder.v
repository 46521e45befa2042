(* C86: the order in which the types come up does not matter to the generated code. *)
From Verif Require Import Base SortLib ScopeModel TreeModel EqualModel BuiltinModel CodecModel XsdModel TypesModel TypesSpec GraphModel GenModel SgModel SgStruct SgDecl SgExamples SgFlatSpec SgFlatExamples SgExpandSpec SliceModel SgGen SgGenSpec SgGenExamples SgOrderSpec SgOrderCode OrderExamples.
Local Open Scope string_scope.

Theorem C86_same_code (public : xname -> string) (fa : option (attribute -> bool)) (fe : option (element -> bool)) (ft : option (xname -> bool)) (allow : option (list xname)) (helpers : list Z) (h : nat -> nat) (slices : bool) (st : store) (schemas schemas' : list (list ty)) :
  (forall b, non_trivial b = true -> memb b helpers = true) ->
  (forall a t, filtered fa (retype_at a t) = filtered fa a) -> (forall i, h i <= N.to_nat 1000) ->
  generable h st -> steady fa st -> wild_named st -> names_apart public ft allow st schemas ->
  (forall types t, In types schemas -> In t types -> known st t) -> (forall types b, In types schemas -> In (TB b) types -> translated b) ->
  Forall2 (fun types types' => forall t, In t types <-> In t types') schemas schemas' ->
  exists c c', gen public fa fe ft allow helpers slices st schemas = Ret (inr c) /\ gen public fa fe ft allow helpers slices st schemas' = Ret (inr c') /\
    co_store c' = co_store c /\ (forall n, lookup n (co_names c') = lookup n (co_names c)) /\
    forall sort sort', sorts_strings sort -> sorts_strings sort' -> gen_ast sort' (co_decls c') = gen_ast sort (co_decls c).
Proof. exact (code_any_order public fa fe ft allow helpers h slices st schemas schemas'). Qed.
Print Assumptions C86_same_code.
Theorem C86_text_refuted : (generable (fun i => Nat.min i 9) heirs /\ wild_named heirs /\ names_apart pub None None heirs [[TPtr 0; TPtr 1; TPtr 2]]) /\
  map (fun p => (fst p, spec_ids (snd p))) (ast_of heirs [[TPtr 0; TPtr 1; TPtr 2]]) = [("C", ["string"]); ("X", ["string"])] /\
  map (fun p => (fst p, spec_ids (snd p))) (ast_of heirs [[TPtr 2; TPtr 1; TPtr 0]]) = [("C", ["string"]); ("X", ["C"])].
Proof. exact (conj heirs_generable heirs_code). Qed.
Print Assumptions C86_text_refuted.
Theorem C86_names_refuted : (generable (fun _ => 0) namesakes /\ steady None namesakes /\ wild_named namesakes) /\
  map (fun p => (fst p, spec_ids (snd p))) (ast_of namesakes [[TPtr 0; TPtr 1]]) = [("A", ["string"])] /\
  map (fun p => (fst p, spec_ids (snd p))) (ast_of namesakes [[TPtr 1; TPtr 0]]) = [("A", ["int"])].
Proof. exact (conj namesakes_generable namesakes_code). Qed.
Print Assumptions C86_names_refuted.
Example C86_case : (generable shop_rank shop /\ forall i, shop_rank i <= N.to_nat 1000) /\ (steady None shop /\ wild_named shop /\ names_apart pub None None shop shop_types) /\
  (forall types b, In types shop_types -> In (TB b) types -> translated b) /\ Forall2 (fun types types' => forall t, In t types <-> In t types') shop_types shop_types'.
Proof. exact (conj shop_generable (conj shop_steady (conj shop_no_builtins shop_same))). Qed.
Example C86_case_differs : match gen pub None None None None all_helpers false shop shop_types, gen pub None None None None all_helpers false shop shop_types' with
  | Ret (inr c), Ret (inr c') => (map fst (co_decls c), map fst (co_decls c'), map fst (gen_ast (isort_by id) (co_decls c'))) | _, _ => ([], [], []) end =
  (["Sizes"; "Name"; "Color"; "Car"; "Truck"; "Order"; "Label"; "Sub"; "xsdDate"; "xsdHexBinary"], ["Name"; "Color"; "Label"; "Sub"; "Sizes"; "Car"; "Truck"; "Order"; "xsdDate"; "xsdHexBinary"],
   ["Car"; "Color"; "Label"; "Name"; "Order"; "Sizes"; "Sub"; "Truck"; "xsdDate"; "xsdHexBinary"]).
Proof. exact shop_orders. Qed.
Example C86_case_steady : ~ steady None heirs.
Proof. exact heirs_not_steady. Qed.
