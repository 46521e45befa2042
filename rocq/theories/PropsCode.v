(* C79 and C80: the generated declarations as a whole, and the names Code.NameOf gives. *)
From Verif Require Import Base SortLib ScopeModel TreeModel EqualModel BuiltinModel CodecModel XsdModel XsdProofs TypesModel TypesSpec TypesProofs GraphModel GenModel SgModel SgStruct SgProofs SgNames SgTags SgExamples SgFlat SgClosed SgFlatSpec SgFlatten SgFlatExamples SgExpandSpec SgExpand SgExpandFields SgExpandExamples SliceModel SgGen SgGenSpec SgGenProofs SgGenCode SgGenClosed SgGenName SgGenExamples SgOrderSpec SgGenReach.
Local Open Scope string_scope.

Theorem C79_closed (public : xname -> string) (fa : option (attribute -> bool)) (fe : option (element -> bool)) (ft : option (xname -> bool)) (allow : option (list xname)) (helpers : list Z) (h : nat -> nat) (slices : bool) (st : store) (schemas : list (list ty)) :
  (forall b, non_trivial b = true -> memb b helpers = true) ->
  (forall a t, filtered fa (retype_at a t) = filtered fa a) -> generable h st -> (forall i, h i <= N.to_nat 1000) ->
  (forall types t, In types schemas -> In t types -> known st t) ->
  exists c, gen public fa fe ft allow helpers slices st schemas = Ret (inr c) /\ closed_code (co_decls c).
Proof. exact (gen_closed public fa fe ft allow helpers h slices st schemas). Qed.
Print Assumptions C79_closed.
Theorem C79_present (public : xname -> string) (fa : option (attribute -> bool)) (fe : option (element -> bool)) (ft : option (xname -> bool)) (allow : option (list xname)) (helpers : list Z) (h : nat -> nat) (slices : bool) (st : store) (schemas : list (list ty)) :
  (forall b, non_trivial b = true -> memb b helpers = true) ->
  (forall a t, filtered fa (retype_at a t) = filtered fa a) -> generable h st -> (forall i, h i <= N.to_nat 1000) ->
  (forall types t, In types schemas -> In t types -> known st t) ->
  exists c, gen public fa fe ft allow helpers slices st schemas = Ret (inr c) /\
    (forall types t n, In types schemas -> In t types -> type_name st t = Some n -> picked ft allow n ->
       present fa st (fun j => forall m, type_name st (TPtr j) = Some m -> In (public m) (map fst (co_decls c))) t) /\
    (forall x, In x (map fst (co_decls c)) -> (exists j n, type_name st (TPtr j) = Some n /\ x = public n) \/ exists b, non_trivial b = true /\ x = helper_name b).
Proof. exact (gen_present public fa fe ft allow helpers h slices st schemas). Qed.
Print Assumptions C79_present.
Theorem C79_nothing_else (public : xname -> string) (fa : option (attribute -> bool)) (fe : option (element -> bool)) (ft : option (xname -> bool)) (allow : option (list xname)) (helpers : list Z) (h : nat -> nat) (slices : bool) (st : store) (schemas : list (list ty)) :
  (forall b, non_trivial b = true -> memb b helpers = true) ->
  (forall a t, filtered fa (retype_at a t) = filtered fa a) -> generable h st -> (forall i, h i <= N.to_nat 1000) ->
  (forall types t, In types schemas -> In t types -> known st t) ->
  exists c, gen public fa fe ft allow helpers slices st schemas = Ret (inr c) /\
    forall x, In x (map fst (co_decls c)) -> (exists j n, SgOrderSpec.reached ft allow st schemas (TPtr j) /\ type_name st (TPtr j) = Some n /\ x = public n) \/ exists b, non_trivial b = true /\ x = helper_name b.
Proof. exact (gen_only public fa fe ft allow helpers h slices st schemas). Qed.
Print Assumptions C79_nothing_else.
Theorem C79_recursive_refuted : complete knot /\ apart knot /\ mixed_down knot /\ all_translated knot /\ lists_supported knot /\
  exists c, gen pub None None None None all_helpers false knot [knot_types] = Ret (inr c) /\ ~ closed_code (co_decls c).
Proof. exact knot_not_closed. Qed.
Print Assumptions C79_recursive_refuted.
Theorem C79_mixed_refuted : complete deep /\ apart deep /\ ranked (fun i => i) deep /\ all_translated deep /\ lists_supported deep /\
  exists c, gen pub None None None None all_helpers false deep [[TPtr 2]] = Ret (inr c) /\ ~ closed_code (co_decls c).
Proof. exact deep_not_closed. Qed.
Print Assumptions C79_mixed_refuted.
Theorem C79_list_refuted : gen pub None None None None all_helpers false switches [[TPtr 0; TPtr 1]] = Ret (inl [mkName "urn:a" "Switches"]).
Proof. exact switches_fail. Qed.
Print Assumptions C79_list_refuted.
Example C79_case : (generable shop_rank shop /\ forall i, shop_rank i <= N.to_nat 1000) /\ (forall types t, In types shop_types -> In t types -> known shop t) /\
  match gen pub None None None None all_helpers false shop shop_types with
  | Ret (inr c) => map (fun p => (fst p, spec_ids (snd p))) (co_decls c) | _ => [] end =
  [("Sizes", ["int"]); ("Name", ["string"]); ("Color", ["string"]); ("Car", ["Color"; "string"; "string"; "string"]);
   ("Truck", ["Color"; "string"; "string"; "Car"; "string"]); ("Order", ["time.Time"; "Sizes"; "Truck"; "byte"]);
   ("Label", ["Color"; "string"]); ("Sub", ["Color"; "string"]); ("xsdDate", ["time.Time"]); ("xsdHexBinary", ["byte"])].
Proof. exact (conj shop_generable (conj shop_known shop_code)). Qed.
Example C79_case_helpers : forall b, non_trivial b = true -> memb b all_helpers = true.
Proof. exact all_helpers_ok. Qed.
Example C79_case_stays : stays None shop (TPtr 0) /\ stays None shop (TPtr 3) /\ stays None shop (TPtr 6) /\ stays None excluded (TPtr 0) /\ ~ stays None shop (TPtr 2).
Proof. exact shop_stays. Qed.

Theorem C80_declared (public : xname -> string) (fa : option (attribute -> bool)) (fe : option (element -> bool)) (ft : option (xname -> bool)) (allow : option (list xname)) (helpers : list Z) (h : nat -> nat) (slices : bool) (st : store) (schemas : list (list ty)) :
  (forall b, non_trivial b = true -> memb b helpers = true) ->
  (forall a t, filtered fa (retype_at a t) = filtered fa a) -> generable h st -> (forall i, h i <= N.to_nat 1000) ->
  (forall types t, In types schemas -> In t types -> known st t) ->
  exists c, gen public fa fe ft allow helpers slices st schemas = Ret (inr c) /\
    forall all types t n, In types schemas -> In t types -> type_name st t = Some n -> picked ft allow n -> stays fa st t ->
      name_of public fa fe helpers all c n = Ret (c, public n) /\ In (public n) (map fst (co_decls c)).
Proof. exact (fun Hh => name_stays public fa fe ft allow helpers Hh h slices st schemas). Qed.
Print Assumptions C80_declared.
Theorem C80_plain (public : xname -> string) (fa : option (attribute -> bool)) (fe : option (element -> bool)) (ft : option (xname -> bool)) (allow : option (list xname)) (helpers : list Z) (h : nat -> nat) (slices : bool) (st : store) (schemas : list (list ty)) :
  (forall b, non_trivial b = true -> memb b helpers = true) ->
  (forall a t, filtered fa (retype_at a t) = filtered fa a) -> generable h st -> (forall i, h i <= N.to_nat 1000) ->
  (forall types t, In types schemas -> In t types -> known st t) ->
  exists c, gen public fa fe ft allow helpers slices st schemas = Ret (inr c) /\
    forall all i s n b g, nth_error st i = Some (DS s) -> sd_name s = n -> lookup n all = Some (TPtr i) -> ancestor st (TPtr i) (TB b) -> plain s b -> builtin_expr b = Returns (Some g) ->
      exists c' id, name_of public fa fe helpers all c n = Ret (c', id) /\ co_decls c' = co_decls c /\ (In id (map fst (co_decls c)) \/ id = expr_text (of_gotype g)).
Proof. exact (fun Hh => name_plain public fa fe ft allow helpers Hh h slices st schemas). Qed.
Print Assumptions C80_plain.
Theorem C80_replaced_refuted : (generable (fun i => Nat.min i 9) paint /\ forall i, Nat.min i 9 <= N.to_nat 1000) /\
  exists c c', gen pub None None None None all_helpers false paint [[TPtr 0; TPtr 1]] = Ret (inr c) /\ map fst (co_decls c) = ["Color"] /\
    name_of pub None None all_helpers paint_all c (mkName "urn:a" "Paint") = Ret (c', "Paint") /\ co_decls c' = co_decls c.
Proof. exact (conj paint_generable paint_name). Qed.
Print Assumptions C80_replaced_refuted.
Theorem C80_excluded_refuted : exists c c', gen pub None None None (Some [mkName "urn:a" "A"]) all_helpers false excluded [[TPtr 0; TPtr 1]] = Ret (inr c) /\ map fst (co_decls c) = ["A"] /\
  name_of pub None None all_helpers excluded_all c (mkName "urn:a" "B") = Ret (c', "B") /\ co_decls c' = co_decls c.
Proof. exact excluded_name. Qed.
Print Assumptions C80_excluded_refuted.
Theorem C80_helper_used_refuted : exists c c', gen pub None None None (Some [mkName "urn:a" "A"]) all_helpers false dated [[TPtr 0; TPtr 1]] = Ret (inr c) /\ map fst (co_decls c) = ["A"; "xsdDate"] /\
  name_of pub None None all_helpers excluded_all c (mkName "urn:a" "B") = Ret (c', "ERRORB") /\ co_decls c' = co_decls c.
Proof. exact dated_name. Qed.
Print Assumptions C80_helper_used_refuted.
Example C80_case : match gen pub None None None None all_helpers false shop shop_types with
  | Ret (inr c) => map (fun p => match name_of pub None None all_helpers [(mkName "urn:a" "Car", TPtr 3); (mkName "urn:a" "Note", TPtr 2); (mkName "urn:a" "Name", TPtr 1)] c (mkName (fst p) (snd p)) with Ret (_, id) => id | _ => "" end)
                       [("urn:a", "Car"); ("urn:a", "Note"); ("urn:a", "Name"); (schemaNS, "date"); ("urn:b", "Car")]
  | _ => [] end = ["Car"; "string"; "Name"; "time.Time"; "NOTFOUNDCar"].
Proof. exact shop_names. Qed.
Example C80_case_plain : nth_error shop 1 = Some (DS (simple_of "Name" (TB 38))) /\ ancestor shop (TPtr 1) (TB 38) /\ plain (simple_of "Name" (TB 38)) 38 /\ builtin_expr 38 = Returns (Some (GIdent "string")).
Proof. exact shop_plain. Qed.
