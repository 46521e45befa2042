(* C57: HandleSOAPArrayType, for all types whose bases end in built-in ones. es are the types
   of the schema with all its dependencies, in the order in which they are searched. *)
From Verif Require Import Base ScopeModel TreeModel BuiltinModel XsdModel TypesModel TypesSpec SgModel SgStruct SgExamples SgFlatSpec SgExpandSpec SoapModel SoapSpec SoapProofs SoapShare SoapExamples.
Local Open Scope string_scope.

(* C57: an array type that has not been copied: its items, its attributes and its own copy of the base; all
   else is kept. sh lists the copies made so far, each with the type it was made of *)
Theorem C57_array st es sh i c pre a post n : rooted st -> (forall k t, In (k, t) es -> known st t) -> nth_error st i = Some (DC c) -> soap_arr c pre a post n ->
  (forall k, ~ In (k, i) sh) ->
  exists els, items st es i n (ct_elems c) els /\
    (forall j b, ct_base c = TPtr j -> nth_error st j = Some (DC b) -> ct_attrs b <> [] ->
       exists ats, without_array (ct_attrs b) ats /\
         soap_step (st, sh) es (TPtr i) = Ret ((set_nth i (DC (array_type c els pre (TPtr (List.length st)))) st ++ [DC (array_type b (ct_elems b) ats (ct_base b))])%list, (List.length st, j) :: sh)) /\
    (forall j b, ct_base c = TPtr j -> nth_error st j = Some (DC b) -> ct_attrs b = [] -> soap_step (st, sh) es (TPtr i) = Panic) /\
    ((forall j b, ct_base c = TPtr j -> nth_error st j <> Some (DC b)) ->
       soap_step (st, sh) es (TPtr i) = Ret (set_nth i (DC (array_type c els (ct_attrs c) (ct_base c))) st, sh)).
Proof. exact (step_array st es sh i c pre a post n). Qed.
Print Assumptions C57_array.
(* C57: if there are copies of it, they share its elements and show the new ones, as many as they had; nothing else is different *)
Theorem C57_shared st sh es i s' : soap_step (st, sh) es (TPtr i) = Ret s' ->
  exists st1 sh1, soap_step (st, []) es (TPtr i) = Ret (st1, sh1) /\ snd s' = (sh1 ++ sh)%list /\
    (forall k, ~ In (k, i) sh -> nth_error (fst s') k = nth_error st1 k) /\
    (forall k c b, In (k, i) sh -> nth_error st1 i = Some (DC c) -> nth_error st1 k = Some (DC b) ->
       nth_error (fst s') k = Some (DC (array_type b (firstn (List.length (ct_elems b)) (ct_elems c)) (ct_attrs b) (ct_base b)))).
Proof. exact (step_shared st sh es i s'). Qed.
Print Assumptions C57_shared.
(* C57: a type without an item type is left alone *)
Theorem C57_plain st es sh i c : nth_error st i = Some (DC c) -> (forall pre a post n, ~ soap_arr c pre a post n) -> (forall k, ~ In (k, i) sh) ->
  soap_step (st, sh) es (TPtr i) = Ret (st, sh).
Proof. exact (step_plain' st es sh i c). Qed.
Print Assumptions C57_plain.
(* C57: no other type is changed, except for the elements of copies of t, and at most one is added *)
Theorem C57_others s es t s' : soap_step s es t = Ret s' ->
  (forall k, t <> TPtr k -> k < List.length (fst s) -> (forall i, t = TPtr i -> ~ In (k, i) (snd s)) -> nth_error (fst s') k = nth_error (fst s) k) /\
  (forall k c, t <> TPtr k -> nth_error (fst s) k = Some (DC c) -> exists els, nth_error (fst s') k = Some (DC (array_type c els (ct_attrs c) (ct_base c)))) /\
  List.length (fst s) <= List.length (fst s') <= S (List.length (fst s)).
Proof. exact (step_frame s es t s'). Qed.
Print Assumptions C57_others.
(* C57: after all types of all schemas, those that are not arrays are as before: the base of the arrays, too *)
Theorem C57_schema l st st' : soap_arrays st l = Ret st' ->
  forall k d, nth_error st k = Some d -> (forall c, d = DC c -> ~ exists pre a post n, soap_arr c pre a post n) -> nth_error st' k = Some d.
Proof. exact (arrays_frame l st st'). Qed.
Print Assumptions C57_schema.
(* C57: a base that was replaced: the new one has the name of the old one, its elements (but for those
   added at the end), as they are after all types are done, and no arrayType *)
Theorem C57_copy st l st' : rooted st -> (forall es t, In (es, t) l -> known st t) -> soap_arrays st l = Ret st' ->
  forall i c0 c j, nth_error st i = Some (DC c0) -> nth_error st' i = Some (DC c) -> ct_base c0 = TPtr j -> ct_base c <> TPtr j ->
  exists k b cj more, ct_base c = TPtr k /\ List.length st <= k /\ nth_error st' k = Some (DC b) /\ nth_error st' j = Some (DC cj) /\
    ct_name b = ct_name cj /\ ct_elems cj = (ct_elems b ++ more)%list /\ forall a, In a (ct_attrs b) -> ~ named a "arrayType".
Proof. exact (fun R => copies st R l st'). Qed.
Print Assumptions C57_copy.
(* C57: a type listed under several names is changed once *)
Theorem C57_again s es t s' : soap_step s es t = Ret s' -> soap_step s' es t = Ret s'.
Proof. exact (step_again s es t s'). Qed.
Print Assumptions C57_again.
Example soap_example : soap_arrays (shop "t:Price[]" [] []) (map (pair shop_es) [TPtr 0; TPtr 1; TPtr 2; TPtr 3]) =
  Ret [DC (array_type (prices_c "t:Price[]" [] []) [items_e (TPtr 2)] [] (TPtr 4)); DC array_c; DC price_c; DC (ct_of "List" (TPtr 1) [] [] false);
       DC (array_type array_c [any_el true] [at_of "size" (TB 38)] (TB 0))].
Proof. exact shop_run. Qed.
Example soap_hypotheses pre post : (forall x, In x pre -> ~ named x "arrayType") ->
  rooted (shop "t:Price[]" pre post) /\ (forall k t, In (k, t) shop_es -> known (shop "t:Price[]" pre post) t) /\
  soap_arr (prices_c "t:Price[]" pre post) pre (arr "t:Price[]") post (mkName "urn:a" "Price").
Proof. exact (fun N => conj (proj1 (shop_ok _ _ _)) (conj (proj2 (shop_ok _ _ _)) (shop_array pre post N))). Qed.
Example soap_struct : match soap_arrays (shop "t:Price[]" [] []) [(shop_es, TPtr 0)] with Ret st => struct_of st | _ => [] end =
  [("Items", "[]Price", "xml:"",any"""); ("size", "string", "xml:""size,attr,omitempty""")].
Proof. exact shop_struct. Qed.
(* a base that is an array type itself, with a wildcard of its own *)
Example soap_nested : (rooted (nested [at_of "unit" (TB 38)]) /\ forall k t, In (k, t) nested_es -> known (nested [at_of "unit" (TB 38)]) t) /\
  elems_at (soap_arrays (nested [at_of "unit" (TB 38)]) (map (pair nested_es) [TPtr 3])) 4 = Some [any_el true] /\
  elems_at (soap_arrays (nested [at_of "unit" (TB 38)]) (map (pair nested_es) [TPtr 3; TPtr 0])) 4 = Some [items_e (TPtr 2)] /\
  elems_at (soap_arrays (nested [at_of "unit" (TB 38)]) (map (pair nested_es) [TPtr 0; TPtr 3])) 5 = Some [items_e (TPtr 2)].
Proof. exact (conj (nested_ok _) nested_shared). Qed.
(* attributes declared after arrayType are lost *)
Theorem C57_attributes_kept_refuted : exists st es i c x st' c', rooted st /\ (forall k t, In (k, t) es -> known st t) /\ nth_error st i = Some (DC c) /\
  In x (ct_attrs c) /\ ~ named x "arrayType" /\ soap_array st es (TPtr i) = Ret st' /\ nth_error st' i = Some (DC c') /\ ~ In x (ct_attrs c').
Proof. exact later_attribute. Qed.
Print Assumptions C57_attributes_kept_refuted.
(* an array of a built-in type that no type is derived from keeps items of any type, and becomes a slice of strings *)
Theorem C57_builtin_item_refuted : exists st es c st' c', rooted st /\ (forall k t, In (k, t) es -> known st t) /\ nth_error st 0 = Some (DC c) /\
  (exists pre a post, soap_arr c pre a post (mkName schemaNS "int")) /\ parse_builtin (mkName schemaNS "int") <> None /\
  soap_array st es (TPtr 0) = Ret st' /\ nth_error st' 0 = Some (DC c') /\ ct_elems c' = ct_elems c /\ struct_of st' = [("Items", "[]string", "xml:"",any"""); ("size", "string", "xml:""size,attr,omitempty""")].
Proof. exact builtin_item. Qed.
Print Assumptions C57_builtin_item_refuted.
(* only one pair of empty brackets is taken off the item type *)
Theorem C57_sized_arrays_refuted : forall v, In v ["t:Price[3]"; "t:Price[][]"; "t:Price[,]"] -> exists st', soap_array (shop v [] []) shop_es (TPtr 0) = Ret st' /\
  forall c', nth_error st' 0 = Some (DC c') -> ct_elems c' = [].
Proof. exact sized_item. Qed.
Print Assumptions C57_sized_arrays_refuted.
(* a base without attributes makes the program panic *)
Theorem C57_returns_refuted : soap_array bare shop_es (TPtr 0) = Panic /\ rooted bare.
Proof. exact bare_panics. Qed.
Print Assumptions C57_returns_refuted.
(* with arrays of arrays, the order in which the map of types is visited decides whether it panics *)
Theorem C57_order_refuted : exists st es t u st', rooted st /\ (forall k x, In (k, x) es -> known st x) /\ In t (map snd es) /\ In u (map snd es) /\
  soap_arrays st [(es, t); (es, u)] = Ret st' /\ soap_arrays st [(es, u); (es, t)] = Panic.
Proof. exact order_panics. Qed.
Print Assumptions C57_order_refuted.
