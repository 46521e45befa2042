(* SOAP arrays: cases and counterexamples. *)
From Verif Require Import Base ScopeModel TreeModel EqualModel EqualSpec EqualProofs BuiltinModel XsdModel TypesModel TypesSpec GenModel SgModel SgStruct SgExamples SgFlatSpec SgFlatten SgFlatExamples SgExpandSpec SgExpandFields SoapModel SoapSpec SoapProofs SoapShare.
Local Open Scope string_scope.

Definition w_type := mkName soap_wsdlNS "arrayType".
Definition here : scope := [mkName "urn:a" "t"; mkName schemaNS "xs"].
(* <attribute ref="soapenc:arrayType" wsdl:arrayType="v"/> *)
Definition arr (v : string) : attribute := mkAttribute (mkName "http://schemas.xmlsoap.org/soap/encoding/" "arrayType") "" (TB 38) "" true [mkAttr w_type v] here.
Definition prices_c (v : string) (pre post : list attribute) : complexT := ct_of "Prices" (TPtr 1) [] (pre ++ arr v :: post)%list false.
Definition array_c : complexT := ct_of "Array" (TB 0) [any_el true] [at_of "arrayType" (TB 38); at_of "size" (TB 38)] false.
Definition price_c : complexT := ct_of "Price" (TB 0) [el_of "amount" (TB 38)] [] false.
Definition shop (v : string) (pre post : list attribute) : store := [DC (prices_c v pre post); DC array_c; DC price_c; DC (ct_of "List" (TPtr 1) [] [] false)].
Definition shop_es : list (xname * ty) := map (fun p => (mkName "urn:a" (fst p), TPtr (snd p))) [("Prices", 0); ("Array", 1); ("Price", 2); ("List", 3)].
Lemma shop_ok v pre post : rooted (shop v pre post) /\ forall k t, In (k, t) shop_es -> known (shop v pre post) t.
Proof.
  split.
  - intros i d H. exists 0%Z. destruct i as [|[|[|[|i]]]]; cbn in H; try (destruct i; discriminate);
      repeat (apply an_base; [cbn [base_of nth_error shop def_base prices_c array_c price_c ct_of ct_base]; discriminate|]; cbn [base_of nth_error shop def_base prices_c array_c price_c ct_of ct_base]); constructor.
  - intros k t H. cbn in H. repeat (destruct H as [[= <- <-]|H]; [cbn; lia|]). destruct H.
Qed.
Lemma item_plain s l : trim_space s = l ++ "[]" -> item_local s l.
Proof.
  intros E. destruct (trim_space_split s) as (u & v & Hu & Hv & E1 & H1 & H2). exists u, (trim_space s), v. split; [exact Hu|]. split; [exact Hv|]. split; [exact E1|]. split; [exact H1|]. split; [exact H2|]. left. exact E.
Qed.
Lemma shop_array pre post : (forall x, In x pre -> ~ named x "arrayType") -> soap_arr (prices_c "t:Price[]" pre post) pre (arr "t:Price[]") post (mkName "urn:a" "Price").
Proof.
  intros N. constructor; [reflexivity|exact N|reflexivity|]. exists [], "t:Price[]", []. split; [reflexivity|]. split; [intros x []|]. split; [vm_compute; discriminate|]. split; [reflexivity|]. apply item_plain. reflexivity.
Qed.
Definition items_e (b : ty) : element := item (any_el true) b.
Lemma shop_run : soap_arrays (shop "t:Price[]" [] []) (map (pair shop_es) [TPtr 0; TPtr 1; TPtr 2; TPtr 3]) =
  Ret [DC (array_type (prices_c "t:Price[]" [] []) [items_e (TPtr 2)] [] (TPtr 4)); DC array_c; DC price_c; DC (ct_of "List" (TPtr 1) [] [] false);
       DC (array_type array_c [any_el true] [at_of "size" (TB 38)] (TB 0))].
Proof. vm_compute. reflexivity. Qed.
(* the struct generated for the array: a slice of prices and the size *)
Definition fields (r : run (store * list spec)) : list (string * string * string) :=
  match r with Ret (_, [s]) => match sp_struct s with Some l => map (fun f => (sf_name f, expr_text (sf_expr f), sf_tag f)) l | None => [] end | _ => [] end.
Definition struct_of (st : store) : list (string * string * string) := match get_c st 0 with Some c => fields (gen_complex nlocal None None [] st 0 c) | None => [] end.
Lemma shop_struct : match soap_arrays (shop "t:Price[]" [] []) [(shop_es, TPtr 0)] with Ret st => struct_of st | _ => [] end =
  [("Items", "[]Price", "xml:"",any"""); ("size", "string", "xml:""size,attr,omitempty""")].
Proof. vm_compute. reflexivity. Qed.
(* attributes declared after arrayType are lost *)
Lemma later_attribute : exists st es i c x st' c', rooted st /\ (forall k t, In (k, t) es -> known st t) /\ nth_error st i = Some (DC c) /\
  In x (ct_attrs c) /\ ~ named x "arrayType" /\ soap_array st es (TPtr i) = Ret st' /\ nth_error st' i = Some (DC c') /\ ~ In x (ct_attrs c').
Proof.
  exists (shop "t:Price[]" [] [at_of "unit" (TB 38)]), shop_es, 0, (prices_c "t:Price[]" [] [at_of "unit" (TB 38)]), (at_of "unit" (TB 38)). eexists. eexists.
  split; [apply shop_ok|]. split; [apply shop_ok|]. split; [reflexivity|]. split; [right; left; reflexivity|]. split; [vm_compute; discriminate|]. split; [vm_compute; reflexivity|]. split; [reflexivity|]. intros [].
Qed.
(* an array of a built-in type that no type is derived from keeps items of any type *)
Lemma builtin_item : exists st es c st' c', rooted st /\ (forall k t, In (k, t) es -> known st t) /\ nth_error st 0 = Some (DC c) /\
  (exists pre a post, soap_arr c pre a post (mkName schemaNS "int")) /\ parse_builtin (mkName schemaNS "int") <> None /\
  soap_array st es (TPtr 0) = Ret st' /\ nth_error st' 0 = Some (DC c') /\ ct_elems c' = ct_elems c /\ struct_of st' = [("Items", "[]string", "xml:"",any"""); ("size", "string", "xml:""size,attr,omitempty""")].
Proof.
  exists (shop "xs:int[]" [] []), shop_es, (prices_c "xs:int[]" [] []). eexists. eexists.
  split; [apply shop_ok|]. split; [apply shop_ok|]. split; [reflexivity|]. split.
  { exists [], (arr "xs:int[]"), []. constructor; [reflexivity|intros x []|reflexivity|]. exists [], "xs:int[]", []. split; [reflexivity|]. split; [intros x []|]. split; [vm_compute; discriminate|]. split; [reflexivity|]. apply item_plain. reflexivity. }
  split; [vm_compute; discriminate|]. split; [vm_compute; reflexivity|]. split; [reflexivity|]. split; vm_compute; reflexivity.
Qed.
(* only one pair of empty brackets is taken off *)
Lemma sized_item : forall v, In v ["t:Price[3]"; "t:Price[][]"; "t:Price[,]"] -> exists st', soap_array (shop v [] []) shop_es (TPtr 0) = Ret st' /\
  forall c', nth_error st' 0 = Some (DC c') -> ct_elems c' = [].
Proof. intros v H. cbn in H. repeat (destruct H as [<-|H]; [eexists; split; [vm_compute; reflexivity|]; cbn; intros c' [= <-]; reflexivity|]). destruct H. Qed.
(* a base without attributes *)
Definition bare : store := [DC (ct_of "Prices" (TPtr 1) [] [arr "t:Price[]"] false); DC (ct_of "Sequence" (TB 0) [any_el true] [] false); DC price_c].
Lemma bare_panics : soap_array bare shop_es (TPtr 0) = Panic /\ rooted bare.
Proof. split; [vm_compute; reflexivity|apply complete_rooted, (completeb_ok 5); reflexivity]. Qed.
(* an array type whose base is an array type with a wildcard of its own: the item type of the base is
   written to the elements that the copy, made before, shares with it *)
Definition nested (pre : list attribute) : store := [DC (ct_of "Prices" (TPtr 1) [any_el true] (pre ++ [arr "t:Price[]"]) false); DC array_c; DC price_c;
  DC (ct_of "Special" (TPtr 0) [] (pre ++ [arr "t:None[]"]) false)].
Definition nested_es : list (xname * ty) := map (fun p => (mkName "urn:a" (fst p), TPtr (snd p))) [("Prices", 0); ("Array", 1); ("Price", 2); ("Special", 3)].
Lemma nested_ok pre : rooted (nested pre) /\ forall k t, In (k, t) nested_es -> known (nested pre) t.
Proof.
  split; [|intros k t H; cbn in H; repeat (destruct H as [[= <- <-]|H]; [cbn; lia|]); destruct H].
  intros i d H. exists 0%Z. destruct i as [|[|[|[|i]]]]; cbn in H; try (destruct i; discriminate);
    repeat (apply an_base; [cbn [base_of nth_error nested def_base array_c price_c ct_of ct_base]; discriminate|]; cbn [base_of nth_error nested def_base array_c price_c ct_of ct_base]); constructor.
Qed.
Definition elems_at (r : run store) (i : nat) : option (list element) := match r with Ret st => match get_c st i with Some c => Some (ct_elems c) | None => None end | _ => None end.
Lemma nested_shared : elems_at (soap_arrays (nested [at_of "unit" (TB 38)]) (map (pair nested_es) [TPtr 3])) 4 = Some [any_el true] /\
  elems_at (soap_arrays (nested [at_of "unit" (TB 38)]) (map (pair nested_es) [TPtr 3; TPtr 0])) 4 = Some [items_e (TPtr 2)] /\
  elems_at (soap_arrays (nested [at_of "unit" (TB 38)]) (map (pair nested_es) [TPtr 0; TPtr 3])) 5 = Some [items_e (TPtr 2)].
Proof. repeat split; vm_compute; reflexivity. Qed.
(* ... and the order in which the types are visited decides whether the program panics *)
Lemma order_panics : exists st es t u st', rooted st /\ (forall k x, In (k, x) es -> known st x) /\ In t (map snd es) /\ In u (map snd es) /\
  soap_arrays st [(es, t); (es, u)] = Ret st' /\ soap_arrays st [(es, u); (es, t)] = Panic.
Proof.
  exists (nested []), nested_es, (TPtr 3), (TPtr 0). eexists. split; [apply nested_ok|]. split; [apply nested_ok|]. split; [cbn; tauto|]. split; [cbn; tauto|]. split; vm_compute; reflexivity.
Qed.
