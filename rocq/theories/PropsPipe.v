(* C87: from schema documents to code. *)
From Coq Require Import Permutation.
From Verif Require Import Base SortLib ScopeModel TreeModel EqualModel BuiltinModel CodecModel XsdModel TypesModel TypesSpec TypesOrder TypesExamples GraphModel GenModel SgModel SgStruct SgDecl SgExamples SgFlatSpec SgExpandSpec SliceModel SgGen SgGenSpec SgGenExamples PipeModel PipeSpec PipeProofs PipeParse PipeExamples PipeMissing.
Local Open Scope string_scope.

Theorem C87_parses (h : xname -> nat) (l : list rd) (ord : nat -> list (xname * ty) -> list (xname * ty)) :
  documents h l -> imports_first l -> any_order ord -> exists st parsed, parse_rds ord l = Ok (st, parsed).
Proof. exact (fun D Im O => documents_parse h l D Im ord O). Qed.
Print Assumptions C87_parses.
Theorem C87_code (public : xname -> string) (fa : option (attribute -> bool)) (fe : option (element -> bool)) (ft : option (xname -> bool)) (allow : option (list xname)) (helpers : list Z) (slices : bool)
  (h : xname -> nat) (l : list rd) (namespaces targets ns : list string) :
  (forall b, non_trivial b = true -> memb b helpers = true) -> (forall a t, filtered fa (retype_at a t) = filtered fa a) ->
  documents h l -> (forall n, h n <= N.to_nat 1000) -> imports_first l ->
  (namespaces = [] /\ ns = targets \/ namespaces <> [] /\ ns = namespaces) -> NoDup ns -> (forall s, In s ns -> exists r, In r l /\ rd_tns r = s) ->
  forall (ord : nat -> list (xname * ty) -> list (xname * ty)) (ord' : string -> list (xname * ty) -> list (xname * ty)), any_order ord -> (forall s m, Permutation m (ord' s m)) ->
  exists c, gen_code public fa fe ft allow helpers slices ord ord' namespaces targets l = Ret (Coded c) /\ closed_code (co_decls c) /\
    (forall r n d, In r l -> In (rd_tns r) ns -> In (n, d) (rd_types r) -> picked ft allow n -> own_declaration fa l d -> In (public n) (map fst (co_decls c))) /\
    (forall x, In x (map fst (co_decls c)) -> (exists n d, generated ft allow ns l n /\ declares l n d /\ x = public n) \/ exists b, non_trivial b = true /\ x = helper_name b).
Proof. exact (code_of_documents public fa fe ft allow helpers slices h l namespaces targets ns). Qed.
Print Assumptions C87_code.
Theorem C87_order (public : xname -> string) (fa : option (attribute -> bool)) (fe : option (element -> bool)) (ft : option (xname -> bool)) (allow : option (list xname)) (helpers : list Z) (slices : bool)
  (h : xname -> nat) (l : list rd) (namespaces targets ns : list string) :
  (forall b, non_trivial b = true -> memb b helpers = true) -> (forall a t, filtered fa (retype_at a t) = filtered fa a) ->
  documents h l -> (forall n, h n <= N.to_nat 1000) -> imports_first l ->
  (namespaces = [] /\ ns = targets \/ namespaces <> [] /\ ns = namespaces) -> NoDup ns -> (forall s, In s ns -> exists r, In r l /\ rd_tns r = s) ->
  forall (ord ord2 : nat -> list (xname * ty) -> list (xname * ty)) (ord' ord2' : string -> list (xname * ty) -> list (xname * ty)),
  orderly public fa ft allow ns l -> any_order ord -> any_order ord2 -> (forall s m, Permutation m (ord' s m)) -> (forall s m, Permutation m (ord2' s m)) ->
  exists c c', gen_code public fa fe ft allow helpers slices ord ord' namespaces targets l = Ret (Coded c) /\ gen_code public fa fe ft allow helpers slices ord2 ord2' namespaces targets l = Ret (Coded c') /\
    forall sort sort', sorts_strings sort -> sorts_strings sort' -> gen_ast sort' (co_decls c') = gen_ast sort (co_decls c).
Proof. exact (order_of_documents public fa fe ft allow helpers slices h l namespaces targets ns). Qed.
Print Assumptions C87_order.
(* the namespaces for which there is no schema are reported, and no others *)
Theorem C87_missing (public : xname -> string) (fa : option (attribute -> bool)) (fe : option (element -> bool)) (ft : option (xname -> bool)) (allow : option (list xname)) (helpers : list Z) (slices : bool)
  (h : xname -> nat) (l : list rd) (namespaces targets ns : list string) : documents h l -> imports_first l ->
  (namespaces = [] /\ ns = targets \/ namespaces <> [] /\ ns = namespaces) ->
  forall ord ord', any_order ord -> NoDup ns -> (exists s, In s ns /\ s <> schemaNS /\ ~ In s (map rd_tns l)) ->
  exists m, gen_code public fa fe ft allow helpers slices ord ord' namespaces targets l = Ret (Missing m) /\ NoDup m /\ forall s, In s m <-> In s ns /\ s <> schemaNS /\ ~ In s (map rd_tns l).
Proof. exact (missing_ones public fa fe ft allow helpers slices h l namespaces targets ns). Qed.
Print Assumptions C87_missing.
(* They are counted: a second document for one namespace makes up for another that is missing, *)
Theorem C87_masked_refuted : code_names (gen_code pub None None None None all_helpers false as_is in_order ["urn:b"; "urn:c"] [] [far_base; far_more]) = [("Other", ["int"])] /\
  gen_code pub None None None None all_helpers false as_is in_order ["urn:b"; "urn:c"] [] [far_base] = Ret (Missing ["urn:c"]).
Proof. exact masked. Qed.
(* and one that is given twice is missed. *)
Theorem C87_repeated_refuted : In "urn:b" (map rd_tns [far_base]) /\ gen_code pub None None None None all_helpers false as_is in_order ["urn:b"; "urn:b"] [] [far_base] = Ret (Missing []).
Proof. exact repeated. Qed.
Print Assumptions C87_masked_refuted.
Print Assumptions C87_repeated_refuted.
Theorem C87_imports_last_refuted : (documents far_height [far_main; far_base] /\ orderly pub None None None ["urn:a"; "urn:b"] [far_main; far_base]) /\
  gen_code pub None None None None all_helpers false as_is in_order [] ["urn:a"; "urn:b"] [far_main; far_base] = Panic.
Proof. exact (conj far_documents far_panics). Qed.
Print Assumptions C87_imports_last_refuted.
Example C87_case : (rd_of base_doc = Some rd_base /\ rd_of main_doc = Some rd_main) /\ (documents car_height car_docs /\ (forall n, car_height n <= N.to_nat 1000) /\ imports_first car_docs) /\ orderly pub None None None ["urn:a"; "urn:b"] car_docs.
Proof. exact (conj docs_read (conj car_documents car_orderly)). Qed.
Example C87_case_code : code_names (gen_code pub None None None None all_helpers false as_is in_order [] ["urn:a"; "urn:b"] car_docs) =
    [("Color", ["string"]); ("Item", ["time.Time"; "Color"; "int"]); ("Sizes", ["int"]); ("Car", ["time.Time"; "Color"; "string"; "Sizes"; "int"]); ("xsdDate", ["time.Time"])] /\
  code_names (gen_code pub None None None None all_helpers false backwards in_reverse ["urn:a"] ["urn:a"] car_docs) =
    [("Color", ["string"]); ("Sizes", ["int"]); ("Car", ["time.Time"; "Color"; "string"; "Sizes"; "int"]); ("xsdDate", ["time.Time"])].
Proof. exact car_code. Qed.
Example C87_case_order : match gen_code pub None None None None all_helpers false as_is in_order [] ["urn:a"; "urn:b"] car_docs, gen_code pub None None None None all_helpers false backwards in_reverse [] ["urn:a"; "urn:b"] car_docs with
  | Ret (Coded c), Ret (Coded c') => (map fst (co_decls c), map fst (co_decls c'), map fst (gen_ast (isort_by id) (co_decls c'))) | _, _ => ([], [], []) end =
  (["Color"; "Item"; "Sizes"; "Car"; "xsdDate"], ["Sizes"; "Color"; "Item"; "Car"; "xsdDate"], ["Car"; "Color"; "Item"; "Sizes"; "xsdDate"]).
Proof. exact car_same. Qed.
Example C87_case_own : In (mkName "urn:b" "Sizes", snd (List.nth 2 (rd_types rd_base) (mkName "" "", DC (ct_of "" TNil [] [] false)))) (rd_types rd_base) /\
  own_declaration None car_docs (snd (List.nth 2 (rd_types rd_base) (mkName "" "", DC (ct_of "" TNil [] [] false)))) /\ picked None None (mkName "urn:b" "Sizes").
Proof. exact car_own. Qed.
Example C87_case_missing : gen_code pub None None None None all_helpers false as_is in_order ["urn:a"; "urn:c"] [] car_docs = Ret (Missing ["urn:c"]).
Proof. exact nowhere_missing. Qed.
Example C87_case_imports : (documents far_height [far_base; far_main] /\ imports_first [far_base; far_main] /\ code_names (gen_code pub None None None None all_helpers false as_is in_order [] ["urn:a"; "urn:b"] [far_base; far_main]) = [("Thing", ["int"]); ("Item", ["int"]); ("Car", ["int"])]) /\
  imports_first [rd_main; rd_base].
Proof. exact (conj far_other swapped_first). Qed.
