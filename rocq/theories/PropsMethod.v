(* C90: the methods and functions of a generated file. *)
From Verif Require Import Base SortLib ScopeModel TreeModel EqualModel BuiltinModel CodecModel XsdModel TypesModel GraphModel GenModel SgModel SgStruct SgProofs SgNames SgTags SgDecl SgExamples SgFlat SgFlatExamples SgExpandExamples SliceModel SliceExamples SgGen SgGenSpec SgGenExamples MethodModel MethodSpec MethodProofs MethodFile MethodExamples.
Local Open Scope string_scope.

Theorem C90_file (public : xname -> string) (fa : option (attribute -> bool)) (fe : option (element -> bool)) (ft : option (xname -> bool)) (allow : option (list xname)) (helpers : list Z) (slices : bool) (st : store) (schemas : list (list ty)) (c : code) (sort : list string -> list string) :
  gen public fa fe ft allow helpers slices st schemas = Ret (inr c) -> sorts_strings sort ->
  placed (file sort c) /\ calls_resolved (file sort c) /\ funcs_used (file sort c) /\ covered (co_store c) (file sort c) /\
  types_in (file sort c) = map fst (gen_ast sort (co_decls c)) /\ (closed_code (co_decls c) -> types_resolved (file sort c)) /\
  ((slices = false \/ forall n s, In (n, s) (co_decls c) -> sp_struct s = None -> sp_overrides s = []) -> distinct_funcs (file sort c)).
Proof. exact (methods_file public fa fe ft allow helpers slices st schemas c sort). Qed.
Print Assumptions C90_file.
Theorem C90_bodies (public : xname -> string) (fa : option (attribute -> bool)) (fe : option (element -> bool)) (ft : option (xname -> bool)) (allow : option (list xname)) (helpers : list Z) (slices : bool) (st : store) (schemas : list (list ty)) (c : code) (sort : list string -> list string) :
  gen public fa fe ft allow helpers slices st schemas = Ret (inr c) -> sorts_strings sort ->
  (forall n s fs g ff, In (n, s, fs) (file sort c) -> In g fs -> sp_struct s = Some ff -> n <> "T" -> NoDup ("T" :: map sf_name ff) -> locals_ok g) /\
  ((forall n s ff fd, In (n, s) (co_decls c) -> sp_struct s = Some ff -> In fd ff -> ~ In (sf_name fd) method_names) -> fields_apart (file sort c)).
Proof. exact (methods_go public fa fe ft allow helpers slices st schemas c sort). Qed.
Print Assumptions C90_bodies.
Theorem C90_helpers (public : xname -> string) (fa : option (attribute -> bool)) (fe : option (element -> bool)) (ft : option (xname -> bool)) (allow : option (list xname)) (helpers : list Z) (slices : bool) (st : store) (schemas : list (list ty)) (c : code) (sort : list string -> list string) :
  gen public fa fe ft allow helpers slices st schemas = Ret (inr c) -> sorts_strings sort -> helpers_work (file sort c).
Proof. exact (file_helpers public fa fe ft allow helpers slices st schemas c sort). Qed.
Print Assumptions C90_helpers.
Theorem C90_type_t_refuted : exists c g, gen pub None None None None all_helpers false [DC one_date] [[TPtr 0]] = Ret (inr c) /\ In g (funcs (file (isort_by id) c)) /\ fn_name g = "UnmarshalXML" /\ fn_alias g = Some "T" /\ ~ locals_ok g.
Proof. exact named_t. Qed.
Print Assumptions C90_type_t_refuted.
Theorem C90_field_t_refuted : exists c g, gen pub None None None None all_helpers false [DC trip] [[TPtr 0]] = Ret (inr c) /\ In g (funcs (file (isort_by id) c)) /\ fn_name g = "UnmarshalXML" /\ fn_overlay g = ["T"; "T"] /\ ~ locals_ok g.
Proof. exact field_t. Qed.
Print Assumptions C90_field_t_refuted.
Theorem C90_field_method_refuted : exists c, gen pub None None None None all_helpers false [DC odd] [[TPtr 0]] = Ret (inr c) /\ ~ fields_apart (file (isort_by id) c).
Proof. exact field_method. Qed.
Print Assumptions C90_field_method_refuted.
Theorem C90_slices_refuted : exists c, gen pub None None None None all_helpers true [DC dates_c] [[TPtr 0]] = Ret (inr c) /\ ~ distinct_funcs (file (isort_by id) c).
Proof. exact twice. Qed.
Print Assumptions C90_slices_refuted.
Example C90_case : outline (gen pub None None None None all_helpers false shop shop_types) =
  [("Car", []); ("Color", []); ("Label", []); ("Name", []); ("Order", [(Some "Order", "MarshalXML"); (Some "Order", "UnmarshalXML")]);
   ("Sizes", [(Some "Sizes", "MarshalText"); (Some "Sizes", "UnmarshalText")]); ("Sub", []); ("Truck", []);
   ("xsdDate", [(Some "xsdDate", "UnmarshalText"); (Some "xsdDate", "MarshalText"); (Some "xsdDate", "MarshalXML"); (Some "xsdDate", "MarshalXMLAttr"); (None, "_unmarshalTime"); (None, "_marshalTime")]);
   ("xsdHexBinary", [(Some "xsdHexBinary", "UnmarshalText"); (Some "xsdHexBinary", "MarshalText")])] /\
  laid (gen pub None None None None all_helpers false shop shop_types) = [["T"; "placed"; "key"]; ["T"; "placed"; "key"]].
Proof. exact shop_outline. Qed.
Example C90_case_text : outline (gen pub None None None None all_helpers false birth [[TPtr 0; TPtr 1]]) =
  [("Birthday", [(Some "Birthday", "UnmarshalText"); (Some "Birthday", "MarshalText")]); ("Person", [(Some "Person", "MarshalXML"); (Some "Person", "UnmarshalXML")]);
   ("xsdDate", [(Some "xsdDate", "UnmarshalText"); (Some "xsdDate", "MarshalText"); (Some "xsdDate", "MarshalXML"); (Some "xsdDate", "MarshalXMLAttr"); (None, "_unmarshalTime"); (None, "_marshalTime")]);
   ("xsdDateTime", [(Some "xsdDateTime", "UnmarshalText"); (Some "xsdDateTime", "MarshalText"); (Some "xsdDateTime", "MarshalXML"); (Some "xsdDateTime", "MarshalXMLAttr")])].
Proof. exact birth_outline. Qed.
Example C90_case_sort : sorts_strings (isort_by id).
Proof. exact sort_exists. Qed.
