(* C88 and C92 from the documents on: what the code is like, and what becomes of values of its types. *)
From Coq Require Import Permutation.
From Verif Require Import Base SortLib ScopeModel TreeModel EqualModel BuiltinModel CodecModel XsdModel XsdProofs TypesModel TypesSpec TypesOrder TypesExamples GenModel SgModel SgStruct SgDecl SgExamples SgFlatSpec SgExpandSpec SliceModel SgGen SgGenSpec SgGenExamples SgOrderSpec SgShapeSpec BindModel BindSpec BindGenSpec BindDecode BindExamples BindDecodeEx WholeSpec WholeExamples PipeModel PipeSpec PipeProofs PipeParse PipeExamples PipeWholeSpec PipeWhole PipeWholeExamples.
Local Open Scope string_scope.

Theorem C88_documents (public : xname -> string) (fa : option (attribute -> bool)) (fe : option (element -> bool)) (ft : option (xname -> bool)) (allow : option (list xname)) (helpers : list Z)
    (h : xname -> nat) (l : list rd) (namespaces targets ns : list string) :
  (forall b, non_trivial b = true -> memb b helpers = true) -> (forall a t, filtered fa (retype_at a t) = filtered fa a) -> (forall e t, filtered fe (retype_el e t) = filtered fe e) ->
  documents h l -> (forall n, h n <= N.to_nat 1000) -> imports_first l -> wild_declared l -> firm_declared fa l ->
  (namespaces = [] /\ ns = targets \/ namespaces <> [] /\ ns = namespaces) -> NoDup ns -> (forall s, In s ns -> exists r, In r l /\ rd_tns r = s) ->
  forall (ord : nat -> list (xname * ty) -> list (xname * ty)) (ord' : string -> list (xname * ty) -> list (xname * ty)), any_order ord -> (forall s m, Permutation m (ord' s m)) ->
  exists st parsed c, parse_rds ord l = Ok (st, parsed) /\ gen_code public fa fe ft allow helpers false ord ord' namespaces targets l = Ret (Coded c) /\
    forall x sp, In (x, sp) (co_decls c) -> (exists i, shape public fa fe st i sp /\ x = sp_name sp) \/ exists b, non_trivial b = true /\ x = helper_name b /\ sp = helper_spec b.
Proof. exact (documents_shape public fa fe ft allow helpers h l namespaces targets ns). Qed.
Print Assumptions C88_documents.
Theorem C92_documents (public : xname -> string) (fa : option (attribute -> bool)) (fe : option (element -> bool)) (ft : option (xname -> bool)) (allow : option (list xname)) (helpers : list Z)
    (h : xname -> nat) (l : list rd) (namespaces targets ns : list string) (exported : string -> bool) (decl_attr : xattr -> bool) :
  (forall b, non_trivial b = true -> memb b helpers = true) -> (forall a t, filtered fa (retype_at a t) = filtered fa a) -> (forall e t, filtered fe (retype_el e t) = filtered fe e) ->
  documents h l -> (forall n, h n <= N.to_nat 1000) -> imports_first l -> wild_declared l -> firm_declared fa l ->
  (namespaces = [] /\ ns = targets \/ namespaces <> [] /\ ns = namespaces) -> NoDup ns -> (forall s, In s ns -> exists r, In r l /\ rd_tns r = s) ->
  forall (ord : nat -> list (xname * ty) -> list (xname * ty)) (ord' : string -> list (xname * ty) -> list (xname * ty)), any_order ord -> (forall s m, Permutation m (ord' s m)) ->
  go_names public ->
  exists st parsed c, parse_rds ord l = Ok (st, parsed) /\ gen_code public fa fe ft allow helpers false ord ord' namespaces targets l = Ret (Coded c) /\
    (clear_code public exported decl_attr fa fe st (co_decls c) ->
    forall (Leaf : Type) (print : string -> Leaf -> string) (read : string -> Leaf -> string -> option Leaf) (zero_leaf : string -> Leaf) (is_empty : string -> Leaf -> bool) (zero : gexpr -> val Leaf) (good : string -> Leaf -> Prop) (clean : string -> string),
    zero_ok (structs_of (co_decls c)) Leaf zero_leaf zero ->
    (forall from to x, marshaled_as from to -> good to x -> read to (zero_leaf from) (clean (print to x)) = Some x) ->
    (forall t x, good t x -> is_empty t x = true -> x = zero_leaf t) ->
    forall n v name d, has_type (structs_of (co_decls c)) Leaf good (EId n) v ->
      exists y, marshal exported (structs_of (co_decls c)) Leaf print is_empty v name (EId n) = [y] /\
        forall y', reads_back decl_attr clean d y y' -> unmarshal exported (structs_of (co_decls c)) Leaf read zero y' (EId n) (zero (EId n)) = Some v).
Proof. exact (fun Hn Hfa Hfe D Hh Im Wd Fd Ens Nn Hns ord ord' O O' => documents_round_trip public fa fe ft allow helpers h l namespaces targets ns Hn Hfa Hfe D Hh Im Wd Fd Ens Nn Hns ord ord' O O' exported decl_attr). Qed.
Print Assumptions C92_documents.
Theorem C92_documents_decoded (public : xname -> string) (fa : option (attribute -> bool)) (fe : option (element -> bool)) (ft : option (xname -> bool)) (allow : option (list xname)) (helpers : list Z)
    (h : xname -> nat) (l : list rd) (namespaces targets ns : list string) (exported : string -> bool) (decl_attr : xattr -> bool) :
  (forall b, non_trivial b = true -> memb b helpers = true) -> (forall a t, filtered fa (retype_at a t) = filtered fa a) -> (forall e t, filtered fe (retype_el e t) = filtered fe e) ->
  documents h l -> (forall n, h n <= N.to_nat 1000) -> imports_first l -> wild_declared l -> firm_declared fa l ->
  (namespaces = [] /\ ns = targets \/ namespaces <> [] /\ ns = namespaces) -> NoDup ns -> (forall s, In s ns -> exists r, In r l /\ rd_tns r = s) ->
  forall (ord : nat -> list (xname * ty) -> list (xname * ty)) (ord' : string -> list (xname * ty) -> list (xname * ty)), any_order ord -> (forall s m, Permutation m (ord' s m)) ->
  go_names public ->
  exists st parsed c, parse_rds ord l = Ok (st, parsed) /\ gen_code public fa fe ft allow helpers false ord ord' namespaces targets l = Ret (Coded c) /\
    (clear_code public exported decl_attr fa fe st (co_decls c) ->
    forall (Leaf : Type) (read : string -> Leaf -> string -> option Leaf) (zero : gexpr -> val Leaf) n s i ct es ats,
    structs_of (co_decls c) n = Some s -> sp_type s = TPtr i -> nth_error st i = Some (DC ct) -> inherits st i es ats -> one_wildcard (filter (fun e => negb (filtered fe e)) es) ->
    exists els ats' fs t, Forall2 (el_for fa st) (filter (fun e => negb (filtered fe e)) es) els /\ Forall2 (at_for fa st) (filter (fun a => negb (filtered fa a)) ats) ats' /\ sp_struct s = Some fs /\
    List.length fs = t + List.length els + List.length ats' /\ t <= 1 /\ (ct_mixed ct = false -> t = 0) /\
    forall m attrs kids old v, List.length old = List.length fs ->
      (unmarshal exported (structs_of (co_decls c)) Leaf read zero (NElem m attrs kids) (EId n) (VStruct _ old) = Some v <->
       exists new, v = VStruct _ new /\ List.length new = List.length old /\
         forall j sl f w, nth_error (slots t els ats') j = Some sl -> nth_error fs j = Some f -> nth_error old j = Some w ->
           exists w', nth_error new j = Some w' /\ slot_value exported (structs_of (co_decls c)) Leaf read zero els attrs kids (as_type s f) sl w = Some w')).
Proof. exact (fun Hn Hfa Hfe D Hh Im Wd Fd Ens Nn Hns ord ord' O O' => documents_decoded public fa fe ft allow helpers h l namespaces targets ns Hn Hfa Hfe D Hh Im Wd Fd Ens Nn Hns ord ord' O O' exported decl_attr). Qed.
Print Assumptions C92_documents_decoded.
(* two documents; a type is derived from one of the other document, which has a date, an enumeration and a list *)
Example C92_documents_case : (rd_of base_doc = Some rd_base /\ rd_of main_doc = Some rd_main) /\ (documents car_height car_docs /\ (forall n, car_height n <= N.to_nat 1000) /\ imports_first car_docs) /\ wild_declared car_docs /\ firm_declared None car_docs /\
  (parse_rds as_is car_docs = Ok car_parsed /\ gen_code go_pub None None None None all_helpers false as_is in_order [] ["urn:a"; "urn:b"] car_docs = Ret (Coded car_gen) /\ map fst (co_decls car_gen) = ["Color"; "Item"; "Sizes"; "Car"; "xsdDate"]) /\
  clear_code go_pub upper xmlns None None (fst car_parsed) (co_decls car_gen) /\ zero_ok car_structs string nothing car_zero /\ has_type car_structs string any_text (EId "Car") one_car.
Proof. exact (conj docs_read (conj car_documents (conj car_wild (conj car_firm (conj car_code_is (conj car_clear (conj car_zero_ok car_typed))))))). Qed.
Example C92_documents_value : marshal upper car_structs string txt no_text one_car (mkName "urn:a" "car") (EId "Car") = [car_xml []] /\
  reads_back xmlns id "" (car_xml []) (car_xml [mkAttr (mkName "" "xmlns") "urn:a"]) /\
  unmarshal upper car_structs string untxt car_zero (car_xml [mkAttr (mkName "" "xmlns") "urn:a"]) (EId "Car") (car_zero (EId "Car")) = Some one_car.
Proof. exact (conj car_marshals (conj car_reads_back car_unmarshals)). Qed.
