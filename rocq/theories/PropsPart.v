(* C99: the types of the parts of messages that refer to elements. *)
From Coq Require Import Permutation.
From Verif Require Import Base SortLib ScopeModel TreeModel EqualModel BuiltinModel CodecModel XsdModel TypesModel TypesSpec TypesOrder TypesExamples GenModel SgModel SgStruct SgDecl SgExamples SgFlatSpec WsdlModel SliceModel SgGen SgGenSpec SgGenExamples PipeModel PipeSpec PipeExamples PartModel PartSpec PartProofs PartExamples.
Local Open Scope string_scope.

Theorem C99_elements (annot : elem -> option string) (F T : Type) (f0 : F) (t0 : T) (pf : string -> option F) (pd pr : string -> option T) (comp : string -> bool) (msg : string -> string)
    (public : xname -> string) (fa : option (attribute -> bool)) (fe : option (element -> bool)) (ft : option (xname -> bool)) (allow : option (list xname)) (helpers : list Z) (slices : bool)
    (h : xname -> nat) (roots : list elem) (l : list rd) (namespaces targets ns : list string) :
  (forall b, non_trivial b = true -> memb b helpers = true) -> (forall a t, filtered fa (retype_at a t) = filtered fa a) ->
  Forall2 (fun root r => read annot F T f0 t0 pf pd pr comp msg root = Some r) roots l -> (forall root, In root roots -> plain_tops root) -> (forall root, In root roots -> attr root "" "targetNamespace" <> "") ->
  documents h l -> unused_self l -> (forall n, h n <= N.to_nat 1000) -> imports_first l ->
  (namespaces = [] /\ ns = targets \/ namespaces <> [] /\ ns = namespaces) -> NoDup ns -> (forall s, In s ns -> exists root, In root roots /\ attr root "" "targetNamespace" = s) ->
  forall (ord : nat -> list (xname * ty) -> list (xname * ty)) (ord' : string -> list (xname * ty) -> list (xname * ty)), any_order ord -> (forall s m, Permutation m (ord' s m)) ->
  exists st parsed c, parse_rds ord l = Ok (st, parsed) /\ gen_code public fa fe ft allow helpers slices ord ord' namespaces targets l = Ret (Coded c) /\
    let all := all_types (chosen_schemas namespaces targets l parsed) (deps l parsed) in
    forall p, nlocal (pa_type p) = "" -> nlocal (pa_elem p) <> "" ->
      (forall root t, In root roots -> attr root "" "targetNamespace" = nspace (pa_elem p) -> top_element root (nlocal (pa_elem p)) t -> at_home (nspace (pa_elem p)) t ->
         get_part_type public fa fe helpers all c p = andthen (name_of public fa fe helpers all c t) (fun r => Ret (Some r)) /\
         forall d, In (nspace t) ns -> nspace t = nspace (pa_elem p) -> declares l t d -> picked ft allow t -> own_declaration fa l d ->
           get_part_type public fa fe helpers all c p = Ret (Some (c, public t)) /\ In (public t) (map fst (co_decls c))) /\
      ((forall root t, In root roots -> attr root "" "targetNamespace" = nspace (pa_elem p) -> top_element root (nlocal (pa_elem p)) t -> ~ at_home (nspace (pa_elem p)) t) -> get_part_type public fa fe helpers all c p = Ret None).
Proof. exact (part_types annot F T f0 t0 pf pd pr comp msg public fa fe ft allow helpers slices h roots l namespaces targets ns). Qed.
Print Assumptions C99_elements.
(* two documents, and parts that name an element of a type of its namespace, of one of the other, an element
   that is nowhere, and a type *)
Example C99_elements_case : Forall2 (fun root r => rd_of root = Some r) car_roots car_docs /\ (forall root, In root car_roots -> plain_tops root /\ attr root "" "targetNamespace" <> "") /\
  (documents car_height car_docs /\ (forall n, car_height n <= N.to_nat 1000) /\ imports_first car_docs) /\ unused_self car_docs /\
  (forall s, In s ["urn:a"; "urn:b"] -> exists root, In root car_roots /\ attr root "" "targetNamespace" = s) /\
  (top_element main_doc "car" (mkName "urn:a" "Car") /\ top_element main_doc "paint" (mkName "urn:b" "Color")) /\
  (exists d, declares car_docs (mkName "urn:a" "Car") d /\ own_declaration None car_docs d /\ picked None None (mkName "urn:a" "Car")) /\
  (car_part (mkPart "x" (mkName "" "") (mkName "urn:a" "car")) = Some (Some "Car") /\ car_part (mkPart "x" (mkName "" "") (mkName "urn:a" "paint")) = Some None /\
   car_part (mkPart "x" (mkName "" "") (mkName "urn:b" "car")) = Some None /\ car_part (mkPart "x" (mkName "urn:b" "Color") (mkName "" "")) = Some (Some "Color")).
Proof. exact (conj car_read (conj car_tops (conj car_documents (conj car_unused (conj car_spaces (conj car_top (conj car_declared car_parts))))))). Qed.
(* not every element that a document declares can be the type of a part: <element name="paint" type="b:Color"/> of
   urn:a is known as b:paint *)
Theorem C99_foreign_type_refuted : top_element main_doc "paint" (mkName "urn:b" "Color") /\ attr main_doc "" "targetNamespace" = "urn:a" /\
  car_part (mkPart "x" (mkName "" "") (mkName "urn:a" "paint")) = Some None /\ car_part (mkPart "x" (mkName "" "") (mkName "urn:b" "paint")) = Some None /\ car_part (mkPart "x" (mkName "urn:b" "Color") (mkName "" "")) = Some (Some "Color").
Proof. exact foreign_part. Qed.
Print Assumptions C99_foreign_type_refuted.
