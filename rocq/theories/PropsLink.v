(* C100: the client generated from a service description and its documents: the types of its methods. *)
From Coq Require Import Permutation.
From Verif Require Import Base SortLib ScopeModel TreeModel EqualModel BuiltinModel CodecModel XsdModel OptModel WsdlModel WsdlSpec WsdlGen WsdlExamples TypesModel TypesSpec TypesOrder TypesExamples GenModel SgModel SgStruct SgDecl SgExamples SgFlatSpec SliceModel SgGen SgGenSpec SgGenExamples PipeModel PipeSpec PipeExamples PartModel PartSpec PartExamples LinkModel LinkSpec LinkProofs LinkExamples.
Local Open Scope string_scope.

Theorem C100_client (annot : elem -> option string) (F T : Type) (f0 : F) (t0 : T) (pf : string -> option F) (pd pr : string -> option T) (comp : string -> bool) (msg : string -> string)
    (public : xname -> string) (fa : option (attribute -> bool)) (fe : option (element -> bool)) (ft : option (xname -> bool)) (allow : option (list xname)) (helpers : list Z) (slices : bool)
    (h : xname -> nat) (roots : list elem) (l : list rd) (namespaces targets ns : list string) :
  (forall b, non_trivial b = true -> memb b helpers = true) -> (forall a t, filtered fa (retype_at a t) = filtered fa a) ->
  Forall2 (fun root r => read annot F T f0 t0 pf pd pr comp msg root = Some r) roots l -> (forall root, In root roots -> plain_tops root) -> (forall root, In root roots -> attr root "" "targetNamespace" <> "") ->
  documents h l -> unused_self l -> (forall n, h n <= N.to_nat 1000) -> imports_first l ->
  (namespaces = [] /\ ns = targets \/ namespaces <> [] /\ ns = namespaces) -> NoDup ns -> (forall s, In s ns -> exists root, In root roots /\ attr root "" "targetNamespace" = s) ->
  forall (ord : nat -> list (xname * ty) -> list (xname * ty)) (ord' : string -> list (xname * ty) -> list (xname * ty)), any_order ord -> (forall s m, Permutation m (ord' s m)) ->
  exists st parsed c, parse_rds ord l = Ok (st, parsed) /\ gen_code public fa fe ft allow helpers slices ord ord' namespaces targets l = Ret (Coded c) /\
    let all := all_types (chosen_schemas namespaces targets l parsed) (deps l parsed) in
    (forall p t, xml_type roots p t -> usable fa ft allow ns l t -> exists s, get_part_type public fa fe helpers all c p = Ret (Some (c, s)) /\ go_for public (map fst (co_decls c)) t s) /\
    forall (title : string -> string) (parses : wdecl -> bool) (Log : Type) (w : wconf Log) (d : definition), (forall p op, In p (df_ports d) -> In op (po_ops p) -> fit roots (usable fa ft allow ns l) d op) ->
      (client public fa fe helpers all c title parses w d = None -> exists x, parses x = false) /\
      (forall ds, client public fa fe helpers all c title parses w d = Some ds -> methods ds = map (fun op => public (op_name op)) (flat_map po_ops (df_ports d))) /\
      forall p op ds, In p (df_ports d) -> In op (po_ops p) -> client_operation public fa fe helpers all c title parses (w_args _ w) (w_returns _ w) d p op = Some ds ->
        exists input output ts us m, lookup (op_input op) (df_messages d) = Some input /\ lookup (op_output op) (df_messages d) = Some output /\
          Forall2 (fun p s => exists t, xml_type roots p t /\ go_for public (map fst (co_decls c)) t s) (ms_parts input) ts /\ Forall2 (fun p s => exists t, xml_type roots p t /\ go_for public (map fst (co_decls c)) t s) (ms_parts output) us /\
          declared title (w_args _ w) (w_returns _ w) (df_tns d) input ts output us ds m /\ method_name m = public (op_name op).
Proof. exact (client_types annot F T f0 t0 pf pd pr comp msg public fa fe ft allow helpers slices h roots l namespaces targets ns). Qed.
Print Assumptions C100_client.
(* a service that paints cars: one part names an element, one a type of another document, two are built in *)
Example C100_client_case : Forall2 (fun root r => rd_of root = Some r) car_roots car_docs /\ (forall root, In root car_roots -> plain_tops root /\ attr root "" "targetNamespace" <> "") /\
  (documents car_height car_docs /\ (forall n, car_height n <= N.to_nat 1000) /\ imports_first car_docs) /\ unused_self car_docs /\
  (forall s, In s ["urn:a"; "urn:b"] -> exists root, In root car_roots /\ attr root "" "targetNamespace" = s) /\
  (forall p op, In p (df_ports (paint_def (mkName "urn:a" "car"))) -> In op (po_ops p) -> fit car_roots (usable None None None ["urn:a"; "urn:b"] car_docs) (paint_def (mkName "urn:a" "car")) op) /\
  match shop_client (paint_def (mkName "urn:a" "car")) with Some (Some [m]) => Some (method_name m, method_params m, method_results m, map (fun x => fst (snd x)) (method_sends m)) | _ => None end =
    Some ("Paint", ["ctx context.Context"; "car Car"; "color Color"], ["int"; "time.Time"; "error"], ["Car"; "Color"]).
Proof. exact (conj car_read (conj car_tops (conj car_documents (conj car_unused (conj car_spaces (conj paint_fits (proj1 paint_client))))))). Qed.

Theorem C100_missing (annot : elem -> option string) (F T : Type) (f0 : F) (t0 : T) (pf : string -> option F) (pd pr : string -> option T) (comp : string -> bool) (msg : string -> string)
    (public : xname -> string) (fa : option (attribute -> bool)) (fe : option (element -> bool)) (ft : option (xname -> bool)) (allow : option (list xname)) (helpers : list Z) (slices : bool)
    (h : xname -> nat) (roots : list elem) (l : list rd) (namespaces targets ns : list string) :
  (forall b, non_trivial b = true -> memb b helpers = true) -> (forall a t, filtered fa (retype_at a t) = filtered fa a) ->
  Forall2 (fun root r => read annot F T f0 t0 pf pd pr comp msg root = Some r) roots l -> (forall root, In root roots -> plain_tops root) -> (forall root, In root roots -> attr root "" "targetNamespace" <> "") ->
  documents h l -> unused_self l -> (forall n, h n <= N.to_nat 1000) -> imports_first l ->
  (namespaces = [] /\ ns = targets \/ namespaces <> [] /\ ns = namespaces) -> NoDup ns -> (forall s, In s ns -> exists root, In root roots /\ attr root "" "targetNamespace" = s) ->
  forall (ord : nat -> list (xname * ty) -> list (xname * ty)) (ord' : string -> list (xname * ty) -> list (xname * ty)), any_order ord -> (forall s m, Permutation m (ord' s m)) ->
  exists st parsed c, parse_rds ord l = Ok (st, parsed) /\ gen_code public fa fe ft allow helpers slices ord ord' namespaces targets l = Ret (Coded c) /\
    let all := all_types (chosen_schemas namespaces targets l parsed) (deps l parsed) in
    forall (title : string -> string) (parses : wdecl -> bool) (Log : Type) (w : wconf Log) (d : definition) p op n m q, In p (df_ports d) -> In op (po_ops p) -> n = op_input op \/ n = op_output op -> lookup n (df_messages d) = Some m -> In q (ms_parts m) ->
      nlocal (pa_type q) = "" -> nlocal (pa_elem q) <> "" -> (forall t, ~ xml_type roots q t) -> client public fa fe helpers all c title parses w d = None.
Proof. exact (client_missing annot F T f0 t0 pf pd pr comp msg public fa fe ft allow helpers slices h roots l namespaces targets ns). Qed.
Print Assumptions C100_missing.
(* the same documents, with a part that names an element they do not have *)
Example C100_missing_case : (forall t, ~ xml_type car_roots (mkPart "car" none_ (mkName "urn:a" "lorry")) t) /\ shop_client (paint_def (mkName "urn:a" "lorry")) = Some None.
Proof. exact (conj no_lorry (proj2 paint_client)). Qed.
