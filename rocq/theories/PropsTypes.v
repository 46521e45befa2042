(* C36, C37, C38, C39, C42: from declarations to resolved types. *)
From Coq Require Import Permutation.
From Verif Require Import Base ScopeModel TreeModel BuiltinModel XsdModel TypesModel TypesSpec TypesProofs TypesMixed TypesParse TypesFinal TypesOrder TypesRead TypesExamples.
Local Open Scope string_scope.

(* what is read from a tree refers to other types by name only, and every complexType and
   simpleType below the root is among it *)
Theorem C36_read_by_name annot F T f0 t0 pf pd pr comp msg root r : read annot F T f0 t0 pf pd pr comp msg root = Some r ->
  rd_tns r = attr root "" "targetNamespace" /\
  (forall n d, In (n, d) (rd_types r) -> raw d) /\
  (forall n d, In (n, d) (rd_types r) -> n = mkName (rd_tns r) "_self" \/
     def_name d = n /\ exists el, (In el (find_all "complexType" root) \/ In el (find_all "simpleType" root)) /\ n = resolve_default (e_scope el) (attr el "" "name") (rd_tns r)) /\
  (forall el, In el (find_all "complexType" root) -> exists c, In (ct_name c, DC c) (rd_types r) /\ parse_complex_type annot (rd_tns r) el = Some c) /\
  (forall el, In el (find_all "simpleType" root) -> exists s, In (st_name F T s, DS (of_simple s)) (rd_types r) /\
     parse_simple_type annot F T f0 t0 pf pd pr comp msg (rd_tns r) el = Some s).
Proof. exact (read_spec annot F T f0 t0 pf pd pr comp msg root r). Qed.
Print Assumptions C36_read_by_name.

(* C36. After a successful Parse every reference of every type has been replaced by a type of the
   right name, and the rest of the definition is as declared. *)
Theorem C36_resolved l ord st parsed : any_order ord -> parse_rds ord l = Ok (st, parsed) ->
  List.length st = List.length (fst (initial l)) /\
  (forall n i, In (n, TPtr i) (entries l) ->
     exists d0 d, nth_error (fst (initial l)) i = Some d0 /\ nth_error st i = Some d /\ resolved (target l parsed) d0 d /\ linkfree d) /\
  (forall ns own n t, sget ns parsed = Some own -> In (n, t) own -> (exists k, In (k, t) (entries l)) \/ exists b, t = TB b) /\
  (forall ns own0, sget ns (snd (initial l)) = Some own0 -> exists own, sget ns parsed = Some own /\
     (forall n t, lookup n own0 = Some t -> lookup n own = Some t) /\ (forall x, In x own0 -> In x own)).
Proof. exact (parse_resolved l ord st parsed). Qed.
Print Assumptions C36_resolved.
(* An error comes from a name that is no built-in and that no type of any schema has. *)
Theorem C36_error l ord : any_order ord -> parse_rds ord l = Err ->
  exists n, dangling l n /\
    ((exists k i d, In (k, TPtr i) (entries l) /\ nth_error (fst (initial l)) i = Some d /\ In (TLink n) (refs d)) \/
     exists r a, In r l /\ In a (rd_aliases r) /\ snd a = n).
Proof. exact (parse_err l ord). Qed.
Print Assumptions C36_error.
(* The result does not depend on the order in which Go ranges over the maps. *)
Theorem C36_order l ord ord' s : raw_rds l -> unique_names l -> any_order ord -> any_order ord' ->
  parse_rds ord l = Ok s -> shallow (fst s) (entries l) -> parse_rds ord' l = Ok s.
Proof. exact (fun R U O O' => parse_order l R U ord ord' O O' s). Qed.
Print Assumptions C36_order.
(* and schemas with different namespaces and unprefixed type names have unique names *)
Theorem C36_unique_names l : keyed l -> unique_names l.
Proof. exact (keyed_unique l). Qed.
Print Assumptions C36_unique_names.
Theorem C36_keyed annot F T f0 t0 pf pd pr comp msg root r : read annot F T f0 t0 pf pd pr comp msg root = Some r -> rd_tns r <> "" ->
  (forall el, In el (find_all "complexType" root) \/ In el (find_all "simpleType" root) -> s_in colon (attr el "" "name") = false) ->
  forall n d, In (n, d) (rd_types r) -> def_name d = n /\ nspace n = rd_tns r.
Proof. exact (read_keyed annot F T f0 t0 pf pd pr comp msg root r). Qed.
Print Assumptions C36_keyed.
(* a:A extends b:B, b:B extends b:C, and b:C has an element of type a:A *)
Example resolve_example :
  parse_rds as_is [rdb; rda] = Ok result_ba /\ parse_rds backwards [rdb; rda] = Ok result_ba /\
  map (fun d => (nlocal (def_name d), def_base d)) (fst result_ba) = [("B", TPtr 1); ("C", TB 0); ("_self", TB 0); ("A", TPtr 0); ("_self", TB 0)] /\
  match nth_error (fst result_ba) 1 with Some (DC c) => map el_type (ct_elems c) | _ => [] end = [TPtr 3] /\
  match sget "urn:a" (snd result_ba) with Some own => lookup (mkName "urn:a" "root") own | None => None end = Some (TPtr 3).
Proof. repeat split. Qed.
Example error_example : parse_rds as_is [rda] = Err /\ dangling [rda] (mkName "urn:b" "B").
Proof.
  split; [exact parse_a|]. split; [reflexivity|]. intros t [(k & Hk) Hn]. cbv in Hk.
  repeat (destruct Hk as [Hk|Hk]; [injection Hk as <- <-; cbv in Hn; discriminate|]). destruct Hk.
Qed.
Example hypotheses_example : raw_rds [rdb; rda] /\ keyed [rdb; rda] /\ shallow (fst result_ba) (entries [rdb; rda]).
Proof.
  split; [|split].
  - intros r n d [<-|[<-|[]]] Hi; [eapply (proj1 (proj2 (C36_read_by_name _ _ _ _ _ _ _ _ _ _ _ _ rdb_read))); exact Hi|
      eapply (proj1 (proj2 (C36_read_by_name _ _ _ _ _ _ _ _ _ _ _ _ rda_read))); exact Hi].
  - intros r n d [<-|[<-|[]]] Hi; cbv in Hi; repeat (destruct Hi as [Hi|Hi]; [injection Hi as <- <-; split; reflexivity|]); destruct Hi.
  - apply shallow_check. reflexivity.
Qed.

(* C37. A declaration ends up in the Types of its namespace, unless a later one in the same document
   has the same name or a later document has the same target namespace. *)
Theorem C37_declared ord l1 r l2 st parsed n d i : raw_rds (l1 ++ r :: l2) -> any_order ord -> parse_rds ord (l1 ++ r :: l2) = Ok (st, parsed) ->
  (forall r', In r' l2 -> rd_tns r' <> rd_tns r) -> nth_error (rd_types r) i = Some (n, d) ->
  (forall j e, i < j -> nth_error (rd_types r) j = Some e -> fst e <> n) ->
  exists own k d', sget (rd_tns r) parsed = Some own /\ lookup n own = Some (TPtr k) /\ nth_error st k = Some d' /\ resolved (target (l1 ++ r :: l2) parsed) d d'.
Proof. exact (parse_declared ord l1 r l2 st parsed n d i). Qed.
Print Assumptions C37_declared.
(* without the second condition it fails: urn:a is split over two documents, and type A of the first
   is in no map of the result *)
Theorem C37_shared_namespace_refuted : exists r1 r2 d st parsed,
  In (mkName "urn:a" "A", d) (rd_types r1) /\ rd_tns r1 = "urn:a" /\ rd_tns r2 = "urn:a" /\
  parse_rds as_is [r1; r2] = Ok (st, parsed) /\ forall ns own, sget ns parsed = Some own -> lookup (mkName "urn:a" "A") own = None.
Proof.
  exact (ex_intro _ rd1 (ex_intro _ rd2 (ex_intro _ _ (ex_intro _ (fst result_12) (ex_intro _ (snd result_12)
    (conj (or_introl eq_refl) (conj eq_refl (conj eq_refl (conj parse_12 lost_a))))))))).
Qed.
Print Assumptions C37_shared_namespace_refuted.
Example declared_example : exists own, sget "urn:b" (snd result_ba) = Some own /\ lookup (mkName "urn:b" "C") own = Some (TPtr 1) /\
  map fst own = [mkName "urn:b" "B"; mkName "urn:b" "C"; mkName "urn:b" "_self"].
Proof. eexists. split; [reflexivity|]. split; reflexivity. Qed.

(* C38. A complex type is Mixed exactly when it is declared so, extends anyType, extends a mixed
   complex type, or derives from a simple type. *)
Theorem C38_mixed l ord st parsed : raw_rds l -> any_order ord -> parse_rds ord l = Ok (st, parsed) -> shallow st (entries l) ->
  forall n i, In (n, TPtr i) (entries l) -> (is_mixed st i <-> mixed_rule (fst (initial l)) st i).
Proof. exact (fun R O => parse_mixed l R ord O st parsed). Qed.
Print Assumptions C38_mixed.
(* Parse panics only when types of an earlier schema meet a type of a schema with another namespace
   further down the list, which is not mixed and whose base is not resolved yet *)
Theorem C38_panic l ord : raw_rds l -> any_order ord -> parse_rds ord l = Panics ->
  exists l2 r l3, l = (l2 ++ r :: l3)%list /\
    exists r' n i c m, In r' l3 /\ sget (rd_tns r') (snd (initial l)) <> None /\ In (n, TPtr i) (entries l) /\ nth_error (fst (initial l)) i = Some (DC c) /\
      ct_base c = TLink m /\ ct_mixed c = false /\ (forall r2, In r2 (l2 ++ [r])%list -> rd_tns r2 <> rd_tns r').
Proof. exact (fun R => parse_panics l R ord). Qed.
Print Assumptions C38_panic.
(* and then it does: two documents that are fine in one order make Parse panic in the other *)
Theorem C38_document_order_refuted : exists ra rb st parsed, rd_of doc_a = Some ra /\ rd_of doc_b = Some rb /\
  parse_rds as_is [rb; ra] = Ok (st, parsed) /\ parse_rds as_is [ra; rb] = Panics.
Proof. exact (ex_intro _ rda (ex_intro _ rdb (ex_intro _ (fst result_ba) (ex_intro _ (snd result_ba) (conj rda_read (conj rdb_read (conj parse_ba parse_ab))))))). Qed.
Print Assumptions C38_document_order_refuted.
Example mixed_example : match parse_rds as_is [get (rd_of (schema_ "urn:a" [extends_ "A" "xs:anyType" []; extends_ "B" "a:A" []; restricts_ "C" "a:A" []])) rda] with
  | Ok (st, _) => map (fun d => match d with DC c => (nlocal (ct_name c), ct_mixed c) | DS _ => ("", false) end) st
  | _ => [] end = [("A", true); ("B", true); ("C", false); ("_self", false)].
Proof. vm_compute. reflexivity. Qed.

(* C39. If every type has a base and its chain of bases ends, it ends in a built-in. *)
Theorem C39_ends_in_builtin ord l st parsed : raw_rds l -> any_order ord -> parse_rds ord l = Ok (st, parsed) ->
  (forall r n d, In r l -> In (n, d) (rd_types r) -> def_base d <> TNil) ->
  forall ns own n t k, sget ns parsed = Some own -> In (n, t) own -> chain st t k -> exists b, ancestor st t (TB b).
Proof. exact (parse_chains ord l st parsed). Qed.
Print Assumptions C39_ends_in_builtin.
(* types that extend one another are accepted, and FindType does not return *)
Theorem C39_cycle_accepted_refuted : exists l st parsed own, parse_rds as_is l = Ok (st, parsed) /\ sget "urn:a" parsed = Some own /\
  forall fuel, find_type fuel st own (mkName "urn:a" "missing") = None.
Proof. exact (ex_intro _ [rdc] (ex_intro _ (fst result_c) (ex_intro _ (snd result_c) (ex_intro _ own_c (conj parse_c (conj own_c_ok cycle_runs)))))). Qed.
Print Assumptions C39_cycle_accepted_refuted.
Example chain_example : (forall r n d, In r [rdb; rda] -> In (n, d) (rd_types r) -> def_base d <> TNil) /\ chain (fst result_ba) (TPtr 3) 3 /\ ancestor (fst result_ba) (TPtr 3) (TB 0).
Proof.
  split; [|split].
  - intros r n d [<-|[<-|[]]] Hi; cbv in Hi; repeat (destruct Hi as [Hi|Hi]; [injection Hi as <- <-; discriminate|]); destruct Hi.
  - apply (depth_chain _ 20). reflexivity.
  - do 3 (apply an_base; [discriminate|]). constructor.
Qed.

(* C42. FindType finds a type of that name among the types of the schema and their ancestors, and
   nil means that there is none; in whatever order the map is ranged over. *)
Theorem C42_find_type ord l st parsed : raw_rds l -> any_order ord -> parse_rds ord l = Ok (st, parsed) ->
  forall ns own bound n, sget ns parsed = Some own -> (forall k t, In (k, t) own -> exists c, chain st t c /\ c <= bound) ->
  forall es, Permutation own es -> forall fuel, bound <= fuel ->
  match find_type fuel st es n with
  | Some (Some u) => (exists k t, In (k, t) own /\ ancestor st t u) /\ type_name st u = Some n
  | Some None => forall k t u, In (k, t) own -> ancestor st t u -> type_name st u <> Some n
  | None => False
  end.
Proof. exact (parse_find ord l st parsed). Qed.
Print Assumptions C42_find_type.
Example find_example : exists own, sget "urn:a" (snd result_ba) = Some own /\
  find_type 5 (fst result_ba) own (mkName "urn:b" "C") = Some (Some (TPtr 1)) /\
  find_type 5 (fst result_ba) own (mkName schemaNS "anyType") = Some (Some (TB 0)) /\
  find_type 5 (fst result_ba) own (mkName "urn:b" "X") = Some None.
Proof. eexists. split; [reflexivity|]. repeat split. Qed.
