(* Anonymous types: C33, C34. All statements hold for every way of growing slices, except the refutations. *)
From Verif Require Import Base ScopeModel ScopeSpec TreeModel TreeSpec BuiltinModel Decimal XsdModel NormModel NormMem NormOps NormSpec NormPass NormBuild NormExamples NormHoistSpec NormAnonSpec NormAnon NormAnonProofs NormCopyProofs NormAnonRoots NormAnonExamples.
Local Open Scope string_scope.

(* C33. The schemas normalised together share one counter: each anonymous type gets a name of its own and
   an element that refers to it, and no anonymous type remains. *)
Theorem C33_named_together grow agrow fuel roots es h : stands h roots es -> Forall (name_ready fuel) es ->
  exists h' es' tss, name_all grow agrow fuel roots (h, 0) = Done (h', List.length (List.concat tss)) /\ stands h' roots es' /\ named_schemas es es' 0 tss /\
    NoDup (map (fun t => attr t "" "name") (List.concat tss)).
Proof. exact (named_together grow agrow fuel roots es h). Qed.
(* the names are _anon1, _anon2, ... *)
Theorem C33_in_order es es' n tss : named_schemas es es' n tss ->
  map (fun t => attr t "" "name") (List.concat tss) = map (fun i => "_anon" ++ dec (Z.of_nat i)) (seq (S n) (List.length (List.concat tss))).
Proof. exact (named_schemas_order es es' n tss). Qed.
(* the references mean what they should *)
Theorem C33_reference_resolves tns i d : refers tns (anon_name i) d -> no_shadowing (e_scope d) -> prefixes_ok (e_scope d) -> (exists p, In (mkName tns p) (e_scope d)) ->
  tns <> "" -> tns <> xml_uri -> tns <> xmlns_uri ->
  exists upd accum before q, updates (nlocal (e_name d)) = Some (upd, accum) /\ attr d "" upd = before ++ q /\ (before = "" \/ accum = true /\ exists b, before = b ++ " ") /\
    resolve_ns (e_scope d) q = (mkName tns (anon_name i), true).
Proof. exact (refers_resolves tns i d). Qed.
(* in the words of XML Schema *)
Theorem C33_reference_says tns n d : refers tns n d -> let q := prefix (e_scope d) (mkName tns n) in
  (e_name d = xs "element" \/ e_name d = xs "attribute") /\ attr d "" "type" = q \/
  e_name d = xs "list" /\ attr d "" "itemType" = q \/
  e_name d = xs "restriction" /\ attr d "" "base" = q \/
  e_name d = xs "union" /\ (attr d "" "memberTypes" = q \/ exists before, attr d "" "memberTypes" = before ++ " " ++ q).
Proof. exact (refers_says tns n d). Qed.
Theorem C33_unexpected_iff e : unexpected e <->
  exists q d, sub e q = Some d /\ has_anon_el d = true /\ nspace (e_name d) = schemaNS /\ ~ In (nlocal (e_name d)) ["element"; "attribute"; "list"; "restriction"; "union"].
Proof. exact (unexpected_says e). Qed.
(* an anonymous type anywhere else is an error, and nothing else is *)
Theorem C33_error_iff e n : Forall (tidy has_anon_el) (e_children e) -> (snd (name_tree e n) = Fails <-> Exists unexpected (e_children e)).
Proof. exact (named_error_iff e n). Qed.
Print Assumptions C33_named_together.
Print Assumptions C33_in_order.
Print Assumptions C33_reference_resolves.
Print Assumptions C33_reference_says.
Print Assumptions C33_unexpected_iff.
Print Assumptions C33_error_iff.

Example C33_ready : Forall (name_ready 20) [doll_schema; list_schema].
Proof. constructor; [|constructor; [|constructor]]; apply name_readyb_ok; vm_compute; reflexivity. Qed.
Example C33_example : named_res [doll_schema; list_schema] =
  let anon n := [("name", n); ("_isAnonymous", "true")] in
  Done (5, [Some (schema_el [xel "element" [("name", "a"); ("type", "a:_anon1")] [];
    seq_type (anon "_anon1") [xel "element" [("name", "b"); ("type", "a:_anon2")] []; xel "element" [("name", "a"); ("type", "a:_anon3")] []; xel "element" [("name", "c"); ("type", "a:_anon4")] []];
    seq_type (anon "_anon2") []; seq_type (anon "_anon3") []; xel "simpleType" (anon "_anon4") [xel "restriction" [("base", "xs:int")] []]]);
  Some (schema_el [xel "simpleType" [("name", "l")] [xel "list" [("itemType", "a:_anon5")] []]; xel "simpleType" (anon "_anon5") [xel "restriction" [("base", "xs:int")] []]])]).
Proof. vm_compute. reflexivity. Qed.
Example C33_bad_parent : named_res [bad_parent] = Fails.
Proof. exact bad_parent_fails. Qed.

(* every second member of a union is passed over and lost *)
Theorem C33_union_refuted : exists e', named_res [union_schema] = Done (2, [Some e']) /\
  exists d, sub e' [0; 0] = Some d /\ attr d "" "memberTypes" = " a:_anon1 a:_anon2" /\ e_children d = [simple "xs:date"].
Proof. exact union_skips. Qed.
(* what follows an anonymous type moves before it is looked at *)
Theorem C33_shifted_refuted : exists e', named_res [shifted_schema] = Done (2, [Some e']) /\ exists d, sub e' [0; 0; 0; 0] = Some d /\ d = xel "attribute" [("name", "x")] [simple "xs:string"].
Proof. exact shifted. Qed.
(* a type that is already called _anon1 *)
Theorem C33_clash_refuted : exists e', normalized [clash_schema] = Done [Some e'] /\ List.length (filter (fun t => String.eqb (attr t "" "name") "_anon1") (e_children e')) = 2.
Proof. exact clash. Qed.
Print Assumptions C33_union_refuted.
Print Assumptions C33_shifted_refuted.
Print Assumptions C33_clash_refuted.

(* C34. Where slices may move: as long as the declarations of the schema itself with anonymous types come
   while there is room for another child (room), both passes do what they do on trees, in every memory. *)
Theorem C34_copied grow agrow fuel h e root r : good h e root r -> height e <= fuel -> Forall (tidy copies) (e_children e) ->
  room _ copies (copy_dec (attr e "" "targetNamespace")) (List.length (cells h (n_arr r)) - n_len r) 0 (e_children e) (used_names e) ->
  exists h', copy_elt_names grow agrow fuel root h = Done h' /\ leaves h h' e (copy_tree e) root r.
Proof. exact (copied grow agrow fuel h e root r). Qed.
Theorem C34_named grow agrow fuel h e root r n : good h e root r -> height e <= fuel -> Forall (tidy has_anon_el) (e_children e) ->
  room _ has_anon_el (name_dec (attr e "" "targetNamespace")) (List.length (cells h (n_arr r)) - n_len r) 0 (e_children e) (Done n) ->
  match snd (name_tree e n) with
  | Done n' => exists h', name_anonymous grow agrow fuel root (h, n) = Done (h', n') /\ leaves h h' e (fst (name_tree e n)) root r
  | Fails => name_anonymous grow agrow fuel root (h, n) = Fails
  | Runs => name_anonymous grow agrow fuel root (h, n) = Runs
  end.
Proof. exact (named_all grow agrow fuel h e root r n). Qed.
(* independent of the room there is *)
Theorem C34_copied_together grow agrow fuel roots es h : stands h roots es -> Forall (copy_ready fuel) es ->
  exists h', on_each (copy_elt_names grow agrow fuel) roots h = Done h' /\ stands h' roots (map copy_tree es).
Proof. exact (copy_roots grow agrow fuel roots es h). Qed.
(* On trees: the types are named after their declarations, the names are new and distinct, and a
   declaration keeps its type only if its name is in use. *)
Theorem C34_copy_tree e : Forall (tidy copies) (e_children e) -> let tns := attr e "" "targetNamespace" in
  exists ks ts l, copy_tree e = with_children e (ks ++ ts)%list /\ map e_name ks = map e_name (e_children e) /\
    Forall2 (fun x t => type_el t = true /\ exists d, In d (flat_map (searched copies) (e_children e)) /\ x = full_name tns d /\ attr t "" "name" = attr d "" "name") l ts /\
    NoDup l /\ (forall x, In x l -> ~ In x (used_names e)) /\
    (forall x, In x l -> exists k q d, In k (ks ++ ts)%list /\ sub k q = Some d /\ typed_as tns x d) /\
    Forall (everywhere (fun d => copies d = true -> In (full_name tns d) (l ++ used_names e))) (ks ++ ts)%list.
Proof. exact (copied_tree e). Qed.
Theorem C34_distinct_names e : Forall (tidy copies) (e_children e) -> let tns := attr e "" "targetNamespace" in tns <> "" ->
  (forall d, In d (flat_map (searched copies) (e_children e)) -> s_in colon (attr d "" "name") = false) ->
  exists ks ts, copy_tree e = with_children e (ks ++ ts)%list /\ NoDup (map (fun t => attr t "" "name") ts) /\ forall t, In t ts -> type_el t = true /\ ~ In (mkName tns (attr t "" "name")) (used_names e).
Proof. exact (copied_names e). Qed.
Print Assumptions C34_copied.
Print Assumptions C34_named.
Print Assumptions C34_copied_together.
Print Assumptions C34_copy_tree.
Print Assumptions C34_distinct_names.

Example C34_ready : copy_ready 20 doll_schema.
Proof. apply copy_readyb_ok. vm_compute. reflexivity. Qed.
Example C34_example : passed (copy_elt_names dbl dbl 20) [doll_schema] =
  Done [Some (schema_el [xel "element" [("name", "a"); ("type", "a:a")] [];
    seq_type [("name", "a")] [xel "element" [("name", "b"); ("type", "a:b")] []; doll "a" []; xel "element" [("name", "c"); ("type", "a:c")] []];
    seq_type [("name", "b")] []; xel "simpleType" [("name", "c")] [xel "restriction" [("base", "xs:int")] []]])].
Proof. vm_compute. reflexivity. Qed.
(* two declarations at the top can be handled if there is room *)
Example C34_room : room _ copies (copy_dec "urn:a") 1 0 [doll "a" []; doll "b" []] [].
Proof. vm_compute. repeat split; intros; auto. Qed.

(* without it: the second type is copied to the end, but its declaration keeps it and does not refer to the copy *)
Theorem C34_two_types_refuted : exists e e', named_res [e] = Done (2, [Some e']) /\ List.length (flat_map (searched holder) (e_children e)) = 2 /\
  nth_error (e_children e') 1 = nth_error (e_children e) 1 /\ flat_map (searched holder) (e_children e') <> [] /\
  ~ referred "urn:a" (anon_name 2) (e_children e').
Proof. exact two_dolls. Qed.
(* Normalize on a schema of four elements with a complex type in each: two keep theirs, and there are seven types *)
Theorem C34_four_types_refuted : exists e e', normalized [e] = Done [Some e'] /\ e_children e = map (fun n => doll n []) ["a"; "b"; "c"; "d"] /\
  List.length (flat_map (searched holder) (e_children e')) = 2 /\ List.length (filter named (e_children e')) = 7.
Proof. exact four_dolls. Qed.
Print Assumptions C34_two_types_refuted.
Print Assumptions C34_four_types_refuted.
