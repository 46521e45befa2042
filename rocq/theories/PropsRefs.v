(* Normalize, groups and references: C30, C32, C35. All statements hold for every way of growing slices. *)
From Verif Require Import Base GraphModel ScopeModel ScopeSpec TreeModel TreeSpec BuiltinModel XsdModel NormModel NormMem NormOps NormSpec NormExamples NormUnpack NormUnpackAll NormRefSpec NormRefAttr NormIndex NormRefs NormFlatten NormCycle NormRecursive NormRefExamples.
Local Open Scope string_scope.

(* C30. One document; the memory may share parts of the tree. *)
Theorem C30_unpacked grow fuel h root e x : load h root = Some x -> rep h e x -> height e <= fuel -> groups_apart e ->
  exists h', unpack_groups grow fuel root h = Done h' /\ load h' root = Some x /\ rep h' (below unpack_el e) x.
Proof. exact (unpack_groups_ok grow fuel h root e x). Qed.
(* several documents; shows: the memory at the root reads as the tree; aloof: no root lies inside another document *)
Theorem C30_unpacked_all grow fuel h roots es : Forall2 (shows h) roots es -> aloof h roots es -> Forall (fun e => height e <= fuel /\ groups_apart e) es ->
  exists h', unpack_all grow fuel roots h = Done h' /\ Forall2 (shows h') roots (map (below unpack_el) es) /\ opening h h'.
Proof. exact (unpack_all_ok grow fuel h roots es). Qed.
Theorem C30_no_groups_left e : groups_apart e -> forall q d, descendant (below unpack_el e) q d -> has_groups d = false.
Proof. exact (groups_apart_none e). Qed.
Theorem C30_no_groups_no_change grow fuel h root e x : load h root = Some x -> rep h e x -> height e <= fuel -> (forall q d, descendant e q d -> has_groups d = false) ->
  unpack_groups grow fuel root h = Done h.
Proof. exact (unpack_nothing grow fuel h root e x). Qed.
Print Assumptions C30_unpacked.
Print Assumptions C30_unpacked_all.
Print Assumptions C30_no_groups_left.
Print Assumptions C30_no_groups_no_change.
Example groups_example : groups_apart groups_schema /\ below unpack_el groups_schema = groups_result /\ unpacked [groups_schema] = Done [Some groups_result].
Proof. exact groups_schema_meets. Qed.
(* Without groups_apart groups are left behind: where a type uses a group and an attribute group, *)
Theorem C30_siblings_refuted : exists e' q d, normalized [both_schema] = Done [Some e'] /\ descendant e' q d /\ e_name d = xs "sequence" /\ has_groups d = true.
Proof. exact both_left. Qed.
(* and where a group uses a group. *)
Theorem C30_nested_refuted : timely [inner_schema] /\ exists e' q d, normalized [inner_schema] = Done [Some e'] /\ descendant e' q d /\ e_name d = xs "restriction" /\ has_groups d = true.
Proof. exact inner_left. Qed.
Print Assumptions C30_siblings_refuted.
Print Assumptions C30_nested_refuted.

(* C32 *)
Theorem C32_merged grow agrow h x y r d : rep h r x -> rep h d y -> clear_names r d ->
  let (H, z) := deref_node grow agrow h x y in rep H (merged r d) z /\ forall k w, rep h k w -> rep H k w.
Proof. exact (deref_merged grow agrow h x y r d). Qed.
(* the attributes: the reference's, then the definition's *)
Theorem C32_attributes r d n : lookup n (e_attrs (merged r d)) =
  match (if xname_eqb n the_ref then None else lookup n (e_attrs r)) with
  | Some v => Some v
  | None => option_map (fun v => if xname_eqb n (mkName "" "type") then prefix (e_scope r) (resolve (e_scope d) v) else v) (lookup n (e_attrs d))
  end.
Proof. exact (merged_lookup r d n). Qed.
Theorem C32_type r d v : no_shadowing (e_scope r) -> prefixes_ok (e_scope r) -> let n := resolve (e_scope d) v in
  nlocal n <> "" -> s_in ":"%char (nlocal n) = false -> (exists p, In (mkName (nspace n) p) (e_scope r)) -> nspace n <> "" -> nspace n <> xml_uri -> nspace n <> xmlns_uri ->
  resolve (e_scope (merged r d)) (avalue (reworded r d (mkAttr (mkName "" "type") v))) = n.
Proof. exact (reworded_type r d v). Qed.
Print Assumptions C32_merged.
Print Assumptions C32_attributes.
Print Assumptions C32_type.
Example merged_example : clear_names (xel "attribute" [("ref", "a:id"); ("use", "required")] []) id_attribute /\
  merged (xel "attribute" [("ref", "a:id"); ("use", "required")] []) id_attribute = xel "attribute" [("name", "id"); ("type", "xs:ID"); ("use", "required")] [].
Proof. split; [apply clear_namesb_sound; vm_compute; reflexivity|vm_compute; reflexivity]. Qed.
(* In Normalize the reference has got its default type by then, which wins; *)
Theorem C32_type_lost_refuted : exists e e' q d d', normalized [e] = Done [Some e'] /\ descendant e [0] d /\ attr d "" "name" = "id" /\ resolve (e_scope d) (attr d "" "type") = xs "ID" /\
  descendant e' q d' /\ attr d' "" "name" = "id" /\ attr d' "" "use" = "required" /\ resolve (e_scope d') (attr d' "" "type") = xs "anySimpleType".
Proof. exact type_lost. Qed.
(* without clear_names, attributes in other namespaces are overwritten; *)
Theorem C32_foreign_attribute_refuted : exists e e' q d d', flattened [e] = Done [Some e'] /\ descendant e [0] d /\ lookup (mkName "urn:b" "note") (e_attrs d) = Some "old" /\
  descendant e' q d' /\ attr d' "" "name" = "id" /\ attr d' "" "use" = "required" /\ lookup (mkName "urn:b" "note") (e_attrs d') = Some "new" /\ lookup (mkName "" "note") (e_attrs d') = None.
Proof. exact foreign_overwritten. Qed.
(* and a type whose namespace the reference's document does not declare is dropped. *)
Theorem C32_type_unnamed_refuted : exists f g f' g' d d', flattened [f; g] = Done [Some f'; Some g'] /\ descendant f [0] d /\ attr d "" "name" = "id" /\ resolve (e_scope d) (attr d "" "type") = mkName "urn:b" "code" /\
  descendant g' [0; 0] d' /\ attr d' "" "name" = "id" /\ lookup (mkName "" "type") (e_attrs d') = Some "".
Proof. exact type_unnamed. Qed.
Print Assumptions C32_type_lost_refuted.
Print Assumptions C32_foreign_attribute_refuted.
Print Assumptions C32_type_unnamed_refuted.

(* C35. Every reference is replaced, and groups are unpacked. *)
Theorem C35_flattened grow agrow fuel h roots es es' : stands h roots es -> timely es -> clear_refs es -> all_resolve es -> Forall2 (resolved_root es) es es' ->
  Forall (fun e => height e <= fuel) es -> Forall (fun e => height e <= fuel /\ groups_apart e) es' ->
  exists H, flatten_ref grow agrow fuel roots h = Done H /\ Forall2 (shows H) roots (map (below unpack_el) es').
Proof. exact (flatten_ref_ok grow agrow fuel h roots es es'). Qed.
Theorem C35_no_refs_left es es' : timely es -> clear_refs es -> Forall2 (resolved_root es) es es' ->
  forall e q d, In e (map (below unpack_el) es') -> descendant e q d -> ~ has_ref d.
Proof. exact (flattened_no_refs es es'). Qed.
(* There is an error exactly if a reference names nothing, *)
Theorem C35_error_iff grow agrow fuel h roots es : stands h roots es -> Forall (fun e => height e <= fuel) es ->
  flatten_ref grow agrow fuel roots h = Fails <-> exists ke e, In (ke, e) (entries es) /\ has_ref e /\ forall t d, ~ target_at es (ref_key e) t d.
Proof. exact (flatten_fails_iff grow agrow fuel h roots es). Qed.
(* there is no panic, *)
Theorem C35_no_panic grow agrow fuel h roots es : stands h roots es -> Forall (fun e => height e <= fuel) es -> all_resolve es ->
  exists H, flatten_ref grow agrow fuel roots h = unpack_all grow fuel roots H.
Proof. exact (no_panic grow agrow fuel h roots es). Qed.
(* and whatever the memory, the check for cycles never reports one. *)
Theorem C35_cycle_check_is_dead grow fuel roots h : unpack_all grow fuel roots h <> Fails.
Proof. exact (unpack_all_never_fails grow fuel roots h). Qed.
Print Assumptions C35_flattened.
Print Assumptions C35_no_refs_left.
Print Assumptions C35_error_iff.
Print Assumptions C35_no_panic.
Print Assumptions C35_cycle_check_is_dead.
Example refs_example : flattened [refs_schema] = Done [Some refs_result].
Proof. vm_compute. reflexivity. Qed.
Example refs_example_meets : timely [refs_schema] /\ clear_refs [refs_schema] /\ all_resolve [refs_schema] /\
  exists e', resolved_root [refs_schema] refs_schema e' /\ height e' <= 20 /\ groups_apart e'.
Proof. exact refs_schema_meets. Qed.
Example unknown_example : normalized [schema_el [xel "complexType" [("name", "t")] [xel "attribute" [("ref", "a:id")] []]]] = Fails.
Proof. exact unknown_schema. Qed.
(* A reference to a definition that contains references and comes later: they are left. *)
Theorem C35_refs_left_refuted : all_resolve [late_schema] /\ exists e' q d, normalized [late_schema] = Done [Some e'] /\ descendant e' q d /\ e_name d = xs "attribute" /\ has_ref d.
Proof. exact late_left. Qed.
(* A recursive group: no end, rather than an error. *)
Theorem C35_recursive_never_ends grow agrow h r e0 ke e t d s : stands h [r] [e0] -> all_resolve [e0] -> refs_empty [e0] ->
  In (ke, e) (entries [e0]) -> has_ref e -> target_at [e0] (ref_key e) t d -> sub d s = Some e -> 2 <= List.length s ->
  forall fuel, flatten_ref grow agrow fuel [r] h = Runs.
Proof. exact (recursive_runs grow agrow h r e0 ke e t d s). Qed.
Print Assumptions C35_refs_left_refuted.
Print Assumptions C35_recursive_never_ends.
Example recursive_example : all_resolve [recursive_schema] /\ refs_empty [recursive_schema] /\
  exists ke e t d, In (ke, e) (entries [recursive_schema]) /\ has_ref e /\ target_at [recursive_schema] (ref_key e) t d /\ sub d [0; 1] = Some e.
Proof. exact recursive_schema_meets. Qed.
