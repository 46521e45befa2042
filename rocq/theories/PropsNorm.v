(* Normalize: C27 - C29. All statements hold for every way of growing slices. *)
From Verif Require Import Base ScopeModel ScopeSpec TreeModel TreeSpec BuiltinModel XsdModel NormModel NormMem NormOps NormSpec NormDefaults NormExpand NormBuild NormExamples.
Local Open Scope string_scope.

(* Memory as Parse leaves it, whatever the capacities, meets the hypothesis below. *)
Theorem C27_parsed_memory cap_of acap_of es : let (h, ps) := build_roots cap_of acap_of es [] in stands h ps es.
Proof. exact (build_roots_stand cap_of acap_of es). Qed.

(* C27. The types are added where they are missing, and nothing else changes. *)
Theorem C27_default_types agrow fuel roots es h : stands h roots es -> Forall (fun e => height e <= fuel) es ->
  exists h' es', on_each (default_types agrow fuel) roots h = Done h' /\ stands h' roots es' /\ Forall2 (only_attrs defaulted) es es'.
Proof. exact (default_types_roots agrow fuel roots es h). Qed.
(* and they mean what they should *)
Theorem C27_default_resolves d any : no_shadowing (e_scope d) -> prefixes_ok (e_scope d) -> (exists p, In (mkName schemaNS p) (e_scope d)) ->
  any = "anyType" \/ any = "anySimpleType" ->
  resolve_ns (e_scope d) (attr_get (attr_set (e_attrs d) "" "type" (prefix (e_scope d) (xs any))) "" "type") = (xs any, true).
Proof. exact (typed_resolves d any). Qed.
Print Assumptions C27_parsed_memory.
Print Assumptions C27_default_types.
Print Assumptions C27_default_resolves.

Example defaults_example : passed (default_types dbl 20) [defaults_schema] =
  Done [Some (schema_el [xel "element" [("name", "p"); ("type", "xs:anyType")] [];
    xel "complexType" [("name", "t")] [xel "sequence" [] [xel "element" [("name", "q"); ("type", "xs:int")] []]; xel "attribute" [("name", "r"); ("type", "xs:anySimpleType")] []]])].
Proof. vm_compute. reflexivity. Qed.
(* an attribute called type in any other namespace counts as a type *)
Theorem C27_foreign_type_refuted : exists e d, descendant e [0] d /\ e_name d = xs "element" /\ attr d "urn:a" "type" = "zip" /\
  passed (default_types dbl 20) [e] = Done [Some e] /\ forall a, In a (e_attrs d) -> aname a <> mkName "" "type".
Proof. exact foreign_type. Qed.
Print Assumptions C27_foreign_type_refuted.

(* C28 *)
Theorem C28_choices_optional agrow fuel roots es h : stands h roots es -> Forall (fun e => height e <= fuel) es ->
  exists h' es', on_each (set_choices_optional agrow fuel) roots h = Done h' /\ stands h' roots es' /\ Forall2 (fun e => only_attrs (made_optional e) e) es es'.
Proof. exact (optional_roots agrow fuel roots es h). Qed.
Print Assumptions C28_choices_optional.
Example choice_example : passed (set_choices_optional dbl 20) [choice_schema] =
  Done [Some (schema_el [xel "complexType" [("name", "t")]
    [xel "choice" [] [xel "element" [("name", "q"); ("minOccurs", "0")] [];
      xel "sequence" [("minOccurs", "2")] [xel "element" [("name", "r"); ("minOccurs", "0")] []; xel "choice" [("minOccurs", "0")] [xel "any" [("minOccurs", "0")] []]]]]])].
Proof. vm_compute. reflexivity. Qed.

(* C29. Complex types get their long form; expand_el says which. *)
Theorem C29_expanded grow fuel roots es h : stands h roots es -> Forall (fun e => height e <= fuel /\ e_name e = xs "schema") es ->
  exists h', on_each (expand_shorthand grow fuel) roots h = Done h' /\ stands h' roots (map (below expand_el) es).
Proof. exact (expand_roots grow fuel roots es h). Qed.
Theorem C29_long_form e : no_nested_ct e ->
  expand_el e = if shorthand e then long_form (e_name e) (e_attrs e) (e_scope e) (map expand_el (e_children e)) else below expand_el e.
Proof. exact (expand_el_flat e). Qed.
Theorem C29_every_type_has_content e q d : no_nested_ct e -> descendant (below expand_el e) q d -> e_name d = xs "complexType" ->
  exists k, In k (e_children d) /\ (e_name k = xs "simpleContent" \/ e_name k = xs "complexContent").
Proof. exact (expanded_types e q d). Qed.
Theorem C29_idempotent e : no_nested_ct e -> below expand_el (below expand_el e) = below expand_el e.
Proof. exact (expanded_twice e). Qed.
Print Assumptions C29_expanded.
Print Assumptions C29_long_form.
Print Assumptions C29_every_type_has_content.
Print Assumptions C29_idempotent.
Example expand_example : passed (expand_shorthand dbl 20) [shorthand_schema] =
  let restricted ks := xel "complexContent" [] [xel "restriction" [("base", "xs:anyType")] ks] in
  Done [Some (schema_el [xel "complexType" [("name", "t")] [xel "annotation" [] []; restricted [xel "sequence" [] [xel "element" [("name", "q")] [xel "complexType" [] [restricted [xel "attribute" [("name", "r")] []]]]]; xel "attribute" [("name", "u")] []]];
             xel "complexType" [("name", "v")] [xel "complexContent" [] [xel "extension" [("base", "a:t")] []]]])].
Proof. vm_compute. reflexivity. Qed.
(* the pointer to a complexType directly inside another one is stale when its turn comes *)
Theorem C29_nested_refuted : exists e e' d, passed (expand_shorthand dbl 20) [e] = Done [Some e'] /\ descendant e' [0; 0; 0; 0] d /\
  e_name d = xs "complexType" /\ shorthand d = true.
Proof. exact nested_left. Qed.
Print Assumptions C29_nested_refuted.
