(* C105: complex types as they are declared. *)
From Verif Require Import Base ScopeModel TreeModel TreeSpec EqualModel EqualSpec Decimal BuiltinModel XsdModel XsdSpec XsdProofs SgModel DocModel DocSpec DocProofs DocExamples ContentSpec ContentProofs ContentExamples.
Local Open Scope string_scope.

Theorem C105_head annot tns root t : parse_complex_type annot tns root = Some t ->
  ct_name t = resolve_default (e_scope root) (attr root "" "name") tns /\ (ct_anon t = true <-> attr root "" "_isAnonymous" = "true") /\ boolean (attr root "" "abstract") (ct_abstract t).
Proof. exact (type_head annot tns root t). Qed.
Print Assumptions C105_head.
Theorem C105_mixed annot tns root c t : parse_complex_type annot tns root = Some t ->
  (content root "simpleContent" c -> ct_mixed t = true) /\
  (content root "complexContent" c -> attr c "" "mixed" <> "" -> boolean (attr c "" "mixed") (ct_mixed t)) /\
  (content root "complexContent" c -> attr c "" "mixed" = "" -> boolean (attr root "" "mixed") (ct_mixed t)).
Proof. exact (type_mixed annot tns root c t). Qed.
Print Assumptions C105_mixed.
Theorem C105_simple_content annot tns root d t : derivation root "simpleContent" d -> parse_complex_type annot tns root = Some t ->
  ct_elems t = [] /\ ct_base t = parse_type (resolve (e_scope d) (attr d "" "base")) /\ (ct_extends t = true <-> nlocal (e_name d) = "extension") /\
  (nlocal (e_name d) = "extension" -> exists adecls, lists d "attribute" adecls /\ Forall2 (fun x a => parse_attribute annot tns x = Some a) adecls (ct_attrs t)) /\
  (nlocal (e_name d) = "restriction" -> ct_attrs t = []).
Proof. exact (type_simple annot tns root d t). Qed.
Print Assumptions C105_simple_content.
Theorem C105_accepted annot tns root kind c d : (forall e, annot e <> None) -> content root kind c -> (kind = "simpleContent" \/ kind = "complexContent") ->
  XsdSpec.only_child c d -> (nlocal (e_name d) = "extension" \/ nlocal (e_name d) = "restriction") ->
  (exists a, boolean (attr root "" "abstract") a) -> (exists a, boolean (attr root "" "mixed") a) -> (exists a, boolean (attr c "" "mixed") a) ->
  (forall decls e, lists d "element" decls -> In e decls -> parse_element annot tns e <> None) ->
  (forall e decls, lists d "any" (e :: decls) -> parse_any e <> None) ->
  exists t, parse_complex_type annot tns root = Some t.
Proof. exact (type_accepted annot tns root kind c d). Qed.
Print Assumptions C105_accepted.
Theorem C105_refused annot tns root x : In x (e_children root) -> nspace (e_name x) = schemaNS -> ~ In (nlocal (e_name x)) ["annotation"; "simpleContent"; "complexContent"] -> parse_complex_type annot tns root = None.
Proof. exact (type_refused annot tns root x). Qed.
Print Assumptions C105_refused.
Theorem C105_documentation raw : (forall c, untagged (raw c)) -> forall tns root t, Forall (telling raw) (DocSpec.annotations root) -> (forall c, In c (contents root) -> Forall (telling raw) (DocSpec.annotations c)) ->
  parse_complex_type (parse_annotation raw) tns root = Some t -> ct_doc t = all_of (map (told_by raw) (contents root)) ++ told_by raw root.
Proof. exact (type_told raw). Qed.
Print Assumptions C105_documentation.
Theorem C105_simple_type raw : (forall c, untagged (raw c)) -> forall F T f0 t0 pf pd pr comp msg tns root s, Forall (telling raw) (DocSpec.annotations root) ->
  parse_simple_type (parse_annotation raw) F T f0 t0 pf pd pr comp msg tns root = Some s -> st_doc F T s = told_by raw root.
Proof. exact (simple_told raw). Qed.
Print Assumptions C105_simple_type.
Example C105_case_shape : content size_type "simpleContent" size_content /\ derivation size_type "simpleContent" size_ext.
Proof. exact size_shape. Qed.
Example C105_case : exists t, parse_complex_type the_raw "urn:a" size_type = Some t /\ ct_name t = mkName "urn:a" "Size" /\ ct_abstract t = true /\ ct_anon t = false /\ ct_mixed t = true /\
  ct_base t = parse_type (mkName schemaNS "int") /\ map at_name (ct_attrs t) = [mkName "urn:a" "unit"] /\ ct_doc t = "Never negative.A size, in metres.".
Proof. exact size_read. Qed.
Example C105_case_telling : Forall (telling raw0) (DocSpec.annotations size_type) /\ forall c, In c (contents size_type) -> Forall (telling raw0) (DocSpec.annotations c).
Proof. exact size_telling. Qed.
Example C105_case_complex : (content note_type "complexContent" note_content /\ XsdSpec.only_child note_content note_ext) /\
  exists t, parse_complex_type the_raw "urn:a" note_type = Some t /\ ct_mixed t = false /\ map el_name (ct_elems t) = [mkName "urn:a" "p"] /\ attr note_content "" "mixed" <> "".
Proof. exact (conj note_shape note_read). Qed.
Example C105_case_refused : parse_complex_type the_raw "urn:a" (node "complexType" [("name", "T")] [node "sequence" [] []]) = None.
Proof. exact bare_refused. Qed.
Example C105_case_simple_type : exists s, parse_simple_type the_raw nat nat 0 0 (fun _ => None) (fun _ => None) (fun _ => None) (fun _ => true) (fun _ => "") "urn:a"
  (node "simpleType" [("name", "S")] [annot [the_text]; node "restriction" [("base", "xs:int")] [annot [more_text]]; annot [more_text]]) = Some s /\ st_doc nat nat s = "A size, in metres." ++ nl ++ nl ++ "Never negative.".
Proof. exact doc_simple. Qed.
(* attributes declared in a restriction of simple content are lost *)
Theorem C105_restriction_attributes_refuted : exists t, derivation cut_type "simpleContent" cut_down /\ lists cut_down "attribute" [unit_attr] /\ parse_complex_type the_raw "urn:a" cut_type = Some t /\ ct_attrs t = [].
Proof. exact restriction_loses. Qed.
Print Assumptions C105_restriction_attributes_refuted.
(* the documentation of the content and that of the type run together *)
Theorem C105_paragraphs_refuted : exists t, parse_complex_type the_raw "urn:a" size_type = Some t /\ told_by raw0 size_type = "A size, in metres." /\ told_by raw0 size_content = "Never negative." /\ ct_doc t = "Never negative.A size, in metres.".
Proof. exact (match size_read with ex_intro _ t H => ex_intro _ t (conj (proj1 H) (conj eq_refl (conj eq_refl (proj2 (proj2 (proj2 (proj2 (proj2 (proj2 (proj2 H)))))))))) end). Qed.
Print Assumptions C105_paragraphs_refuted.

(* C40: an element keeps its attributes and its scope; wildcards with a type *)
Theorem C40_element_kept annot ns el e : parse_element annot ns el = Some e -> el_attr e = e_attrs el /\ el_scope e = e_scope el.
Proof. exact (element_keeps annot ns el e). Qed.
Print Assumptions C40_element_kept.
Theorem C40_wildcard_type el e : parse_any el = Some e -> attr el "" "type" <> "" -> el_type e = parse_type (resolve (e_scope el) (attr el "" "type")) /\ el_abstract e = false /\ el_nillable e = false /\ el_default e = "".
Proof. exact (wildcard_type el e). Qed.
Print Assumptions C40_wildcard_type.
Example C40_case_wildcard_type : exists e, parse_any (node "any" [("type", "xs:int")] []) = Some e /\ el_type e = parse_type (mkName schemaNS "int").
Proof. exact (ex_intro _ _ (conj eq_refl eq_refl)). Qed.
(* C71: bounds where the base is not built in: a date, or else a number *)
Theorem C71_linked annot F T f0 t0 pf pd pr comp msg root n r : parse_restriction annot F T f0 t0 pf pd pr comp msg root (TLink n) = Some r ->
  let kids := filter (fun e => String.eqb (nspace (e_name e)) schemaNS) (e_children root) in
  let ok := fun f d x => (forall y, pd (value f) = Some y -> d = y /\ x = f0) /\
    (pd (value f) = None -> pr (value f) = None -> d = t0 /\ (trim_space (value f) = "" /\ x = f0 \/ trim_space (value f) <> "" /\ pf (trim_space (value f)) = Some x)) in
  match rev (filter is_min kids) with [] => rs_mindate F T r = t0 /\ rs_min F T r = f0 | f :: _ => ok f (rs_mindate F T r) (rs_min F T r) end /\
  match rev (filter is_max kids) with [] => rs_maxdate F T r = t0 /\ rs_max F T r = f0 | f :: _ => ok f (rs_maxdate F T r) (rs_max F T r) end.
Proof. exact (linked_bounds annot F T f0 t0 pf pd pr comp msg root n r). Qed.
Print Assumptions C71_linked.
Example C71_case_linked : exists r, parse_restriction the_raw nat nat 0 0 (fun s => if String.eqb s "x7" then Some 7 else None) (fun s => if String.eqb s "2001-01-01" then Some 2001 else None) (fun _ => None) (fun _ => true) (fun _ => "") linked_restr (TLink (mkName "urn:a" "Day")) = Some r /\
  rs_mindate nat nat r = 2001 /\ rs_max nat nat r = 7.
Proof. exact linked_case. Qed.
(* C70: the documentation of a restriction, and patterns that are not read *)
Theorem C70_documentation raw : (forall c, untagged (raw c)) -> forall F T f0 t0 pf pd pr comp msg root base r, Forall (telling raw) (DocSpec.annotations root) -> facets root "pattern" = [] \/ (forall s, comp s = true) ->
  parse_restriction (parse_annotation raw) F T f0 t0 pf pd pr comp msg root base = Some r -> rs_doc F T r = told_by raw root.
Proof. exact (restr_told raw). Qed.
Print Assumptions C70_documentation.
Theorem C70_uncompiled annot F T f0 t0 pf pd pr comp msg root base r x l l' : parse_restriction annot F T f0 t0 pf pd pr comp msg root base = Some r ->
  facets root "pattern" = [x] -> filter (fun e => String.eqb (nspace (e_name e)) schemaNS) (e_children root) = (l ++ x :: l')%list -> comp (value x) = false ->
  exists a b, rs_doc F T r = a ++ msg (value x) ++ b.
Proof. exact (restr_uncompiled annot F T f0 t0 pf pd pr comp msg root base r x l l'). Qed.
Print Assumptions C70_uncompiled.
Example C70_case_uncompiled : exists r, parse_restriction the_raw nat nat 0 0 (fun _ => None) (fun _ => None) (fun _ => None) (fun s => negb (String.eqb s "\i\c*")) (fun s => "Not read: " ++ s) odd_restr (TB 40) = Some r /\
  facets odd_restr "pattern" = [node "pattern" [("value", "\i\c*")] []] /\ rs_doc nat nat r = "A size, in metres." ++ nl ++ nl ++ "Not read: \i\c*" ++ nl ++ nl ++ "Never negative.".
Proof. exact odd_case. Qed.
