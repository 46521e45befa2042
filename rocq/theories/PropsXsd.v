(* C26, C40, C41, C67, C70, C71: reading schema documents. *)
From Verif Require Import Base ScopeModel TreeModel TreeSpec EqualModel EqualSpec Decimal BuiltinModel XsdModel XsdSpec XsdProofs CodecModel CodecSpec XsdSimple.
Local Open Scope string_scope.

(* C26. Imports lists every import below the root, then every include of every schema. *)
Theorem C26_imports root : exists imps scs incs,
  lists root "import" imps /\
  (e_name root = mkName schemaNS "schema" -> scs = [root]) /\
  (e_name root <> mkName schemaNS "schema" -> lists root "schema" scs) /\
  Forall2 (fun sc l => lists sc "include" l) scs incs /\
  imports root = (map (fun v => mkRef (attr v "" "namespace") (attr v "" "schemaLocation")) imps ++
    concat (map (fun p => map (fun v => mkRef (attr (fst p) "" "targetNamespace") (attr v "" "schemaLocation")) (snd p)) (combine scs incs)))%list.
Proof. exact (imports_spec root). Qed.
Print Assumptions C26_imports.
(* the vocabulary is exact: the list of descendants in document order is unique *)
Theorem C26_lists_unique root local a b : lists root local a -> lists root local b -> a = b.
Proof. exact (lists_inj root local a b). Qed.
Print Assumptions C26_lists_unique.
(* a schema within a schema has its includes listed twice, once under a foreign namespace *)
Theorem C26_each_include_once_refuted : exists root,
  imports root = [mkRef "urn:a" "c.xsd"; mkRef "urn:b" "c.xsd"] /\ List.length (find_all "include" root) = 1.
Proof. exact (ex_intro _ nested_schema include_twice). Qed.
Print Assumptions C26_each_include_once_refuted.
Example imports_example :
  imports (Elem (xs "schema") [mkAttr (mkName "" "targetNamespace") "urn:t"] [] ""
    [Elem (xs "include") [mkAttr (mkName "" "schemaLocation") "i.xsd"] [] "" [];
     Elem (xs "import") [mkAttr (mkName "" "namespace") "urn:o"; mkAttr (mkName "" "schemaLocation") "o.xsd"] [] "" []])
  = [mkRef "urn:o" "o.xsd"; mkRef "urn:t" "i.xsd"].
Proof. reflexivity. Qed.

(* C40. Occurrence attributes, for all strings. *)
Theorem C40_integers s z : parse_int s = Some z <-> occurs s z.
Proof. exact (parse_int_spec s z). Qed.
Print Assumptions C40_integers.
Theorem C40_booleans s b : parse_bool s = Some b <-> boolean s b.
Proof. exact (parse_bool_spec s b). Qed.
Print Assumptions C40_booleans.
Theorem C40_plural el b : parse_plural el = Some b <-> plural (attr el "" "minOccurs") (attr el "" "maxOccurs") b.
Proof. exact (parse_plural_spec el b). Qed.
Print Assumptions C40_plural.
Theorem C40_element annot ns el e : parse_element annot ns el = Some e ->
  boolean (attr el "" "abstract") (el_abstract e) /\ boolean (attr el "" "nillable") (el_nillable e) /\
  plural (attr el "" "minOccurs") (attr el "" "maxOccurs") (el_plural e) /\
  (el_optional e = true <-> (attr el "" "minOccurs" <> "" /\ occurs (attr el "" "minOccurs") 0) \/ attr el "" "default" <> "") /\
  el_default e = attr el "" "default" /\ el_wild e = false.
Proof. exact (parse_element_fields annot ns el e). Qed.
Print Assumptions C40_element.
Theorem C40_element_accepted annot ns el : (forall e, annot e <> None) ->
  (exists a, boolean (attr el "" "abstract") a) -> (exists a, boolean (attr el "" "nillable") a) ->
  (exists a, plural (attr el "" "minOccurs") (attr el "" "maxOccurs") a) -> exists e, parse_element annot ns el = Some e.
Proof. exact (parse_element_total annot ns el). Qed.
Print Assumptions C40_element_accepted.
(* maxOccurs is not looked at when minOccurs exceeds 1: a meaningless value passes *)
Theorem C40_invalid_max_is_an_error_refuted : exists el e, attr el "" "maxOccurs" = "many" /\ (forall z, ~ occurs "many" z) /\
  parse_element no_doc "urn:a" el = Some e.
Proof. exact bad_max_accepted. Qed.
Print Assumptions C40_invalid_max_is_an_error_refuted.
Example occurrence_example :
  exists e, parse_element no_doc "urn:a" (el_with [("name", "e"); ("minOccurs", " 0 "); ("maxOccurs", "unbounded"); ("nillable", "1")]) = Some e /\
    el_plural e = true /\ el_optional e = true /\ el_nillable e = true /\ el_abstract e = false.
Proof. eexists. split; [reflexivity|]. repeat split. Qed.
Example occurrence_rejected : parse_element no_doc "urn:a" (el_with [("name", "e"); ("maxOccurs", "1.5")]) = None /\
  parse_element no_doc "urn:a" (el_with [("name", "e"); ("nillable", "True")]) = None.
Proof. split; reflexivity. Qed.

(* C41. Repeated declarations are merged, in the order of first occurrences. *)
Theorem C41_merge els0 new : exists ms, merge_elems els0 new = (els0 ++ ms)%list /\
  firsts (map el_name new) (map el_name ms) /\
  (forall m, In m ms -> merges (filter (same_name (el_name m)) new) m).
Proof. exact (merge_elems_spec els0 new). Qed.
Print Assumptions C41_merge.
Theorem C41_firsts_distinct {A} (l r : list A) : firsts l r -> NoDup r /\ forall x, In x r <-> In x l.
Proof. exact (fun H => conj (firsts_nodup l r H) (firsts_in l r H)). Qed.
Print Assumptions C41_firsts_distinct.
(* a complex type with one derivation: first a wildcard if there is any, then the merged elements;
   the attributes in document order *)
Theorem C41_complex_type annot tns root d t : parse_complex_type annot tns root = Some t -> derives root d ->
  exists decls es adecls ats wild ms, lists d "element" decls /\ Forall2 (fun x e => parse_element annot tns x = Some e) decls es /\
    lists d "attribute" adecls /\ Forall2 (fun x a => parse_attribute annot tns x = Some a) adecls ats /\
    ct_elems t = (wild ++ ms)%list /\ ct_attrs t = ats /\
    (lists d "any" [] /\ wild = [] \/ exists a w rest, lists d "any" (a :: rest) /\ parse_any a = Some w /\ wild = [w]) /\
    firsts (map el_name es) (map el_name ms) /\
    (forall m, In m ms -> merges (filter (same_name (el_name m)) es) m) /\
    ct_base t = parse_type (resolve (e_scope d) (attr d "" "base")) /\
    (ct_extends t = true <-> nlocal (e_name d) = "extension").
Proof. exact (complex_type_spec annot tns root d t). Qed.
Print Assumptions C41_complex_type.
(* documentation of the second and third of three declarations of a *)
Example merged_documentation :
  let d doc := mkElement doc (mkName "" "a") false (TB 0) false false false false "" [] [] in
  map el_doc (merge_elems [] [d ""; d "one"; d "two"]) = ["one" ++ nl ++ "two"].
Proof. reflexivity. Qed.
Definition ct_example : elem :=
  let e l := el_with l in
  let d := Elem (xs "extension") [mkAttr (mkName "" "base") "Base"] [] ""
    [Elem (xs "sequence") [] [] "" [e [("name", "a"); ("minOccurs", "0")]; e [("name", "b")]; e [("name", "a"); ("nillable", "true")]]] in
  Elem (xs "complexType") [mkAttr (mkName "" "name") "T"] [] "" [Elem (xs "annotation") [] [] "" []; Elem (xs "complexContent") [] [] "" [d]].
Example ct_example_derives : exists d, derives ct_example d.
Proof.
  exists (hd ct_example (e_children (nth 1 (e_children ct_example) ct_example))), (nth 1 (e_children ct_example) ct_example). split; [|split; [reflexivity|split; [|left; reflexivity]]].
  - exists [Elem (xs "annotation") [] [] "" []], []. split; [intros e [<-|[]]; reflexivity|]. split; [intros e []|reflexivity].
  - exists [], []. split; [intros e []|]. split; [intros e []|]. reflexivity.
Qed.
Example ct_example_parsed : exists t, parse_complex_type no_doc "urn:t" ct_example = Some t /\
  map (fun e => (nlocal (el_name e), el_optional e, el_nillable e)) (ct_elems t) = [("a", true, true); ("b", false, false)] /\ ct_extends t = true.
Proof. eexists. split; [vm_compute; reflexivity|]. split; reflexivity. Qed.

(* C67. Types and names of elements and attributes. An element whose type is a user type gets the
   namespace of that type, an attribute always gets the target namespace. *)
Theorem C67_element_type_and_name annot ns el e : parse_element annot ns el = Some e ->
  (attr el "" "type" = "" -> el_type e = TB 0) /\
  (forall b, attr el "" "type" <> "" -> parse_builtin (resolve (e_scope el) (attr el "" "type")) = Some b -> el_type e = TB b) /\
  (attr el "" "type" <> "" -> parse_builtin (resolve (e_scope el) (attr el "" "type")) = None ->
     el_type e = TLink (resolve (e_scope el) (attr el "" "type")) /\
     el_name e = mkName (nspace (resolve (e_scope el) (attr el "" "type"))) (nlocal (resolve_default (e_scope el) (attr el "" "name") ns))) /\
  (attr el "" "type" = "" \/ parse_builtin (resolve (e_scope el) (attr el "" "type")) <> None ->
     el_name e = resolve_default (e_scope el) (attr el "" "name") ns).
Proof. exact (element_name annot ns el e). Qed.
Print Assumptions C67_element_type_and_name.
Theorem C67_element_namespace_refuted : exists el e, resolve_default (e_scope el) (attr el "" "name") "urn:a" = mkName "urn:a" "item" /\
  parse_element no_doc "urn:a" el = Some e /\ el_name e = mkName "urn:b" "item".
Proof. exact element_namespace_counter. Qed.
Print Assumptions C67_element_namespace_refuted.
(* the fields of an attribute: optional unless use="required", whatever else is written there *)
Theorem C67_attribute annot ns el a : parse_attribute annot ns el = Some a ->
  (at_optional a = true <-> attr el "" "use" <> "required") /\ at_default a = attr el "" "default" /\
  (forall b, parse_builtin (resolve (e_scope el) (attr el "" "type")) = Some b -> at_type a = TB b) /\
  (parse_builtin (resolve (e_scope el) (attr el "" "type")) = None -> at_type a = TLink (resolve (e_scope el) (attr el "" "type"))) /\
  (s_in colon (attr el "" "name") = true -> at_name a = mkName ns (nlocal (resolve (e_scope el) (attr el "" "name")))) /\
  (s_in colon (attr el "" "name") = false -> at_name a = mkName ns (attr el "" "name")) /\
  at_attr a = e_attrs el /\ at_scope a = e_scope el.
Proof. exact (attribute_fields annot ns el a). Qed.
Print Assumptions C67_attribute.
Example attribute_example : exists a b,
  parse_attribute no_doc "urn:a" (el_with [("name", "id"); ("type", "x"); ("default", "d")]) = Some a /\ at_optional a = true /\ at_default a = "d" /\
  parse_attribute no_doc "urn:a" (el_with [("name", "id"); ("use", "required")]) = Some b /\ at_optional b = false.
Proof. eexists. eexists. split; [vm_compute; reflexivity|]. split; [reflexivity|]. split; [reflexivity|]. split; [vm_compute; reflexivity|]. reflexivity. Qed.
(* a prohibited attribute is kept, as an optional one *)
Theorem C67_prohibited_left_out_refuted : exists el a, attr el "" "use" = "prohibited" /\ parse_attribute no_doc "urn:a" el = Some a /\ at_optional a = true.
Proof. exact prohibited_kept. Qed.
Print Assumptions C67_prohibited_left_out_refuted.
(* C40 for wildcards *)
Theorem C40_wildcard el e : parse_any el = Some e ->
  el_wild e = true /\ plural (attr el "" "minOccurs") (attr el "" "maxOccurs") (el_plural e) /\ el_optional e = false /\ el_name e = mkName "" "" /\
  (attr el "" "type" = "" -> el_type e = TB 0).
Proof. exact (wildcard_fields el e). Qed.
Print Assumptions C40_wildcard.
Example wildcard_example : exists e, parse_any (el_with [("minOccurs", "2")]) = Some e /\ el_plural e = true.
Proof. eexists. split; [vm_compute; reflexivity|]. reflexivity. Qed.
Theorem C67_attribute_namespace_refuted : exists el a, resolve (e_scope el) (attr el "" "name") = mkName "urn:b" "id" /\
  parse_attribute no_doc "urn:a" el = Some a /\ at_name a = mkName "urn:a" "id".
Proof. exact attribute_namespace_counter. Qed.
Print Assumptions C67_attribute_namespace_refuted.

(* C70. Facets of simple types, for every behaviour of regexp, strconv and time. *)
Theorem C70_facets annot F T f0 t0 pf pd pr comp msg root base r : parse_restriction annot F T f0 t0 pf pd pr comp msg root base = Some r ->
  rs_enum F T r = map value (facets root "enumeration") /\
  last_int (facets root "length") (rs_len F T r) /\ last_int (facets root "minLength") (rs_minlen F T r) /\
  last_int (facets root "maxLength") (rs_maxlen F T r) /\ last_int (facets root "totalDigits") (rs_total F T r) /\
  last_int (facets root "fractionDigits") (rs_prec F T r) /\ (0 <= rs_prec F T r)%Z.
Proof. exact (restriction_spec annot F T f0 t0 pf pd pr comp msg root base r). Qed.
Theorem C70_patterns annot F T f0 t0 pf pd pr comp msg root base r : parse_restriction annot F T f0 t0 pf pd pr comp msg root base = Some r ->
  (forall p q, map value (facets root "pattern") = (p ++ q)%list -> p <> [] -> comp (alternation p) = true) ->
  rs_pattern F T r = match facets root "pattern" with [] => None | _ => Some (alternation (map value (facets root "pattern"))) end.
Proof. exact (pattern_spec annot F T f0 t0 pf pd pr comp msg root base r). Qed.

(* C71. Bounds: the last one counts, read as the base type demands. *)
Theorem C71_bounds annot F T f0 t0 pf pd pr comp msg root base r : parse_restriction annot F T f0 t0 pf pd pr comp msg root base = Some r ->
  let kids := filter (fun e => String.eqb (nspace (e_name e)) schemaNS) (e_children root) in
  let ok := fun f d x =>
    match base with
    | TB b => if (b =? 16)%Z then pd (value f) = Some d /\ x = f0 else if (b =? 17)%Z then pr (value f) = Some d /\ x = f0
              else d = t0 /\ (same_text (value f) "" /\ x = f0 \/ ~ same_text (value f) "" /\ pf (trim_space (value f)) = Some x)
    | _ => True
    end in
  match rev (filter is_min kids) with [] => rs_mindate F T r = t0 /\ rs_min F T r = f0 | f :: _ => ok f (rs_mindate F T r) (rs_min F T r) end /\
  match rev (filter is_max kids) with [] => rs_maxdate F T r = t0 /\ rs_max F T r = f0 | f :: _ => ok f (rs_maxdate F T r) (rs_max F T r) end.
Proof. exact (bounds_spec annot F T f0 t0 pf pd pr comp msg root base r). Qed.
Print Assumptions C70_facets.
Print Assumptions C70_patterns.
Print Assumptions C71_bounds.

Definition facet (l v : string) : elem := Elem (xs l) [mkAttr (mkName "" "value") v] [] "" [].
Definition restr (l : list (string * string)) : elem := Elem (xs "restriction") [] [] "" (map (fun p => facet (fst p) (snd p)) l).
(* a pattern that does not compile takes the ones before it along *)
Theorem C70_patterns_kept_refuted : exists (comp : string -> bool) r, comp "[a-z]+" = true /\
  parse_restriction no_doc nat nat 0 0 (fun _ => None) (fun _ => None) (fun _ => None) comp (fun _ => "")
    (restr [("pattern", "[a-z]+"); ("pattern", "\i\c*")]) (TB 3) = Some r /\ rs_pattern nat nat r = None.
Proof. exact (ex_intro _ (fun s => String.eqb s "[a-z]+") (ex_intro _ _ (conj eq_refl (conj eq_refl eq_refl)))). Qed.
Print Assumptions C70_patterns_kept_refuted.
(* a dateTime bound of a type derived from a user type is accepted and forgotten *)
Theorem C71_linked_datetime_refuted F T f0 t0 pf (pd pr : string -> option T) el n d :
  pd (value el) = None -> pr (value el) = Some d -> parse_min_max F T f0 t0 pf pd pr el (TLink n) = Some (t0, f0).
Proof. exact (min_max_linked F T f0 t0 pf pd pr el n d). Qed.
Print Assumptions C71_linked_datetime_refuted.

Example facets_example : exists r,
  parse_restriction no_doc nat nat 0 0 (fun _ => None) (fun _ => Some 7) (fun _ => None) (fun _ => true) (fun _ => "")
    (restr [("enumeration", "x"); ("pattern", "p"); ("maxLength", "4"); ("enumeration", "y"); ("pattern", "q"); ("maxLength", " 5"); ("minInclusive", "2001-01-01")]) (TB 16) = Some r /\
  rs_enum nat nat r = ["x"; "y"] /\ rs_maxlen nat nat r = 5%Z /\ rs_pattern nat nat r = Some "p|q" /\ rs_mindate nat nat r = 7.
Proof. eexists. split; [vm_compute; reflexivity|]. repeat split. Qed.

(* C74. A simple type: a list type iff it has a list child, the members of all its unions in order,
   the base named by the last child that names one, the facets of the last restriction. *)
Theorem C74_simple_type annot F T f0 t0 pf pd pr comp msg tns root s : parse_simple_type annot F T f0 t0 pf pd pr comp msg tns root = Some s ->
  st_name F T s = resolve_default (e_scope root) (attr root "" "name") tns /\
  (st_anon F T s = true <-> attr root "" "_isAnonymous" = "true") /\
  (st_list F T s = true <-> exists e, In e (kids root) /\ nlocal (e_name e) = "list") /\
  (exists ms, Forall2 member_types (facets root "union") ms /\ st_union F T s = concat ms) /\
  last_base (kids root) (st_base F T s) /\
  restr_of annot F T f0 t0 pf pd pr comp msg (kids root) (st_restr F T s).
Proof. exact (simple_type_spec annot F T f0 t0 pf pd pr comp msg tns root s). Qed.
Print Assumptions C74_simple_type.
Example simple_example : exists s,
  parse_simple_type no_doc nat nat 0 0 (fun _ => None) (fun _ => None) (fun _ => None) (fun _ => true) (fun _ => "") "urn:t"
    (Elem (xs "simpleType") [mkAttr (mkName "" "name") "T"] [] "" [Elem (xs "list") [mkAttr (mkName "" "itemType") "N"] [] "" []]) = Some s /\
  st_list nat nat s = true /\ st_base nat nat s = TLink (mkName "" "N") /\ st_name nat nat s = mkName "urn:t" "T".
Proof. eexists. split; [vm_compute; reflexivity|]. repeat split. Qed.
Example union_example : exists s,
  parse_simple_type no_doc nat nat 0 0 (fun _ => None) (fun _ => None) (fun _ => None) (fun _ => true) (fun _ => "") "urn:t"
    (Elem (xs "simpleType") [mkAttr (mkName "" "name") "T"] [] "" [Elem (xs "union") [mkAttr (mkName "" "memberTypes") " A  B"] [] "" []]) = Some s /\
  st_list nat nat s = false /\ st_union nat nat s = [TLink (mkName "" "A"); TLink (mkName "" "B")] /\ st_base nat nat s = TB 49.
Proof. eexists. split; [vm_compute; reflexivity|]. repeat split. Qed.
