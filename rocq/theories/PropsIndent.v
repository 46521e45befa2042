(* C96: Parse reads what MarshalIndent has written. *)
From Verif Require Import Base ScopeModel ScopeSpec TreeModel ParseModel ParseSpec ParseProofs DecodeModel MarshalModel MarshalSpec EqualModel EqualSpec EqualProofs IndentProofs IndentEqual IndentExamples.
Local Open Scope string_scope.

Theorem C96_parse_inverts_indent sortns pfx ind el : sorts sortns -> writable [] el -> (eheight el <= 3000)%N -> spaces ind ->
  exists el' off rest, parse sortns (marshal_indent el pfx ind) (decode (marshal_indent el pfx ind)) = POk el' off rest /\
  forall p e, sub el p = Some e ->
    exists e', sub el' p = Some e' /\ e_name e' = e_name e /\ e_attrs e' = e_attrs e /\
      List.length (e_children e') = List.length (e_children e) /\
      (e_children e = [] -> e_content e' = e_content e) /\
      forall q, resolve_ns (e_scope e') q = resolve_ns (e_scope e) q.
Proof. exact (indent_paths sortns pfx ind el). Qed.
Print Assumptions C96_parse_inverts_indent.
(* for parts of documents, where a scope may declare a prefix twice *)
Theorem C96_scopes_up_to_sorting sortns pfx ind el : spaces ind -> sorts sortns -> printable [] el -> (eheight el <= 3000)%N ->
  exists el' off rest, parse sortns (marshal_indent el pfx ind) (decode (marshal_indent el pfx ind)) = POk el' off rest /\ reread [] [] el el'.
Proof. exact (fun B => indent_round_trip ind B sortns pfx el). Qed.
Print Assumptions C96_scopes_up_to_sorting.
(* formatting a document that is formatted changes nothing, and it can be undone *)
Theorem C96_again sortns pfx ind el : sorts sortns -> printable [] el -> tidy [] el -> (eheight el <= 3000)%N -> spaces ind ->
  exists el' off rest, parse sortns (marshal_indent el pfx ind) (decode (marshal_indent el pfx ind)) = POk el' off rest /\
    marshal el' = marshal el /\ forall pfx' ind', marshal_indent el' pfx' ind' = marshal_indent el pfx' ind'.
Proof. exact (indent_stable sortns pfx ind el). Qed.
Print Assumptions C96_again.
(* Equal is true of the tree and of what is read back, from either function *)
Theorem C96_equal sortns sortp pfx ind el : sorts sortns -> sorts_keys sortp -> printable [] el -> everywhere single_valued el -> (eheight el <= 1000)%N -> spaces ind ->
  exists el' off rest, parse sortns (marshal_indent el pfx ind) (decode (marshal_indent el pfx ind)) = POk el' off rest /\ Equal sortp el el' = true.
Proof. exact (indent_equal sortns sortp pfx ind el). Qed.
Print Assumptions C96_equal.
Theorem C96_equal_marshal sortns sortp el : sorts sortns -> sorts_keys sortp -> printable [] el -> everywhere single_valued el -> (eheight el <= 1000)%N ->
  exists el' off, parse sortns (marshal el) (decode (marshal el)) = POk el' off [] /\ Equal sortp el el' = true.
Proof. exact (marshal_equal sortns sortp el). Qed.
Print Assumptions C96_equal_marshal.

Example C96_case : sorts isort_ns /\ sorts_keys sortp0 /\ writable [] order_el /\ tidy [] order_el /\ everywhere single_valued order_el /\ eheight order_el = 2%N /\ spaces "  ".
Proof. exact (conj isort_ns_sorts (conj sortp0_sorts (conj order_writable (conj order_tidy (conj order_single (conj eq_refl eq_refl)))))). Qed.
Example C96_case_text : order_text =
  "<order id=""7"" xmlns=""urn:o"">" ++ newline ++ "  <item>pen</item>" ++ newline ++ "  <note />" ++ newline ++ "  <item>" ++ newline ++
  "    <part>cap &amp; ink</part>" ++ newline ++ "  </item>" ++ newline ++ "</order>" ++ newline.
Proof. exact order_written. Qed.

(* Content of an element with children is not the same *)
Theorem C96_content_refuted : exists el el' off rest, writable [] el /\ e_children el <> [] /\
  parse isort_ns (marshal_indent el "" "  ") (decode (marshal_indent el "" "  ")) = POk el' off rest /\ e_content el' <> e_content el.
Proof. exact content_changed. Qed.
Print Assumptions C96_content_refuted.
(* and indent has to be white space *)
Theorem C96_indent_refuted : exists el ind e, writable [] el /\ parse isort_ns (marshal_indent el "" ind) (decode (marshal_indent el "" ind)) = PErr e.
Proof. exact other_indent. Qed.
Print Assumptions C96_indent_refuted.
