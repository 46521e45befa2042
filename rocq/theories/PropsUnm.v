(* xmltree.Unmarshal: what is read of an element is what the document has there. *)
From Verif Require Import Base ScopeModel TreeModel EqualModel BuiltinModel XsdModel TypesModel TypesSpec GenModel SgModel SgStruct SgTags SgExamples SgFlatSpec SgExpandSpec SgGen SgGenSpec SgGenExamples SgOrderSpec SgShapeSpec BindModel BindSpec BindGenSpec BindDecode BindExamples BindDecodeEx WholeSpec WholeBind WholeExamples.
From Verif Require Import ParseModel ParseSpec ParseProofs DecodeModel MarshalModel MarshalSpec DocModel UnmModel UnmSpec UnmProofs UnmText UnmWhole UnmExamples.
Local Open Scope string_scope.

(* ---------- C93 ---------- *)
Theorem C93_tree_as_read el : printable [] el -> (eheight el <= 3000)%N -> exists y, unmarshal_sees el = Some y /\ shows el y.
Proof. exact (unmarshal_shows el). Qed.
Print Assumptions C93_tree_as_read.
Theorem C93_exact el : printable [] el -> (eheight el <= 3000)%N -> unmarshal_sees el = Some (exactly [] el).
Proof. exact (unmarshal_exact el). Qed.
Print Assumptions C93_exact.
(* the text of an element is what its character data stand for *)
Theorem C93_characters q s t : ncname q = true -> stands_for s t -> seen ("<" ++ q ++ ">" ++ s ++ "</" ++ q ++ ">") = Some (NElem (mkName "" q) [] (if String.eqb s "" then [] else [NText t])).
Proof. exact (text_read q s t). Qed.
Print Assumptions C93_characters.
Example C93_case_characters : stands_for two_lines two_lines_text /\ seen ("<a>" ++ two_lines ++ "</a>") = Some (NElem (mkName "" "a") [] [NText two_lines_text]).
Proof. exact two_lines_stand. Qed.
(* so annotations are read as in C89 *)
Theorem C93_annotation el : printable [] el -> (eheight el <= 3000)%N -> exists y, unmarshal_sees el = Some y /\ annotation_doc (flat_map node_toks (kids_of y) ++ [DEnd])%list = parse_annotation raw_text el.
Proof. exact (annotation_read el). Qed.
Print Assumptions C93_annotation.
Example C93_case_annotation : printable [] note_el /\ eheight note_el = 1%N /\ unmarshal_sees note_el = Some (NElem (mkName schemaNS "annotation") [mkAttr (mkName "" "xmlns") schemaNS] [NElem (mkName schemaNS "documentation") [] [NText " a < b "]; NElem (mkName schemaNS "documentation") [] [NText "c"]]) /\
  parse_annotation raw_text note_el = Some ("a < b" ++ blank_line ++ "c").
Proof. exact note_read. Qed.
Theorem C93_part_of_document sortns data el off rest p sel : sorts sortns -> parse sortns data (decode data) = POk el off rest -> sub el p = Some sel -> printable [] sel ->
  exists r r' y, seen data = Some r /\ node_at r p = Some r' /\ unmarshal_sees sel = Some y /\ alike r' y.
Proof. exact (unmarshal_alike sortns data el off rest p sel). Qed.
Print Assumptions C93_part_of_document.
Theorem C93_parse_loses_nothing sortns data el off rest p sel : sorts sortns -> parse sortns data (decode data) = POk el off rest -> sub el p = Some sel ->
  exists r r', seen data = Some r /\ node_at r p = Some r' /\ shows sel r'.
Proof. exact (seen_at sortns data el off rest p sel). Qed.
Print Assumptions C93_parse_loses_nothing.
Theorem C93_generated_types (public : xname -> string) (exported : string -> bool) (declares : xattr -> bool) (fa : option (attribute -> bool)) (fe : option (element -> bool)) (ft : option (xname -> bool)) (allow : option (list xname))
    (helpers : list Z) (h : nat -> nat) (st : store) (schemas : list (list ty)) :
  (forall b, non_trivial b = true -> memb b helpers = true) -> (forall a t, filtered fa (retype_at a t) = filtered fa a) -> (forall e t, filtered fe (retype_el e t) = filtered fe e) ->
  generable h st -> wild_named st -> firm fa st -> (forall i, h i <= N.to_nat 1000) -> (forall types t, In types schemas -> In t types -> known st t) -> go_names public ->
  exists c, gen public fa fe ft allow helpers false st schemas = Ret (inr c) /\ (clear_code public exported declares fa fe st (co_decls c) ->
    forall (Leaf : Type) (print : string -> Leaf -> string) (read : string -> Leaf -> string -> option Leaf) (zero_leaf : string -> Leaf) (is_empty : string -> Leaf -> bool) (zero : gexpr -> val Leaf) (good : string -> Leaf -> Prop) (clean : string -> string),
    zero_ok (structs_of (co_decls c)) Leaf zero_leaf zero ->
    (forall from to x, marshaled_as from to -> good to x -> read to (zero_leaf from) (clean (print to x)) = Some x) ->
    (forall t x, good t x -> is_empty t x = true -> x = zero_leaf t) ->
    forall n v name d, has_type (structs_of (co_decls c)) Leaf good (EId n) v ->
      exists y, BindModel.marshal exported (structs_of (co_decls c)) Leaf print is_empty v name (EId n) = [y] /\ (unmixed y ->
        forall sortns data el off rest p sel r r', sorts sortns -> parse sortns data (decode data) = POk el off rest -> sub el p = Some sel -> printable [] sel -> all_declared declares sel ->
        seen data = Some r -> node_at r p = Some r' -> reads_back declares clean d y r' ->
        exists y', unmarshal_sees sel = Some y' /\ unmarshal exported (structs_of (co_decls c)) Leaf read zero y' (EId n) (zero (EId n)) = Some v)).
Proof. exact (whole_unmarshal public exported declares fa fe ft allow helpers h st schemas). Qed.
Print Assumptions C93_generated_types.
(* the body of a message, with prefixes declared outside of it *)
Example C93_case : sorts isort_ns /\ (exists off rest, parse isort_ns message (decode message) = POk message_tree off rest /\ sub message_tree [1] = Some message_body) /\ printable [] message_body /\ (eheight message_body <= 3000)%N /\
  all_declared message_declares message_body /\ seen message = Some message_node /\ node_at message_node [1] = Some body_node.
Proof. refine (conj isort_ns_sorts (conj message_parsed (conj body_printable (conj _ (conj body_declared message_seen))))). vm_compute. discriminate. Qed.
Example C93_case_value : clear_code go_pub upper message_declares None None fleet fleet_decls /\ unmixed (fleet_doc [] "" [NText ""]) /\ reads_back message_declares id "" (fleet_doc [] "" [NText ""]) body_node /\
  unmarshal_sees message_body = Some body_sees /\ unmarshal upper fleet_structs string untxt fleet_zero body_sees (EId "Fleet") (fleet_zero (EId "Fleet")) = Some a_fleet.
Proof. exact (conj fleet_clear (conj fleet_unmixed (conj body_reads body_unmarshals))). Qed.
(* a prefix that is declared again *)
Example C93_case_shadowed : exists data el off sel r y, parse isort_ns data (decode data) = POk el off [] /\ sub el [0] = Some sel /\ printable [] sel /\ ~ NoDup (map nlocal (e_scope sel)) /\ seen data = Some r /\ unmarshal_sees sel = Some y /\
  y = NElem (mkName "" "c") [mkAttr (mkName "xmlns" "a") "urn:z"; mkAttr (mkName "xmlns" "a") "urn:b"] [NElem (mkName "urn:b" "x") [] [NText "1"]].
Proof. exact shadowed_seen. Qed.
(* text beside elements is not read *)
Theorem C93_mixed_content_refuted : exists data el off r y, parse isort_ns data (decode data) = POk el off [] /\ printable [] el /\ seen data = Some r /\ unmarshal_sees el = Some y /\
  r = NElem (mkName "" "a") [] [NText "t"; NElem (mkName "" "b") [] []; NText "u"] /\ y = NElem (mkName "" "a") [] [NElem (mkName "" "b") [] []].
Proof. exact mixed_unseen. Qed.
Print Assumptions C93_mixed_content_refuted.
(* an attribute value with a quotation mark: nothing is read *)
Theorem C93_quote_refuted : exists data el off r, parse isort_ns data (decode data) = POk el off [] /\ seen data = Some r /\ unmarshal_sees el = None.
Proof. exact quote_unseen. Qed.
Print Assumptions C93_quote_refuted.
(* a prefix declared around the element is read as an attribute of it *)
Theorem C93_prefix_read_as_attribute_refuted : exists el off sel r r' y v v', parse isort_ns odd_message (decode odd_message) = POk el off [] /\ sub el [0] = Some sel /\ printable [] sel /\
  seen odd_message = Some r /\ node_at r [0] = Some r' /\ unmarshal_sees sel = Some y /\
  unmarshal upper fleet_structs string untxt fleet_zero r' (EId "Fleet") (fleet_zero (EId "Fleet")) = Some (VStruct _ [VSlice _ []; VStruct _ [L ""; L ""]; VSlice _ []; v]) /\ v = L "" /\
  unmarshal upper fleet_structs string untxt fleet_zero y (EId "Fleet") (fleet_zero (EId "Fleet")) = Some (VStruct _ [VSlice _ []; VStruct _ [L ""; L ""]; VSlice _ []; v']) /\ v' = L "urn:o".
Proof. exact prefix_as_attribute. Qed.
Print Assumptions C93_prefix_read_as_attribute_refuted.
