(* C09, C10: Parse on token streams. The decoder is any list of (token, offset) pairs. *)
From Verif Require Import Base ScopeModel TreeModel ParseModel ParseSpec ParseProofs.

(* C09: a well-formed document parses to its tree; what follows it is left unread *)
Theorem C09_parse_document :
  forall sortns data d pre rest,
  sorts sortns -> no_start pre -> fits data d -> (height d <= 3000)%N -> plain d = true ->
  exists el off, parse sortns data (pre ++ doc_toks d ++ rest) = POk el off rest /\
    tree_of data xml_decls xml_attrs [] d el.
Proof. exact parse_complete_xml. Qed.
Print Assumptions C09_parse_document.

(* C09, converse: whatever Parse accepts starts with a document of at most 3000 levels, and
   the result is its tree *)
Theorem C09_parse_only_documents :
  forall sortns data ts el off rest,
  sorts sortns -> parse sortns data ts = POk el off rest ->
  exists pre d, ts = pre ++ doc_toks d ++ rest /\ no_start pre /\ (height d <= 3000)%N /\
    (plain d = true -> tree_of data xml_decls xml_attrs [] d el).
Proof. exact parse_sound_xml. Qed.
Print Assumptions C09_parse_only_documents.

(* without [plain]: an attribute with local name xmlns in another namespace is taken for a
   default namespace declaration *)
Theorem C09_foreign_xmlns_attribute_refuted :
  exists d data, fits data d /\ (height d <= 3000)%N /\
  forall sortns, sorts sortns ->
  exists el off, parse sortns data (doc_toks d) = POk el off [] /\
    e_scope el = [mkName "v" ""] /\ e_attrs el = [] /\ ~ tree_of data xml_decls xml_attrs [] d el.
Proof. exact foreign_xmlns. Qed.
Print Assumptions C09_foreign_xmlns_attribute_refuted.

(* <a xmlns:q="v" xmlns="u" k="1">t<b/><!-- --></a> *)
Definition data0 := "<a xmlns:q='v' xmlns='u' k='1'>t<b/><!-- --></a>".
Definition doc0 := Doc (mkName "u" "a")
  [mkAttr (mkName "xmlns" "q") "v"; mkAttr (mkName "" "xmlns") "u"; mkAttr (mkName "" "k") "1"] 31
  [IOther 32; IElem (Doc (mkName "u" "b") [] 36 [] 36); IOther 44] 48.
Example parse_example :
  plain doc0 = true /\ height doc0 = 1%N /\
  parse isort_ns data0 ((TOther, 0) :: doc_toks doc0 ++ [(TOther, 60)]) =
   POk (Elem (mkName "u" "a") [mkAttr (mkName "" "k") "1"] [mkName "u" ""; mkName "v" "q"]
          "t<b/><!-- -->"
          [Elem (mkName "u" "b") [] [mkName "u" ""; mkName "v" "q"] "" []]) 48 [(TOther, 60)].
Proof. vm_compute. auto. Qed.
Example doc0_fits : fits data0 doc0.
Proof.
  constructor; [apply Nat.leb_le; reflexivity|apply Nat.leb_le; reflexivity|].
  intros d [H|[[= <-]|[H|[]]]]; try discriminate.
  constructor; [apply Nat.leb_le; reflexivity|apply Nat.leb_le; reflexivity|intros ? []].
Qed.
Example sort_example : sorts isort_ns.
Proof. exact isort_ns_sorts. Qed.

(* C10 *)
Theorem C10_depth_limit :
  forall sortns data d pre rest,
  sorts sortns -> no_start pre -> fits data d -> (3000 < height d)%N ->
  parse sortns data (pre ++ doc_toks d ++ rest) = PErr EDeep.
Proof. exact (fun s d doc pre rest Hs => parse_deep s d Hs doc pre rest). Qed.
Print Assumptions C10_depth_limit.

Theorem C10_truncated_document :
  forall sortns data d p q,
  sorts sortns -> q <> [] -> doc_toks d = p ++ q -> exists e, parse sortns data p = PErr e.
Proof. exact (fun s d doc p q Hs => parse_truncated s d Hs doc p q). Qed.
Print Assumptions C10_truncated_document.

(* the model's own fuel never runs out, so the errors above are errors of the code *)
Theorem C10_no_fuel_error : forall sortns data ts, parse sortns data ts <> PErr EFuel.
Proof. exact parse_never_fuel. Qed.
Print Assumptions C10_no_fuel_error.

Example depth_example :
  height (nest (N.to_nat 3001)) = 3001%N /\ fits "" (nest (N.to_nat 3001)) /\
  (exists e o, parse isort_ns "" (doc_toks (nest (N.to_nat 3000))) = POk e o []).
Proof.
  split; [rewrite nest_height; vm_compute; reflexivity|]. split; [apply nest_fits|].
  vm_compute. eexists _, _. reflexivity.
Qed.
Example mismatch_example :
  parse isort_ns "" [(TStart (mkName "" "a") [], 0); (TEnd (mkName "" "b"), 0)] = PErr EMismatch.
Proof. reflexivity. Qed.
