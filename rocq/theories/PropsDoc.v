(* C89: documentation. *)
From Verif Require Import Base ScopeModel TreeModel EqualModel BuiltinModel XsdModel SgModel DocModel DocSpec DocProofs DocExamples.
Local Open Scope string_scope.

Theorem C89_total (raw : string -> list dtok) : (forall c, untagged (raw c)) -> forall el, exists d, parse_annotation raw el = Some d.
Proof. exact (always_read raw). Qed.
Print Assumptions C89_total.
Theorem C89_documentation (raw : string -> list dtok) : (forall c, untagged (raw c)) -> forall el, Forall is_doc (e_children el) ->
  parse_annotation raw el = Some (trim_space (paragraphs (map (said raw) (e_children el)))).
Proof. exact (documentation raw). Qed.
Print Assumptions C89_documentation.
Theorem C89_paragraphs (raw : string -> list dtok) : (forall c, untagged (raw c)) -> forall el, Forall (fun k => is_doc k /\ said raw k <> "") (e_children el) ->
  parse_annotation raw el = Some (paragraphs (map (said raw) (e_children el))).
Proof. exact (told raw). Qed.
Print Assumptions C89_paragraphs.
Theorem C89_after_other (raw : string -> list dtok) : (forall c, untagged (raw c)) -> forall el pre k post,
  e_children el = (pre ++ k :: post)%list -> Forall is_doc pre -> ~ is_doc k ->
  parse_annotation raw el = Some (trim_space (paragraphs (map (said raw) pre))).
Proof. exact (after_other raw). Qed.
Print Assumptions C89_after_other.
Theorem C89_element (raw : string -> list dtok) : (forall c, untagged (raw c)) -> forall ns el e, Forall (telling raw) (annotations el) ->
  parse_element (parse_annotation raw) ns el = Some e ->
  el_doc e = paragraphs (flat_map (fun a => map (said raw) (e_children a)) (annotations el)).
Proof. exact (element_told raw). Qed.
Print Assumptions C89_element.
Theorem C89_attribute (raw : string -> list dtok) : (forall c, untagged (raw c)) -> forall ns el, Forall (telling raw) (annotations el) ->
  exists a, parse_attribute (parse_annotation raw) ns el = Some a /\ at_doc a = paragraphs (flat_map (fun a => map (said raw) (e_children a)) (annotations el)).
Proof. exact (attribute_told raw). Qed.
Print Assumptions C89_attribute.
(* a documentation after an appinfo is lost *)
Theorem C89_appinfo_refuted : exists raw el k, (forall c, untagged (raw c)) /\ In k (e_children el) /\ is_doc k /\ said raw k <> "" /\ parse_annotation raw el = Some "".
Proof. exact (ex_intro _ raw0 (ex_intro _ (annot [app_info; the_text]) (ex_intro _ the_text (conj raw0_untagged (conj (or_intror (or_introl eq_refl)) (conj eq_refl (conj (fun E : said raw0 the_text = "" => eq_ind (said raw0 the_text) (fun s => match s with "" => False | _ => True end) I "" E) eq_refl))))))). Qed.
Print Assumptions C89_appinfo_refuted.
(* a documentation with elements in it says nothing *)
Theorem C89_markup_refuted : exists raw el k, (forall c, untagged (raw c)) /\ e_children el = [k] /\ is_doc k /\ e_content k = "See <b>below</b>." /\ parse_annotation raw el = Some "".
Proof. exact (ex_intro _ raw0 (ex_intro _ (annot [marked_up]) (ex_intro _ marked_up (conj raw0_untagged (conj eq_refl (conj eq_refl (conj eq_refl eq_refl))))))). Qed.
Print Assumptions C89_markup_refuted.

Example C89_case : parse_annotation raw0 (annot [the_text; more_text]) = Some ("A size, in metres." ++ nl ++ nl ++ "Never negative.").
Proof. reflexivity. Qed.
Example C89_case_raw : forall c, untagged (raw0 c).
Proof. exact raw0_untagged. Qed.
Example C89_case_other : parse_annotation raw0 (annot [the_text; app_info; more_text]) = Some "A size, in metres.".
Proof. reflexivity. Qed.
Example C89_case_element : Forall (telling raw0) (annotations sized) /\
  option_map el_doc (parse_element (parse_annotation raw0) "urn:a" sized) = Some ("A size, in metres." ++ nl ++ nl ++ "Never negative.").
Proof. exact (conj sized_telling eq_refl). Qed.
