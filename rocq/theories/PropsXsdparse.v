(* C97: what xsdparse prints. *)
From Verif Require Import Base ScopeModel TreeModel TreeSpec ParseModel DecodeModel ParseSpec ParseProofs MarshalModel MarshalSpec IndentExamples.
From Verif Require Import GraphModel BuiltinModel XsdModel NormModel NormOps NormSpec NormUnpackAll NormFixed NormExamples NormAgain NormStart NormDocs NormPlainDocs XsdparseModel XsdparseSpec XsdparseProofs StdSchema XsdparseExamples XsdparseAgain XsdparseAgainExamples.
Local Open Scope string_scope.

(* Normalize returns the schemas of all documents, in order, each still with its name, its
   attributes and its scope. *)
Theorem C97_normalize : forall grow agrow cap_of acap_of fuel docs h roots,
  workable fuel docs -> normalize_docs grow agrow cap_of acap_of fuel docs = Done (h, roots) ->
  Forall2 (fun r e => exists x, load h r = Some x /\ n_name x = e_name e /\ n_attrs h x = e_attrs e /\ n_scope x = e_scope e) roots (flat_map schemas_of docs).
Proof. exact docs_kept. Qed.
Print Assumptions C97_normalize.

(* The output of xsdparse: the normalised schemas of the files in order, then those of the
   standard name space that was asked for; each indented and followed by a newline. *)
Theorem C97_output : forall sortns dec grow agrow cap_of acap_of standard fuel ns texts docs std out,
  Forall2 (fun s e => parse_text sortns dec s = Some e) texts docs ->
  Forall2 (fun s e => parse_text sortns dec s = Some e) standard std ->
  workable fuel (docs ++ std) ->
  xsdparse sortns dec grow agrow cap_of acap_of standard fuel ns (map Some texts) = Exits out ->
  exists trees, out = printed trees /\ Forall2 alike (filter (shown ns std) (flat_map schemas_of (docs ++ std))) trees.
Proof. exact output. Qed.
Print Assumptions C97_output.

(* What is shown of a plain schema is its normal form (C95). *)
Theorem C97_plain_output : forall sortns dec grow agrow cap_of acap_of standard fuel ns texts docs std out,
  Forall2 (fun s e => parse_text sortns dec s = Some e) texts docs ->
  Forall2 (fun s e => parse_text sortns dec s = Some e) standard std ->
  workable fuel (docs ++ std) ->
  xsdparse sortns dec grow agrow cap_of acap_of standard fuel ns (map Some texts) = Exits out ->
  exists trees, out = printed trees /\
    Forall2 (fun e t => alike e t /\ (plain e -> 3 * height e <= fuel -> exists e2, prepared e e2 /\ t = below expand_el e2 /\ normal t)) (filter (shown ns std) (flat_map schemas_of (docs ++ std))) trees.
Proof. exact plain_output. Qed.
Print Assumptions C97_plain_output.

(* The normal form can be read again, whatever follows it. What is read is in normal form and is printed the same. *)
Theorem C97_read_again : forall sortns e t tail, sorts sortns -> plain e -> printable [] e -> tidy [] e -> 3 * height e <= 3000 -> normal_form e t ->
  exists t', parse_text sortns decode (marshal_indent t "" "  " ++ tail) = Some t' /\ plain t' /\ normal t' /\ height t' <= 3 * height e /\
    e_name t' = e_name t /\ e_attrs t' = e_attrs t /\ forall pfx ind, marshal_indent t' pfx ind = marshal_indent t pfx ind.
Proof. exact written_normal. Qed.
Print Assumptions C97_read_again.
(* So xsdparse, given what it has printed, prints it. *)
Theorem C97_again : forall sortns grow agrow cap_of acap_of standard fuel ns text e std out out2,
  sorts sortns -> parse_text sortns decode text = Some e -> Forall2 (fun s e => parse_text sortns decode s = Some e) standard std -> workable fuel std ->
  plain e -> printable [] e -> tidy [] e -> 9 * height e <= fuel -> 3 * height e <= 3000 ->
  (forall s, In s std -> e_name s = xs "schema" /\ namespace_of s <> namespace_of e /\ namespace_of s <> ns) ->
  xsdparse sortns decode grow agrow cap_of acap_of standard fuel ns [Some text] = Exits out ->
  xsdparse sortns decode grow agrow cap_of acap_of standard fuel ns [Some out] = Exits out2 -> out2 = out.
Proof. exact output_again. Qed.
Print Assumptions C97_again.
Example C97_again_case : sorts isort_ns /\ parse_text isort_ns decode orders = Some orders_tree /\ Forall2 (fun s e => parse_text isort_ns decode s = Some e) standard_schema std_trees /\ workable 60 std_trees /\
  (plain orders_tree /\ printable [] orders_tree /\ tidy [] orders_tree /\ 9 * height orders_tree <= 60 /\ 3 * height orders_tree <= 3000) /\
  forall s, In s std_trees -> e_name s = xs "schema" /\ namespace_of s <> namespace_of orders_tree /\ namespace_of s <> "".
Proof. exact (conj isort_ns_sorts (conj orders_told (conj std_told (conj std_workable (conj orders_good std_apart))))). Qed.
Example C97_again_runs : run_deep "" [Some orders] = Exits orders_out /\ run_deep "" [Some orders_out] = Exits orders_out.
Proof. exact (conj orders_run orders_rerun). Qed.

(* A name space that is not a standard one makes no difference. *)
Theorem C97_ns_ignored : forall sortns dec grow agrow cap_of acap_of standard fuel ns files std,
  Forall2 (fun s e => parse_text sortns dec s = Some e) standard std ->
  (forall s, In s std -> namespace_of s <> ns) ->
  xsdparse sortns dec grow agrow cap_of acap_of standard fuel ns files = xsdparse sortns dec grow agrow cap_of acap_of standard fuel "" files.
Proof. exact ns_ignored. Qed.
Print Assumptions C97_ns_ignored.

(* "-ns: namespace of schema to print": schemas of others are printed too. *)
Theorem C97_ns_restricts_refuted : exists ns text out trees t,
  run_xsdparse ns [Some text] = Exits out /\ out = printed trees /\ In t trees /\ namespace_of t <> ns /\ ns <> "".
Proof. destruct service_both as (trees & t & H). exists "urn:a", service, service_out, trees, t. split; [exact service_a|]. destruct H as (A & B & C). split; [exact A|]. split; [exact B|]. split; [exact C|discriminate]. Qed.
Print Assumptions C97_ns_restricts_refuted.

(* No panic, as long as the schemas that come with the package can be parsed. *)
Theorem C97_no_panic : forall sortns dec grow agrow cap_of acap_of standard fuel ns files std,
  Forall2 (fun s e => parse_text sortns dec s = Some e) standard std ->
  xsdparse sortns dec grow agrow cap_of acap_of standard fuel ns files <> Panicked.
Proof. exact no_panic. Qed.
Print Assumptions C97_no_panic.

(* a document with two schemas inside, beside the four of the package *)
Example C97_parses : Forall2 (fun s e => parse_text isort_ns decode s = Some e) [service] service_trees /\ Forall2 (fun s e => parse_text isort_ns decode s = Some e) standard_schema std_trees /\ workable 30 (service_trees ++ std_trees).
Proof. exact (conj service_told (conj std_told service_workable)). Qed.
Example C97_runs : run_xsdparse "" [Some service] = Exits service_out.
Proof. exact service_exits. Qed.
Example C97_runs_ns : run_xsdparse "urn:a" [Some service] = Exits service_out.
Proof. exact service_a. Qed.
Example C97_shown : map namespace_of (filter (shown "http://www.w3.org/XML/1998/namespace" std_trees) (flat_map schemas_of (service_trees ++ std_trees))) = ["urn:a"; "urn:b"; "http://www.w3.org/XML/1998/namespace"].
Proof. exact service_shown_xml. Qed.
