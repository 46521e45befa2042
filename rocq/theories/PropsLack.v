(* C109: what the errors of xsdgen tell. *)
From Verif Require Import Base ScopeModel TreeModel EqualModel BuiltinModel XsdModel TypesModel GenModel SgModel SgStruct SgTags SgProofs SgExamples SliceModel SgGen SgGenExamples LackModel LackSpec LackAll LackExamples.
Local Open Scope string_scope.

(* there is code only if there is nothing to tell, and an error only for the types that are told *)
Theorem C109_reported : forall public fa fe ft allow helpers slices st schemas,
  (forall ns, gen public fa fe ft allow helpers slices st schemas = Ret (inl ns) <->
     exists errs, errors_told public fa fe ft allow helpers st schemas = Ret errs /\ errs <> [] /\ ns = map fst errs) /\
  (forall c, gen public fa fe ft allow helpers slices st schemas = Ret (inr c) -> errors_told public fa fe ft allow helpers st schemas = Ret []).
Proof. exact gen_told. Qed.
Print Assumptions C109_reported.

(* what is told of a type is so, in the order of the types, and every type that lacks something is told *)
Theorem C109_told : forall public fa fe ft allow helpers types st errs specs st' errs' specs',
  schema_told public fa fe ft allow helpers (st, errs, specs) types = Ret (st', errs', specs') ->
  exists st0 l st1 new ts, flatten_types fa ft allow st types = Ret (st0, l) /\ expand_types st0 l = Ret st1 /\ grown st1 st' /\
    errs' = (errs ++ new)%list /\ subseq ts l /\
    Forall2 (fun t p => type_name st' t = Some (fst p) /\ lacking public fa fe helpers st' t (snd p)) ts new /\
    (forall t e, In t l -> lacking public fa fe helpers st1 t e -> In t ts).
Proof. exact schema_said. Qed.
Print Assumptions C109_told.

(* of a type that lacks several things one is told *)
Theorem C109_everything_refuted : exists st t e1 e2, lacking pub None None [] st t e1 /\ lacking pub None None [] st t e2 /\ e1 <> e2 /\
  exists n, errors_told pub None None None None [] st [[t]] = Ret [(n, e1)].
Proof. exact first_only. Qed.
Print Assumptions C109_everything_refuted.

(* the text has a line for each of them *)
Theorem C109_lines : forall is_print parser l, Forall (fun p => one_line (line_text is_print parser p)) l ->
  split_at "010" (list_text is_print parser l) = (map (line_text is_print parser) l ++ [""])%list.
Proof. exact text_lines. Qed.
Print Assumptions C109_lines.

Example C109_case : (exists st' sp, schema_told pub None None None None poor_helpers (poor, [], []) poor_types = Ret (st', poor_errors, sp)) /\
  errors_told pub None None None None poor_helpers poor [poor_types] = Ret poor_errors /\ gen pub None None None None poor_helpers false poor [poor_types] = Ret (inl (map fst poor_errors)).
Proof. exact (conj poor_step poor_told). Qed.
Example lack_texts : Forall (fun p => one_line (line_text printed "4:24: missing ','" p)) poor_errors /\
  list_text printed "4:24: missing ','" poor_errors = String.concat (String "010" "")
  ["gen type ""Switches"": MarshalText Switches: 4:24: missing ','";
   "gen type ""Order"": no helper type for type {urn:a Order} element {urn:a placed}";
   "gen type ""Day"": no helper type for Date";
   "gen type ""Noted"": missing helper type for Date";
   "gen type ""Blobs"": don't know how to marshal/unmarshal <list> of Base64Binary";
   "gen type ""Tagged"": no helper type for type {urn:a Tagged} attribute {urn:a made}"; ""].
Proof. exact (conj poor_lines poor_text). Qed.
