(* C56: the documents read with FollowImports, for every file system and every parser. *)
From Verif Require Import Base ScopeModel TreeModel XsdModel TypesModel SgModel SgStruct FilesModel FilesSpec FilesProofs FilesExamples.
Local Open Scope string_scope.

(* C56: exactly the documents needed, each after those it imports or includes; there is no cycle *)
Theorem C56_loaded D fs tree k files l : read_files D fs tree k true files = Ret l ->
  complete_list D fs tree files l /\ imports_first D fs tree l /\ (forall f, needed D fs tree files f -> readable D fs tree f) /\
  forall f, In f files -> Acc (uses D fs tree) f.
Proof. exact (read_spec D fs tree k files l). Qed.
Print Assumptions C56_loaded.
(* C56: without cycles reading ends, with an error exactly if a needed file cannot be read or parsed *)
Theorem C56_returns D fs tree files : (forall f, In f files -> Acc (uses D fs tree) f) -> exists K, forall k, K <= k ->
  ((forall f, needed D fs tree files f -> readable D fs tree f) -> exists l, read_files D fs tree k true files = Ret l) /\
  ((exists f, needed D fs tree files f /\ ~ readable D fs tree f) -> read_files D fs tree k true files = Fail).
Proof. exact (read_returns D fs tree files). Qed.
Print Assumptions C56_returns.
Example imports_acyclic f : In f ["a.xsd"] -> Acc (uses elem diamond Some) f.
Proof. exact (diamond_acc f). Qed.
Example imports_loaded : ns_of (read_files elem diamond Some 5 true ["a.xsd"]) = ["d"; "b"; "d"; "c"; "a"].
Proof. exact diamond_read. Qed.
(* C56: with a cycle reading never ends *)
Theorem C56_cycle D fs tree files f : (forall g, needed D fs tree files g -> readable D fs tree g) -> needed D fs tree files f -> cyclic D fs tree f f ->
  forall k, read_files D fs tree k true files = Loops.
Proof. exact (read_cycle D fs tree files f). Qed.
Print Assumptions C56_cycle.
Example ring_example : (forall f, needed elem ring Some ["a.xsd"] f -> readable elem ring Some f) /\ needed elem ring Some ["a.xsd"] "a.xsd" /\ cyclic elem ring Some "a.xsd" "a.xsd".
Proof. exact ring_ok. Qed.
(* without FollowImports: the files given, in order *)
Theorem C56_no_follow D fs tree k files : read_files D fs tree (S k) false files = match mapo fs files with Some l => Ret l | None => Fail end.
Proof. exact (read_plain D fs tree k files). Qed.
Print Assumptions C56_no_follow.
(* a document imported along two paths is loaded twice *)
Theorem C56_once_refuted : exists k l x l1 l2 l3, read_files elem diamond Some k true ["a.xsd"] = Ret l /\ l = (l1 ++ x :: l2 ++ x :: l3)%list.
Proof. exact diamond_twice. Qed.
Print Assumptions C56_once_refuted.
(* an import need not have a location; then reading fails *)
Theorem C56_no_location_refuted k : read_files elem bare_import Some (S (S k)) true ["a.xsd"] = Fail.
Proof. exact (bare_import_fails k). Qed.
Print Assumptions C56_no_location_refuted.
(* GenAST drops the error: it goes on as if no file had been given, and no namespace is then missing *)
Theorem C56_error_reported_refuted D A fs tree (gen_code : list D -> run A) files : (forall f, In f files -> Acc (uses D fs tree) f) ->
  (exists f, needed D fs tree files f /\ ~ readable D fs tree f) ->
  exists K, forall k, K <= k -> gen_ast_files D fs tree A gen_code k true files = gen_code [].
Proof. exact (error_lost fs tree gen_code files). Qed.
Print Assumptions C56_error_reported_refuted.
Theorem C56_nothing_missing_refuted deps tree : check_namespaces (lookup_target_ns elem tree []) deps = inr [].
Proof. exact (nothing_found deps tree). Qed.
Print Assumptions C56_nothing_missing_refuted.
