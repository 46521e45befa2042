(* A Config that is used more than once: cases and counterexamples. *)
From Verif Require Import Base SortLib ScopeModel TreeModel EqualModel BuiltinModel CodecModel XsdModel TypesModel TypesExamples GenModel SgModel SgStruct SgExamples SliceModel SgGen SgGenExamples PipeModel PipeExamples FilesModel OptModel MethodModel CliModel CliSpec CliProofs.
Local Open Scope string_scope.

(* a schema document, read and normalised, or generated code: the package and what it declares *)
Inductive doc := Schema_doc (r : rd) | Go_doc (pkg : string) (names : list string).
Definition rds (l : list doc) : list rd := flat_map (fun d => match d with Schema_doc r => [r] | Go_doc _ _ => [] end) l.
Notation xc := (xconf unit unit unit).
Definition ex_code (c : xc) (helpers : list Z) (data : list doc) : run coded :=
  PipeModel.gen_code (fun n => nlocal (transform _ _ _ c n)) (x_fa _ _ _ c) (x_fe _ _ _ c) (x_ft _ _ _ c) (x_allow _ _ _ c) helpers (match x_post _ _ _ c with Some _ => true | None => false end)
    as_is in_order (x_ns _ _ _ c) (map rd_tns (rds data)) (rds data).
Definition ex_refused (ns : list string) (data : list doc) : bool := match ex_code (set_ns _ _ _ ns (blank unit unit unit)) [] data with Ret Unparsed | Ret (Missing _) => true | _ => false end.
Definition ex_generate (c : xc) (h : list Z * list string) (data : list doc) : run (string * list string) * (list Z * list string) :=
  (match ex_code c (fst h) data with Ret (Coded k) => Ret (x_pkg _ _ _ c, map fst (co_decls k)) | Ret _ => Fail | Fail => Fail | Panic => Panic | Loops => Loops end, ([], [])).
Definition no_regexp (s : string) : option ((string -> string -> string) * (string -> bool)) := None.
Definition ex_files (n : string) : option doc := if String.eqb n "base.xsd" then Some (Schema_doc rd_base) else if String.eqb n "main.xsd" then Some (Schema_doc rd_main) else if String.eqb n "out.go" then Some (Go_doc "cars" ["Car"]) else None.
Definition ex_world : world unit unit unit doc := mkWorld _ _ _ _ [blank unit unit unit] (fun _ => ([], [])) ex_files.
Notation ex_gen := (CliModel.gen_code unit unit unit no_regexp (fun x => x) (fun x => x) (fun x => x) doc (string * list string) (fun d => map rd_tns (rds d)) ex_refused ex_generate).
Notation ex_answer := (CliSpec.answer unit unit unit no_regexp (fun x => x) (fun x => x) (fun x => x) doc (string * list string) (fun d => map rd_tns (rds d)) ex_refused ex_generate).
Notation ex_cli := (CliModel.gen_cli unit unit unit no_regexp (fun x => x) (fun x => x) (fun x => x) doc (string * list string) (fun _ => None) (fun d => map rd_tns (rds d)) ex_refused ex_generate (fun a _ => Some (Go_doc (fst a) (snd a))) (fun _ => true) 5).
Definition base_doc := [Schema_doc rd_base].
Definition both_docs := [Schema_doc rd_base; Schema_doc rd_main].
Definition other_doc := [Schema_doc (mkRd "urn:z" [] [])].

(* the same documents; other documents; the namespaces of other documents set *)
Lemma second_call : exists w' a, ex_gen ex_world 0 both_docs = Some (w', Ret a) /\ ex_answer w' 0 both_docs = Some (Ret a) /\
  ex_answer w' 0 base_doc = Some Fail /\ (exists b, ex_answer ex_world 0 base_doc = Some (Ret b)) /\ exists b, ex_answer (put_confs _ _ _ _ [set_ns _ _ _ [rd_tns rd_base] (blank unit unit unit)] w') 0 base_doc = Some (Ret b).
Proof. eexists. eexists. split; [vm_compute; reflexivity|]. split; [vm_compute; reflexivity|]. split; [vm_compute; reflexivity|]. split; eexists; vm_compute; reflexivity. Qed.
Definition named_world : world unit unit unit doc := mkWorld _ _ _ _ [set_ns _ _ _ ["urn:a"; "urn:b"] (blank unit unit unit)] (fun _ => ([], [])) ex_files.
Definition some_ops : list (op unit unit unit doc) := [Gen _ _ _ _ 0 both_docs; Set_ _ _ _ _ 0 (PackageName _ _ _ "cars"); Gen _ _ _ _ 0 base_doc; Set_ _ _ _ _ 0 (AllowType _ _ _ (mkName "urn:a" "Car")); Gen _ _ _ _ 0 both_docs].
Notation ex_named := (CliSpec.named unit unit unit no_regexp (fun x => x) (fun x => x) (fun x => x) doc (string * list string) (fun _ => None) (fun d => map rd_tns (rds d)) ex_refused ex_generate (fun a _ => Some (Go_doc (fst a) (snd a))) (fun _ => true) 5).
Notation ex_steps := (CliModel.steps unit unit unit no_regexp (fun x => x) (fun x => x) (fun x => x) doc (string * list string) (fun _ => None) (fun d => map rd_tns (rds d)) ex_refused ex_generate (fun a _ => Some (Go_doc (fst a) (snd a))) (fun _ => true) 5).
Lemma some_history : no_cli _ _ _ _ some_ops /\ ex_named named_world some_ops /\ exists w, ex_steps named_world some_ops = Some w /\ ex_answer w 0 both_docs = Some (Ret ("cars", ["Sizes"; "Color"; "Car"; "xsdDate"])).
Proof.
  split; [repeat constructor|]. split.
  - repeat (split; [try exact I; intros c [= <-]; discriminate|]; intros w' r E; vm_compute in E; injection E as <- <-). exact I.
  - eexists. split; [vm_compute; reflexivity|]. vm_compute. reflexivity.
Qed.
Definition flags_of (files : list string) (ns : list string) : flags := mkFlags files [] ns "" "out.go" false false false.
(* a misspelt file name: no error, and what was in the output is gone *)
Lemma lost_output : exists w' , ex_cli ex_world 0 (flags_of ["mian.xsd"; "base.xsd"] []) = Some (w', Ret tt) /\ w_files _ _ _ _ ex_world "out.go" = Some (Go_doc "cars" ["Car"]) /\ w_files _ _ _ _ w' "out.go" = Some (Go_doc "" []).
Proof. eexists. split; [vm_compute; reflexivity|]. split; vm_compute; reflexivity. Qed.
Lemma cli_runs : exists w', ex_cli ex_world 0 (mkFlags ["base.xsd"; "main.xsd"] [] ["urn:a"] "cars" "new.go" false false true) = Some (w', Ret tt) /\ w_files _ _ _ _ w' "new.go" = Some (Go_doc "cars" ["Sizes"; "Color"; "Car"; "xsdDate"]) /\ w_files _ _ _ _ w' "out.go" = Some (Go_doc "cars" ["Car"]).
Proof. eexists. split; [vm_compute; reflexivity|]. split; vm_compute; reflexivity. Qed.
(* the rule "a" -> "aa", by a Config used for two commands *)
Fixpoint double_a (s r : string) : string := match s with "" => "" | String c s' => if Ascii.eqb c "a" then r ++ double_a s' r else String c (double_a s' r) end.
Lemma rules_again : exists w1 w2 f c, f = mkFlags ["base.xsd"; "main.xsd"] [(double_a, "aa")] ["urn:a"] "" "new.go" false false false /\ ex_cli ex_world 0 f = Some (w1, Ret tt) /\ ex_cli w1 0 f = Some (w2, Ret tt) /\
  w_files _ _ _ _ w1 "new.go" = Some (Go_doc "" ["Sizes"; "Color"; "Caar"; "xsdDate"]) /\ w_files _ _ _ _ w2 "new.go" = Some (Go_doc "" ["Sizes"; "Color"; "Caaaar"; "xsdDate"]) /\ nth_error (w_confs _ _ _ _ w2) 0 = Some c /\ x_ns _ _ _ c = ["urn:a"].
Proof. do 4 eexists. split; [reflexivity|]. split; [vm_compute; reflexivity|]. split; [vm_compute; reflexivity|]. split; [vm_compute; reflexivity|]. split; [vm_compute; reflexivity|]. split; [vm_compute; reflexivity|reflexivity]. Qed.
(* Option(Namespaces(...)) before GenCLI *)
Lemma namespaces_lost : exists w' c, ex_cli (mkWorld _ _ _ _ [set_ns _ _ _ ["urn:a"] (blank unit unit unit)] (fun _ => ([], [])) ex_files) 0 (flags_of ["base.xsd"; "main.xsd"] []) = Some (w', Ret tt) /\
  nth_error (w_confs _ _ _ _ w') 0 = Some c /\ x_ns _ _ _ c = ["urn:b"; "urn:a"] /\ w_files _ _ _ _ w' "out.go" = Some (Go_doc "" ["Color"; "Item"; "Sizes"; "Car"; "xsdDate"]).
Proof. do 2 eexists. split; [vm_compute; reflexivity|]. split; [vm_compute; reflexivity|]. split; vm_compute; reflexivity. Qed.
(* wsdlgen: the comment made for the first package name *)
Definition ex_emit (v : wconf unit) (_ : unit) (a : string * list string) : option (string * list string) := Some (w_header _ v ++ "; package " ++ w_pkg _ v, snd a).
Notation ex_wsdl_cli := (CliModel.wsdl_gen_cli unit unit unit no_regexp (fun x => x) (fun x => x) (fun x => x) doc (string * list string) (fun d => map rd_tns (rds d)) ex_refused ex_generate (fun a _ => Some (Go_doc (fst a) (snd a))) (fun _ => true) unit (fun _ => Some tt) ex_emit).
Definition wflags_of (files : list string) (pkg : string) : wflags := mkWflags files [] [] pkg "" "new.go" false true.
Lemma stale_comment : exists w1 v1 w2 v2, ex_wsdl_cli ex_world (mkW unit "" "" None 0 0 None 0 0) (wflags_of ["base.xsd"; "main.xsd"] "first") = Some (w1, v1, Ret tt) /\
  ex_wsdl_cli w1 v1 (wflags_of ["base.xsd"; "main.xsd"] "second") = Some (w2, v2, Ret tt) /\
  w_files _ _ _ _ w1 "new.go" = Some (Go_doc "Package first; package first" ["Color"; "Item"; "Sizes"; "Car"; "xsdDate"]) /\ w_files _ _ _ _ w2 "new.go" = Some (Go_doc "Package first; package second" ["Color"; "Item"; "Sizes"; "Car"; "xsdDate"]).
Proof. do 4 eexists. split; [vm_compute; reflexivity|]. split; [vm_compute; reflexivity|]. split; vm_compute; reflexivity. Qed.
Lemma wsdl_unread : exists w1 v1, ex_wsdl_cli ex_world (mkW unit "" "" None 0 0 None 0 0) (wflags_of ["base.xsd"; "mian.xsd"] "") = Some (w1, v1, Fail) /\ w_pkg _ v1 = "ws".
Proof. do 2 eexists. split; vm_compute; reflexivity. Qed.
Lemma wsdl_leaves : exists w1 v1 c1 g, nth_error (w_confs _ _ _ _ ex_world) 0 <> None /\ ex_wsdl_cli ex_world (mkW unit "" "" None 0 0 None 0 0) (mkWflags ["base.xsd"; "main.xsd"] [] ["Shop"] "cars" "" "new.go" false true) = Some (w1, v1, Ret tt) /\
  w_pkg _ v1 = "cars" /\ w_header _ v1 = "Package cars" /\ w_level _ v1 = 5%Z /\ w_ports _ v1 = Some g /\ g "Shop" = true /\ g "Stop" = false /\ nth_error (w_confs _ _ _ _ w1) 0 = Some c1 /\ x_pkg _ _ _ c1 = "cars" /\ x_ns _ _ _ c1 = ["urn:b"; "urn:a"].
Proof. do 4 eexists. split; [vm_compute; discriminate|]. split; [vm_compute; reflexivity|]. repeat (split; [vm_compute; reflexivity|]). vm_compute. reflexivity. Qed.
