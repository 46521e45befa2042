(* Runs of the commands. *)
From Verif Require Import Base SortLib ScopeModel TreeModel EqualModel BuiltinModel CodecModel XsdModel TypesModel TypesExamples GenModel SgModel SgStruct SgExamples SliceModel SgGen SgGenExamples PipeModel PipeExamples FilesModel OptModel MethodModel CliModel CliSpec CliProofs CliExamples ArgsModel ArgsSpec ArgsProofs ArgsExamples MainModel MainSpec.
Local Open Scope string_scope.

(* two expressions: the separators, and "a" *)
Fixpoint unseparated (s r : string) : string := match s with "" => "" | String c s' => if existsb (Ascii.eqb c) ["."; "_"; " "; "-"]%char then r ++ unseparated s' r else String c (unseparated s' r) end.
Definition two_regexps (s : string) : option ((string -> string -> string) * (string -> bool)) :=
  if String.eqb s "[._ \s-]" then Some (unseparated, fun _ => true) else if String.eqb s "a" then Some (double_a, fun _ => true) else None.
Notation demo_xsdgen := (xsdgen_main unit unit unit two_regexps (fun x => x) (fun x => x) (fun x => x) doc (string * list string) (fun _ => None) (fun d => map rd_tns (rds d)) ex_refused ex_generate (fun a _ => Some (Go_doc (fst a) (snd a))) (fun n => negb (String.eqb n "/x")) 5 tt).
Notation demo_wsdlgen := (wsdlgen_main unit unit unit two_regexps (fun x => x) (fun x => x) (fun x => x) doc (string * list string) (fun d => map rd_tns (rds d)) ex_refused ex_generate (fun a _ => Some (Go_doc (fst a) (snd a))) (fun _ => true) tt unit (fun _ => Some tt) ex_emit).
Notation demo_source := (gen_source unit unit unit no_regexp (fun x => x) (fun x => x) (fun x => x) doc (string * list string) (fun _ => None) (fun d => map rd_tns (rds d)) ex_refused ex_generate (fun a _ => Some (Go_doc (fst a) (snd a))) 5).
Lemma runs : exists files', demo_xsdgen ex_files ["-ns"; "urn:a"; "-r"; "a -> ha"; "base.xsd"; "main.xsd"] = (files', Fine) /\
  files' "xsdgen_output.go" = Some (Go_doc "ws" ["Sizes"; "Color"; "Char"; "xsdDate"]) /\ files' "out.go" = ex_files "out.go" /\
  snd (demo_xsdgen ex_files ["-o"; "/x"; "base.xsd"; "main.xsd"]) = Failed /\ snd (demo_xsdgen ex_files ["-ns"; "urn:z"; "base.xsd"]) = Failed /\ snd (demo_xsdgen ex_files ["-pkg"; "cars"]) = Failed /\ snd (demo_xsdgen ex_files ["-port"; "Shop"; "base.xsd"]) = Usage.
Proof. eexists. split; [vm_compute; reflexivity|]. repeat split; vm_compute; reflexivity. Qed.
Lemma wruns : exists files', demo_wsdlgen ex_files ["-pkg=cars"; "base.xsd"; "main.xsd"] = (files', Fine) /\ files' "wsdlgen_output.go" = Some (Go_doc "Package cars; package cars" ["Color"; "Item"; "Sizes"; "Car"; "xsdDate"]) /\
  Forall2 (fun n x => ex_files n = Some x) ["base.xsd"; "main.xsd"] both_docs /\ demo_wsdlgen ex_files ["base.xsd"; "mian.xsd"] = (ex_files, Failed).
Proof. eexists. split; [vm_compute; reflexivity|]. split; [vm_compute; reflexivity|]. split; [repeat constructor|reflexivity]. Qed.
Lemma missing_file : exists files', demo_xsdgen ex_files ["-o"; "out.go"; "mian.xsd"] = (files', Fine) /\ ex_files "mian.xsd" = None /\ ex_files "out.go" = Some (Go_doc "cars" ["Car"]) /\ files' "out.go" = Some (Go_doc "ws" []).
Proof. eexists. split; [vm_compute; reflexivity|]. repeat split; vm_compute; reflexivity. Qed.
Lemma source_runs : exists w' w'' d, ex_cli ex_world 0 (mkFlags ["base.xsd"; "main.xsd"] [] ["urn:a"] "cars" "new.go" false false true) = Some (w', Ret tt) /\ demo_source w' 0 ["base.xsd"; "main.xsd"] = Some (w'', Ret d) /\ w_files _ _ _ _ w' "new.go" = Some d /\
  read_files doc (w_files _ _ _ _ w') (fun _ => None) 5 false ["base.xsd"; "main.xsd"] = read_files doc (w_files _ _ _ _ ex_world) (fun _ => None) 5 false ["base.xsd"; "main.xsd"].
Proof. do 3 eexists. split; [vm_compute; reflexivity|]. split; [vm_compute; reflexivity|]. split; vm_compute; reflexivity. Qed.
(* the second call finds the namespaces of the first *)
Lemma source_fails : exists w' w'' d, demo_source ex_world 0 ["base.xsd"; "main.xsd"] = Some (w', Ret d) /\ demo_source w' 0 ["base.xsd"] = Some (w'', Fail) /\ w_files _ _ _ _ w'' "out.go" = Some (Go_doc "cars" ["Car"]).
Proof. do 3 eexists. split; [vm_compute; reflexivity|]. split; vm_compute; reflexivity. Qed.
Notation demo_wsource := (wsdl_gen_source unit unit unit two_regexps (fun x => x) (fun x => x) (fun x => x) doc (string * list string) (fun d => map rd_tns (rds d)) ex_refused ex_generate (fun a _ => Some (Go_doc (fst a) (snd a))) unit (fun _ => Some tt) ex_emit).
Notation demo_wcli := (wsdl_gen_cli unit unit unit two_regexps (fun x => x) (fun x => x) (fun x => x) doc (string * list string) (fun d => map rd_tns (rds d)) ex_refused ex_generate (fun a _ => Some (Go_doc (fst a) (snd a))) (fun _ => true) unit (fun _ => Some tt) ex_emit).
Definition ex_v : wconf unit := mkW _ "" "" None 0 0 None 3 2.
Definition ex_wf : wflags := mkWflags ["base.xsd"; "main.xsd"] [] [] "cars" "" "new.go" false false.
Lemma wsource_runs : exists w' v' w'' d, demo_wcli ex_world ex_v ex_wf = Some (w', v', Ret tt) /\ demo_wsource w' v' ["base.xsd"; "main.xsd"] = Some (w'', v', Ret d) /\ w_files _ _ _ _ w' "new.go" = Some d /\ d = Go_doc "Package cars; package cars" ["Color"; "Item"; "Sizes"; "Car"; "xsdDate"] /\ ~ In (wf_out ex_wf) (wf_files ex_wf).
Proof. do 4 eexists. split; [vm_compute; reflexivity|]. split; [vm_compute; reflexivity|]. split; [vm_compute; reflexivity|]. split; [reflexivity|]. cbn. intuition discriminate. Qed.
Lemma wsource_cases : (exists w' v' d, demo_wsource ex_world ex_v ["base.xsd"; "main.xsd"] = Some (w', v', Ret d) /\ w_pkg _ v' = "ws" /\ w_header _ v' = "Package ws") /\ (exists w' v', demo_wsource ex_world ex_v ["base.xsd"; "mian.xsd"] = Some (w', v', Fail)).
Proof. split; [do 3 eexists|do 2 eexists]; vm_compute; repeat split; reflexivity. Qed.
