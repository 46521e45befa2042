(* C91: a Config over several calls of GenCode, GenAST and GenCLI. *)
From Verif Require Import Base SortLib ScopeModel TreeModel EqualModel BuiltinModel CodecModel XsdModel TypesModel TypesExamples GenModel SgModel SgStruct SgExamples SliceModel SgGen SgGenExamples PipeModel PipeExamples FilesModel OptModel MethodModel CliModel CliSpec CliProofs CliExamples.
Local Open Scope string_scope.

Theorem C91_history (T Sp Log : Type) (compile : string -> option ((string -> string -> string) * (string -> bool))) (sat : T -> T) (sas : Sp -> Sp) (ufn : T -> T) (D A : Type) (tree : D -> option elem) (targets : list D -> list string) (refused : list string -> list D -> bool) (generate : xconf T Sp Log -> list Z * list string -> list D -> run A * (list Z * list string)) (format : A -> string -> option D) (writable : string -> bool) (fuel : nat) (l : list (op T Sp Log D)) (w w' : world T Sp Log D) :
  no_cli T Sp Log D l -> named T Sp Log compile sat sas ufn D A tree targets refused generate format writable fuel w l -> steps T Sp Log compile sat sas ufn D A tree targets refused generate format writable fuel w l = Some w' ->
  exists u, steps T Sp Log compile sat sas ufn D A tree targets refused generate format writable fuel w (settings T Sp Log D l) = Some u /\ w_confs _ _ _ _ u = w_confs _ _ _ _ w' /\
    forall i data, answer T Sp Log compile sat sas ufn D A targets refused generate w' i data = answer T Sp Log compile sat sas ufn D A targets refused generate u i data.
Proof. exact (history_does_not_matter T Sp Log compile sat sas ufn D A tree targets refused generate format writable fuel l w w'). Qed.
Print Assumptions C91_history.
Theorem C91_repeated (T Sp Log : Type) (compile : string -> option ((string -> string -> string) * (string -> bool))) (sat : T -> T) (sas : Sp -> Sp) (ufn : T -> T) (D A : Type) (targets : list D -> list string) (refused : list string -> list D -> bool) (generate : xconf T Sp Log -> list Z * list string -> list D -> run A * (list Z * list string)) (w : world T Sp Log D) (i : nat) (data : list D) (w' : world T Sp Log D) (r : run A) :
  CliModel.gen_code T Sp Log compile sat sas ufn D A targets refused generate w i data = Some (w', r) -> answer T Sp Log compile sat sas ufn D A targets refused generate w' i data = Some r /\
  exists w'', CliModel.gen_code T Sp Log compile sat sas ufn D A targets refused generate w' i data = Some (w'', r) /\ w_confs _ _ _ _ w'' = w_confs _ _ _ _ w' /\ w_files _ _ _ _ w'' = w_files _ _ _ _ w.
Proof. exact (repeated T Sp Log compile sat sas ufn D A targets refused generate w i data w' r). Qed.
Print Assumptions C91_repeated.
Theorem C91_apart (T Sp Log : Type) (compile : string -> option ((string -> string -> string) * (string -> bool))) (sat : T -> T) (sas : Sp -> Sp) (ufn : T -> T) (D A : Type) (targets : list D -> list string) (refused : list string -> list D -> bool) (generate : xconf T Sp Log -> list Z * list string -> list D -> run A * (list Z * list string)) (w : world T Sp Log D) (i : nat) (data : list D) (w' : world T Sp Log D) (r : run A) :
  CliModel.gen_code T Sp Log compile sat sas ufn D A targets refused generate w i data = Some (w', r) -> forall j, j <> i -> nth_error (w_confs _ _ _ _ w') j = nth_error (w_confs _ _ _ _ w) j /\ w_left _ _ _ _ w' j = w_left _ _ _ _ w j.
Proof. exact (apart T Sp Log compile sat sas ufn D A targets refused generate w i data w' r). Qed.
Print Assumptions C91_apart.
Theorem C91_remembered (T Sp Log : Type) (compile : string -> option ((string -> string -> string) * (string -> bool))) (sat : T -> T) (sas : Sp -> Sp) (ufn : T -> T) (D A : Type) (targets : list D -> list string) (refused : list string -> list D -> bool) (generate : xconf T Sp Log -> list Z * list string -> list D -> run A * (list Z * list string)) (w : world T Sp Log D) (i : nat) (data : list D) (c : xconf T Sp Log) (w' : world T Sp Log D) (r : run A) :
  nth_error (w_confs _ _ _ _ w) i = Some c -> x_ns _ _ _ c = [] -> CliModel.gen_code T Sp Log compile sat sas ufn D A targets refused generate w i data = Some (w', r) ->
  nth_error (w_confs _ _ _ _ w') i = Some (set_ns _ _ _ (targets data) c) /\ (forall j, j <> i -> nth_error (w_confs _ _ _ _ w') j = nth_error (w_confs _ _ _ _ w) j) /\ w_files _ _ _ _ w' = w_files _ _ _ _ w /\
  forall data', refused (targets data) data' = true -> targets data <> [] -> answer T Sp Log compile sat sas ufn D A targets refused generate w' i data' = Some Fail.
Proof. exact (remembered T Sp Log compile sat sas ufn D A targets refused generate w i data c w' r). Qed.
Print Assumptions C91_remembered.
Theorem C91_cli (T Sp Log : Type) (compile : string -> option ((string -> string -> string) * (string -> bool))) (sat : T -> T) (sas : Sp -> Sp) (ufn : T -> T) (D A : Type) (tree : D -> option elem) (targets : list D -> list string) (refused : list string -> list D -> bool) (generate : xconf T Sp Log -> list Z * list string -> list D -> run A * (list Z * list string)) (format : A -> string -> option D) (writable : string -> bool) (fuel : nat) (w : world T Sp Log D) (i : nat) (f : flags) (c : xconf T Sp Log) :
  nth_error (w_confs _ _ _ _ w) i = Some c -> exists w' r, gen_cli T Sp Log compile sat sas ufn D A tree targets refused generate format writable fuel w i f = Some (w', r) /\
    (r <> Ret tt -> w_files _ _ _ _ w' = w_files _ _ _ _ w) /\
    (r = Ret tt -> exists a d, format a (fl_out f) = Some d /\ writable (fl_out f) = true /\ forall n, w_files _ _ _ _ w' n = if String.eqb n (fl_out f) then Some d else w_files _ _ _ _ w n) /\
    (forall j, j <> i -> nth_error (w_confs _ _ _ _ w') j = nth_error (w_confs _ _ _ _ w) j) /\
    (fl_files f = [] -> w' = w /\ r = Fail) /\
    (fl_files f <> [] -> exists c', nth_error (w_confs _ _ _ _ w') i = Some c' /\ left_by T Sp Log D targets f c c').
Proof. exact (cli_does T Sp Log compile sat sas ufn D A tree targets refused generate format writable fuel w i f c). Qed.
Print Assumptions C91_cli.
Theorem C91_cli_fresh (T Sp Log : Type) (compile : string -> option ((string -> string -> string) * (string -> bool))) (sat : T -> T) (sas : Sp -> Sp) (ufn : T -> T) (D A : Type) (tree : D -> option elem) (targets : list D -> list string) (refused : list string -> list D -> bool) (generate : xconf T Sp Log -> list Z * list string -> list D -> run A * (list Z * list string)) (format : A -> string -> option D) (writable : string -> bool) (fuel : nat) (w u : world T Sp Log D) (i : nat) (f : flags) (c : xconf T Sp Log) (n : list string) (b : bool) :
  nth_error (w_confs _ _ _ _ w) i = Some c -> nth_error (w_confs _ _ _ _ u) i = Some (set_ns _ _ _ n (set_follow _ _ _ b c)) -> w_files _ _ _ _ w = w_files _ _ _ _ u ->
  exists w' u' r, gen_cli T Sp Log compile sat sas ufn D A tree targets refused generate format writable fuel w i f = Some (w', r) /\ gen_cli T Sp Log compile sat sas ufn D A tree targets refused generate format writable fuel u i f = Some (u', r) /\ forall m, w_files _ _ _ _ w' m = w_files _ _ _ _ u' m.
Proof. exact (cli_fresh T Sp Log compile sat sas ufn D A tree targets refused generate format writable fuel w u i f c n b). Qed.
Print Assumptions C91_cli_fresh.
Theorem C91_wsdl (T Sp Log : Type) (compile : string -> option ((string -> string -> string) * (string -> bool))) (sat : T -> T) (sas : Sp -> Sp) (ufn : T -> T) (D A : Type) (targets : list D -> list string) (refused : list string -> list D -> bool) (generate : xconf T Sp Log -> list Z * list string -> list D -> run A * (list Z * list string)) (format : A -> string -> option D) (writable : string -> bool) (Def : Type) (wsdl_parse : D -> option Def) (emit : wconf Log -> Def -> A -> option A) (w : world T Sp Log D) (v : wconf Log) (f : wflags) (w' : world T Sp Log D) (v' : wconf Log) (r : run unit) :
  wsdl_gen_cli T Sp Log compile sat sas ufn D A targets refused generate format writable Def wsdl_parse emit w v f = Some (w', v', r) -> (r <> Ret tt -> w_files _ _ _ _ w' = w_files _ _ _ _ w) /\
  (r = Ret tt -> (exists a d, format a (wf_out f) = Some d /\ writable (wf_out f) = true /\ forall n, w_files _ _ _ _ w' n = if String.eqb n (wf_out f) then Some d else w_files _ _ _ _ w n) /\
     wf_files f <> [] /\ forall n, In n (wf_files f) -> w_files _ _ _ _ w n <> None).
Proof. exact (wsdl_cli_does T Sp Log compile sat sas ufn D A targets refused generate format writable Def wsdl_parse emit w v f w' v' r). Qed.
Print Assumptions C91_wsdl.
Theorem C91_wsdl_left (T Sp Log : Type) (compile : string -> option ((string -> string -> string) * (string -> bool))) (sat : T -> T) (sas : Sp -> Sp) (ufn : T -> T) (D A : Type) (targets : list D -> list string) (refused : list string -> list D -> bool) (generate : xconf T Sp Log -> list Z * list string -> list D -> run A * (list Z * list string)) (format : A -> string -> option D) (writable : string -> bool) (Def : Type) (wsdl_parse : D -> option Def) (emit : wconf Log -> Def -> A -> option A) (w : world T Sp Log D) (v : wconf Log) (f : wflags) (c : xconf T Sp Log) :
  nth_error (w_confs _ _ _ _ w) (w_x _ v) = Some c -> exists w' v' r, wsdl_gen_cli T Sp Log compile sat sas ufn D A targets refused generate format writable Def wsdl_parse emit w v f = Some (w', v', r) /\
    (wf_files f = [] -> w' = w /\ v' = v /\ r = Fail) /\
    (forall j, j <> w_x _ v -> nth_error (w_confs _ _ _ _ w') j = nth_error (w_confs _ _ _ _ w) j) /\
    (wf_files f <> [] -> wsdl_left Log f v v' /\ exists c', nth_error (w_confs _ _ _ _ w') (w_x _ v) = Some c' /\ xsd_left T Sp Log compile D targets f c c').
Proof. exact (wsdl_cli_left T Sp Log compile sat sas ufn D A targets refused generate format writable Def wsdl_parse emit w v f c). Qed.
Print Assumptions C91_wsdl_left.
Theorem C91_other_documents_refuted :
  exists w' a, ex_gen ex_world 0 both_docs = Some (w', Ret a) /\ ex_answer w' 0 both_docs = Some (Ret a) /\
  ex_answer w' 0 CliExamples.base_doc = Some Fail /\ (exists b, ex_answer ex_world 0 CliExamples.base_doc = Some (Ret b)) /\
  exists b, ex_answer (put_confs _ _ _ _ [set_ns _ _ _ [rd_tns rd_base] (blank unit unit unit)] w') 0 CliExamples.base_doc = Some (Ret b).
Proof. exact second_call. Qed.
Print Assumptions C91_other_documents_refuted.
Theorem C91_unreadable_refuted :
  exists w', ex_cli ex_world 0 (flags_of ["mian.xsd"; "base.xsd"] []) = Some (w', Ret tt) /\ w_files _ _ _ _ ex_world "out.go" = Some (Go_doc "cars" ["Car"]) /\ w_files _ _ _ _ w' "out.go" = Some (Go_doc "" []).
Proof. exact lost_output. Qed.
Print Assumptions C91_unreadable_refuted.
Theorem C91_rules_refuted :
  exists w1 w2 f c, f = mkFlags ["base.xsd"; "main.xsd"] [(double_a, "aa")] ["urn:a"] "" "new.go" false false false /\ ex_cli ex_world 0 f = Some (w1, Ret tt) /\ ex_cli w1 0 f = Some (w2, Ret tt) /\
  w_files _ _ _ _ w1 "new.go" = Some (Go_doc "" ["Sizes"; "Color"; "Caar"; "xsdDate"]) /\ w_files _ _ _ _ w2 "new.go" = Some (Go_doc "" ["Sizes"; "Color"; "Caaaar"; "xsdDate"]) /\ nth_error (w_confs _ _ _ _ w2) 0 = Some c /\ x_ns _ _ _ c = ["urn:a"].
Proof. exact rules_again. Qed.
Print Assumptions C91_rules_refuted.
Theorem C91_namespaces_refuted :
  exists w' c, ex_cli (mkWorld _ _ _ _ [set_ns _ _ _ ["urn:a"] (blank unit unit unit)] (fun _ => ([], [])) ex_files) 0 (flags_of ["base.xsd"; "main.xsd"] []) = Some (w', Ret tt) /\
  nth_error (w_confs _ _ _ _ w') 0 = Some c /\ x_ns _ _ _ c = ["urn:b"; "urn:a"] /\ w_files _ _ _ _ w' "out.go" = Some (Go_doc "" ["Color"; "Item"; "Sizes"; "Car"; "xsdDate"]).
Proof. exact namespaces_lost. Qed.
Print Assumptions C91_namespaces_refuted.
Theorem C91_comment_refuted :
  exists w1 v1 w2 v2, ex_wsdl_cli ex_world (mkW unit "" "" None 0 0 None 0 0) (wflags_of ["base.xsd"; "main.xsd"] "first") = Some (w1, v1, Ret tt) /\
  ex_wsdl_cli w1 v1 (wflags_of ["base.xsd"; "main.xsd"] "second") = Some (w2, v2, Ret tt) /\
  w_files _ _ _ _ w1 "new.go" = Some (Go_doc "Package first; package first" ["Color"; "Item"; "Sizes"; "Car"; "xsdDate"]) /\ w_files _ _ _ _ w2 "new.go" = Some (Go_doc "Package first; package second" ["Color"; "Item"; "Sizes"; "Car"; "xsdDate"]).
Proof. exact stale_comment. Qed.
Print Assumptions C91_comment_refuted.
Example C91_case : no_cli _ _ _ _ some_ops /\ ex_named named_world some_ops /\ exists w, ex_steps named_world some_ops = Some w /\ ex_answer w 0 both_docs = Some (Ret ("cars", ["Sizes"; "Color"; "Car"; "xsdDate"])).
Proof. exact some_history. Qed.
Example C91_case_cli : exists w', ex_cli ex_world 0 (mkFlags ["base.xsd"; "main.xsd"] [] ["urn:a"] "cars" "new.go" false false true) = Some (w', Ret tt) /\ w_files _ _ _ _ w' "new.go" = Some (Go_doc "cars" ["Sizes"; "Color"; "Car"; "xsdDate"]) /\ w_files _ _ _ _ w' "out.go" = Some (Go_doc "cars" ["Car"]).
Proof. exact cli_runs. Qed.
Example C91_case_wsdl : exists w1 v1, ex_wsdl_cli ex_world (mkW unit "" "" None 0 0 None 0 0) (wflags_of ["base.xsd"; "mian.xsd"] "") = Some (w1, v1, Fail) /\ w_pkg _ v1 = "ws".
Proof. exact wsdl_unread. Qed.
Example C91_case_wsdl_left : exists w1 v1 c1 g, nth_error (w_confs _ _ _ _ ex_world) 0 <> None /\ ex_wsdl_cli ex_world (mkW unit "" "" None 0 0 None 0 0) (mkWflags ["base.xsd"; "main.xsd"] [] ["Shop"] "cars" "" "new.go" false true) = Some (w1, v1, Ret tt) /\
  w_pkg _ v1 = "cars" /\ w_header _ v1 = "Package cars" /\ w_level _ v1 = 5%Z /\ w_ports _ v1 = Some g /\ g "Shop" = true /\ g "Stop" = false /\ nth_error (w_confs _ _ _ _ w1) 0 = Some c1 /\ x_pkg _ _ _ c1 = "cars" /\ x_ns _ _ _ c1 = ["urn:b"; "urn:a"].
Proof. exact wsdl_leaves. Qed.
