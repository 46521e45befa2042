(* C103: the commands xsdgen and wsdlgen as a whole, and GenSource. *)
From Verif Require Import Base SortLib ScopeModel TreeModel EqualModel BuiltinModel CodecModel XsdModel TypesModel GenModel SgModel SgStruct SliceModel SgGen PipeModel PipeExamples FilesModel OptModel MethodModel CliModel CliSpec CliExamples ArgsModel ArgsSpec MainModel MainSpec MainProofs MainExamples.
Local Open Scope string_scope.

Theorem C103_xsdgen (T Sp Log : Type) (compile : string -> option ((string -> string -> string) * (string -> bool))) (sat : T -> T) (sas : Sp -> Sp) (ufn : T -> T) (D A : Type) (tree : D -> option elem) (targets : list D -> list string) (refused : list string -> list D -> bool) (generate : xconf T Sp Log -> list Z * list string -> list D -> run A * (list Z * list string)) (format : A -> string -> option D) (writable : string -> bool) (fuel : nat) (stderr : Log) (files : string -> option D) (args : list string) :
  let main := xsdgen_main T Sp Log compile sat sas ufn D A tree targets refused generate format writable fuel stderr files args in
  (forall sets rest, ~ line compile formal_x sets rest args) /\ main = (files, Usage) \/
  exists sets rest f, line compile formal_x sets rest args /\ says_x compile sets rest f /\
    (rest = [] -> main = (files, Failed)) /\
    (rest <> [] -> match read_files D files tree fuel (fl_follow f) rest with
                   | Panic => main = (files, Crash)
                   | Loops => main = (files, Forever)
                   | r => let data := match r with Ret d => d | _ => [] end in
                          exists c, set_by T Sp Log compile sat sas ufn stderr f (targets data) c /\ main = carried_out T Sp Log D A refused generate format writable files c data (fun a => Some a) (fl_out f)
                   end).
Proof. exact (xsdgen_main_does T Sp Log compile sat sas ufn D A tree targets refused generate format writable fuel stderr files args). Qed.
Print Assumptions C103_xsdgen.
Theorem C103_files (T Sp Log : Type) (compile : string -> option ((string -> string -> string) * (string -> bool))) (sat : T -> T) (sas : Sp -> Sp) (ufn : T -> T) (D A : Type) (tree : D -> option elem) (targets : list D -> list string) (refused : list string -> list D -> bool) (generate : xconf T Sp Log -> list Z * list string -> list D -> run A * (list Z * list string)) (format : A -> string -> option D) (writable : string -> bool) (fuel : nat) (stderr : Log) (files : string -> option D) (args : list string) (files' : string -> option D) (e : ending) :
  xsdgen_main T Sp Log compile sat sas ufn D A tree targets refused generate format writable fuel stderr files args = (files', e) ->
  (e <> Fine -> files' = files) /\ exists out, (forall n, n <> out -> files' n = files n) /\ (e = Fine -> exists sets rest, line compile formal_x sets rest args /\ said "o" "xsdgen_output.go" sets out).
Proof. exact (xsdgen_files T Sp Log compile sat sas ufn D A tree targets refused generate format writable fuel stderr files args files' e). Qed.
Print Assumptions C103_files.
Example C103_case : exists files', demo_xsdgen ex_files ["-ns"; "urn:a"; "-r"; "a -> ha"; "base.xsd"; "main.xsd"] = (files', Fine) /\
  files' "xsdgen_output.go" = Some (Go_doc "ws" ["Sizes"; "Color"; "Char"; "xsdDate"]) /\ files' "out.go" = ex_files "out.go" /\
  snd (demo_xsdgen ex_files ["-o"; "/x"; "base.xsd"; "main.xsd"]) = Failed /\ snd (demo_xsdgen ex_files ["-ns"; "urn:z"; "base.xsd"]) = Failed /\ snd (demo_xsdgen ex_files ["-pkg"; "cars"]) = Failed /\ snd (demo_xsdgen ex_files ["-port"; "Shop"; "base.xsd"]) = Usage.
Proof. exact runs. Qed.
Theorem C103_wsdlgen (T Sp Log : Type) (compile : string -> option ((string -> string -> string) * (string -> bool))) (sat : T -> T) (sas : Sp -> Sp) (ufn : T -> T) (D A : Type) (targets : list D -> list string) (refused : list string -> list D -> bool) (generate : xconf T Sp Log -> list Z * list string -> list D -> run A * (list Z * list string)) (format : A -> string -> option D) (writable : string -> bool) (stderr : Log) (Def : Type) (wsdl_parse : D -> option Def) (emit : wconf Log -> Def -> A -> option A) (files : string -> option D) (args : list string) :
  let main := wsdlgen_main T Sp Log compile sat sas ufn D A targets refused generate format writable stderr Def wsdl_parse emit files args in
  (forall sets rest, ~ line compile formal_w sets rest args) /\ main = (files, Usage) \/
  exists sets rest f, line compile formal_w sets rest args /\ says_w sets rest f /\
    (rest = [] \/ (exists n, In n rest /\ files n = None) -> main = (files, Failed)) /\
    (forall d data, Forall2 (fun n x => files n = Some x) rest (d :: data) ->
       match wsdl_parse d with
       | None => main = (files, Failed)
       | Some def => exists v c, set_by_w T Sp Log compile sat sas ufn stderr f (targets (d :: data)) v c /\ main = carried_out T Sp Log D A refused generate format writable files c (d :: data) (emit v def) (wf_out f)
       end).
Proof. exact (wsdlgen_main_does T Sp Log compile sat sas ufn D A targets refused generate format writable stderr Def wsdl_parse emit files args). Qed.
Print Assumptions C103_wsdlgen.
Example C103_case_wsdlgen : exists files', demo_wsdlgen ex_files ["-pkg=cars"; "base.xsd"; "main.xsd"] = (files', Fine) /\ files' "wsdlgen_output.go" = Some (Go_doc "Package cars; package cars" ["Color"; "Item"; "Sizes"; "Car"; "xsdDate"]) /\
  Forall2 (fun n x => ex_files n = Some x) ["base.xsd"; "main.xsd"] both_docs /\ demo_wsdlgen ex_files ["base.xsd"; "mian.xsd"] = (ex_files, Failed).
Proof. exact wruns. Qed.
(* GenSource after GenCLI, with the same Config and files, returns what was written *)
Theorem C103_source (T Sp Log : Type) (compile : string -> option ((string -> string -> string) * (string -> bool))) (sat : T -> T) (sas : Sp -> Sp) (ufn : T -> T) (D A : Type) (tree : D -> option elem) (targets : list D -> list string) (refused : list string -> list D -> bool) (generate : xconf T Sp Log -> list Z * list string -> list D -> run A * (list Z * list string)) (format : A -> string -> option D) (writable : string -> bool) (fuel : nat) (w : world T Sp Log D) (i : nat) (f : flags) (c : xconf T Sp Log) (w' : world T Sp Log D) :
  nth_error (w_confs _ _ _ _ w) i = Some c -> (forall a n m, format a n = format a m) ->
  read_files D (w_files _ _ _ _ w') tree fuel (fl_follow f) (fl_files f) = read_files D (w_files _ _ _ _ w) tree fuel (fl_follow f) (fl_files f) ->
  gen_cli T Sp Log compile sat sas ufn D A tree targets refused generate format writable fuel w i f = Some (w', Ret tt) ->
  exists d w'', w_files _ _ _ _ w' (fl_out f) = Some d /\ gen_source T Sp Log compile sat sas ufn D A tree targets refused generate format fuel w' i (fl_files f) = Some (w'', Ret d) /\
    w_files _ _ _ _ w'' = w_files _ _ _ _ w' /\ w_confs _ _ _ _ w'' = w_confs _ _ _ _ w'.
Proof. exact (source_is_written T Sp Log compile sat sas ufn D A tree targets refused generate format writable fuel w i f c w'). Qed.
Print Assumptions C103_source.
Example C103_case_source : exists w' w'' d, ex_cli ex_world 0 (mkFlags ["base.xsd"; "main.xsd"] [] ["urn:a"] "cars" "new.go" false false true) = Some (w', Ret tt) /\ demo_source w' 0 ["base.xsd"; "main.xsd"] = Some (w'', Ret d) /\ w_files _ _ _ _ w' "new.go" = Some d /\
  read_files doc (w_files _ _ _ _ w') (fun _ => None) 5 false ["base.xsd"; "main.xsd"] = read_files doc (w_files _ _ _ _ ex_world) (fun _ => None) 5 false ["base.xsd"; "main.xsd"].
Proof. exact source_runs. Qed.
(* GenSource by itself: it fails only where the schemas are refused, or generating or formatting fails *)
Theorem C103_source_alone (T Sp Log : Type) (compile : string -> option ((string -> string -> string) * (string -> bool))) (sat : T -> T) (sas : Sp -> Sp) (ufn : T -> T) (D A : Type) (tree : D -> option elem) (targets : list D -> list string) (refused : list string -> list D -> bool) (generate : xconf T Sp Log -> list Z * list string -> list D -> run A * (list Z * list string)) (format : A -> string -> option D) (fuel : nat) (w : world T Sp Log D) (i : nat) (c : xconf T Sp Log) (fs : list string) :
  nth_error (w_confs _ _ _ _ w) i = Some c ->
  exists w' r, gen_source T Sp Log compile sat sas ufn D A tree targets refused generate format fuel w i fs = Some (w', r) /\ w_files _ _ _ _ w' = w_files _ _ _ _ w /\
    match read_files D (w_files _ _ _ _ w) tree fuel (x_follow _ _ _ c) fs with
    | Panic => r = Panic
    | Loops => r = Loops
    | got => let data := match got with Ret d => d | _ => [] end in
             exists c', c' = set_ns T Sp Log (match x_ns _ _ _ c with [] => targets data | l => l end) c /\
               (refused (x_ns _ _ _ c') data = true -> r = Fail) /\
               (refused (x_ns _ _ _ c') data = false ->
                match fst (generate c' (standard_types, standard_funcs) data) with
                | Ret a => (forall d, format a "fixme.go" = Some d -> r = Ret d) /\ (format a "fixme.go" = None -> r = Fail)
                | Fail => r = Fail
                | Panic => r = Panic
                | Loops => r = Loops
                end)
    end.
Proof. exact (source_does T Sp Log compile sat sas ufn D A tree targets refused generate format fuel w i c fs). Qed.
Print Assumptions C103_source_alone.
Example C103_case_source_alone : exists w' w'' d, demo_source ex_world 0 ["base.xsd"; "main.xsd"] = Some (w', Ret d) /\ demo_source w' 0 ["base.xsd"] = Some (w'', Fail) /\ w_files _ _ _ _ w'' "out.go" = Some (Go_doc "cars" ["Car"]).
Proof. exact source_fails. Qed.
(* the same for wsdlgen *)
Theorem C103_wsdl_source (T Sp Log : Type) (compile : string -> option ((string -> string -> string) * (string -> bool))) (sat : T -> T) (sas : Sp -> Sp) (ufn : T -> T) (D A : Type) (targets : list D -> list string) (refused : list string -> list D -> bool) (generate : xconf T Sp Log -> list Z * list string -> list D -> run A * (list Z * list string)) (format : A -> string -> option D) (writable : string -> bool) (Def : Type) (wsdl_parse : D -> option Def) (emit : wconf Log -> Def -> A -> option A) (w : world T Sp Log D) (v : wconf Log) (f : wflags) (c : xconf T Sp Log) (w' : world T Sp Log D) (v' : wconf Log) :
  nth_error (w_confs _ _ _ _ w) (w_x _ v) = Some c -> (forall a n m, format a n = format a m) -> ~ In (wf_out f) (wf_files f) ->
  wsdl_gen_cli T Sp Log compile sat sas ufn D A targets refused generate format writable Def wsdl_parse emit w v f = Some (w', v', Ret tt) ->
  exists d w'', w_files _ _ _ _ w' (wf_out f) = Some d /\ wsdl_gen_source T Sp Log compile sat sas ufn D A targets refused generate format Def wsdl_parse emit w' v' (wf_files f) = Some (w'', v', Ret d) /\
    w_files _ _ _ _ w'' = w_files _ _ _ _ w' /\ w_confs _ _ _ _ w'' = w_confs _ _ _ _ w'.
Proof. exact (wsource_is_written T Sp Log compile sat sas ufn D A targets refused generate format writable Def wsdl_parse emit w v f c w' v'). Qed.
Print Assumptions C103_wsdl_source.
Example C103_case_wsdl_source : exists w' v' w'' d, demo_wcli ex_world ex_v ex_wf = Some (w', v', Ret tt) /\ demo_wsource w' v' ["base.xsd"; "main.xsd"] = Some (w'', v', Ret d) /\ w_files _ _ _ _ w' "new.go" = Some d /\ d = Go_doc "Package cars; package cars" ["Color"; "Item"; "Sizes"; "Car"; "xsdDate"] /\ ~ In (wf_out ex_wf) (wf_files ex_wf).
Proof. exact wsource_runs. Qed.
Theorem C103_wsdl_source_alone (T Sp Log : Type) (compile : string -> option ((string -> string -> string) * (string -> bool))) (sat : T -> T) (sas : Sp -> Sp) (ufn : T -> T) (D A : Type) (targets : list D -> list string) (refused : list string -> list D -> bool) (generate : xconf T Sp Log -> list Z * list string -> list D -> run A * (list Z * list string)) (format : A -> string -> option D) (Def : Type) (wsdl_parse : D -> option Def) (emit : wconf Log -> Def -> A -> option A) (w : world T Sp Log D) (v : wconf Log) (c : xconf T Sp Log) (fs : list string) :
  nth_error (w_confs _ _ _ _ w) (w_x _ v) = Some c ->
  exists w' v' r, wsdl_gen_source T Sp Log compile sat sas ufn D A targets refused generate format Def wsdl_parse emit w v fs = Some (w', v', r) /\ w_files _ _ _ _ w' = w_files _ _ _ _ w /\
    (fs = [] \/ (exists n, In n fs /\ w_files _ _ _ _ w n = None) -> r = Fail) /\
    forall d data, Forall2 (fun n x => w_files _ _ _ _ w n = Some x) fs (d :: data) ->
      (w_pkg _ v' = (if String.eqb (w_pkg _ v) "" then "ws" else w_pkg _ v) /\ w_header _ v' = (if String.eqb (w_header _ v) "" then "Package " ++ w_pkg _ v' else w_header _ v) /\
       w_logger _ v' = w_logger _ v /\ w_level _ v' = w_level _ v /\ w_x _ v' = w_x _ v /\ w_ports _ v' = w_ports _ v /\ w_args _ v' = w_args _ v /\ w_returns _ v' = w_returns _ v) /\
      match wsdl_parse d with
      | None => r = Fail
      | Some def => exists c', c' = set_ns T Sp Log (match x_ns _ _ _ c with [] => targets (d :: data) | l => l end) c /\
          (refused (x_ns _ _ _ c') (d :: data) = true -> r = Fail) /\
          (refused (x_ns _ _ _ c') (d :: data) = false ->
           match fst (generate c' (standard_types, standard_funcs) (d :: data)) with
           | Ret a => (forall b x, emit v' def a = Some b -> format b "fixme.go" = Some x -> r = Ret x) /\
                      (emit v' def a = None \/ (exists b, emit v' def a = Some b /\ format b "fixme.go" = None) -> r = Fail)
           | Fail => r = Fail
           | Panic => r = Panic
           | Loops => r = Loops
           end)
      end.
Proof. exact (wsource_does T Sp Log compile sat sas ufn D A targets refused generate format Def wsdl_parse emit w v c fs). Qed.
Print Assumptions C103_wsdl_source_alone.
Example C103_case_wsdl_source_alone : (exists w' v' d, demo_wsource ex_world ex_v ["base.xsd"; "main.xsd"] = Some (w', v', Ret d) /\ w_pkg _ v' = "ws" /\ w_header _ v' = "Package ws") /\ (exists w' v', demo_wsource ex_world ex_v ["base.xsd"; "mian.xsd"] = Some (w', v', Fail)).
Proof. exact wsource_cases. Qed.
(* a file that is not there: the command succeeds, and the output is an empty package *)
Theorem C103_missing_file_refuted : exists files', demo_xsdgen ex_files ["-o"; "out.go"; "mian.xsd"] = (files', Fine) /\ ex_files "mian.xsd" = None /\ ex_files "out.go" = Some (Go_doc "cars" ["Car"]) /\ files' "out.go" = Some (Go_doc "ws" []).
Proof. exact missing_file. Qed.
Print Assumptions C103_missing_file_refuted.
