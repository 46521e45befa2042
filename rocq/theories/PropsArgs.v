(* C101: the command lines of xsdgen, wsdlgen and xsdparse. *)
From Verif Require Import Base SortLib ScopeModel TreeModel EqualModel BuiltinModel CodecModel XsdModel TypesModel GenModel GenSpec SgModel SgStruct FilesModel OptModel MethodModel CliModel CliSpec CliExamples ArgsModel ArgsSpec ArgsProofs ArgsExamples.
Local Open Scope string_scope.

(* flags are read just as they are written, and nothing else is accepted *)
Theorem C101_flags compile formal args sets rest : (forall n, formal n <> None -> flag_name n) -> (parse_flags compile formal args = Some (sets, rest) <-> line compile formal sets rest args).
Proof. exact (fun H => flags_read compile formal H args sets rest). Qed.
Print Assumptions C101_flags.
Example C101_flags_case : ((forall n, formal_x n <> None -> flag_name n) /\ (forall n, formal_w n <> None -> flag_name n) /\ forall n, formal_p n <> None -> flag_name n) /\ line some_regexp formal_x cars_sets ["base.xsd"; "-o"; "main.xsd"] cars_args.
Proof. exact (conj (conj names_x (conj names_w names_p)) cars_line). Qed.
Example C101_flags_bad : args_x some_regexp ["-r"; "( -> x"; "a.xsd"] = None /\ args_x some_regexp ["-x"; "a.xsd"] = None /\ args_x some_regexp ["-v=maybe"; "a.xsd"] = None /\ args_x some_regexp ["a.xsd"; "-x"] <> None /\ args_x some_regexp ["-o"] = None /\ args_x some_regexp ["---o"; "x"] = None.
Proof. exact bad_lines. Qed.
(* xsdgen: either the process ends and the arguments are no command line, or GenCLI goes on with what the flags say *)
Theorem C101_xsdgen (T Sp Log : Type) compile (sat : T -> T) (sas : Sp -> Sp) (ufn : T -> T) (D A : Type) (tree : D -> option elem) (targets : list D -> list string) (refused : list string -> list D -> bool) (generate : xconf T Sp Log -> list Z * list string -> list D -> run A * (list Z * list string)) (format : A -> string -> option D) (writable : string -> bool) (fuel : nat) (w : world T Sp Log D) (i : nat) (c : xconf T Sp Log) (args : list string) :
  nth_error (w_confs _ _ _ _ w) i = Some c ->
  args_x compile args = None /\ (forall sets rest, ~ line compile formal_x sets rest args) \/
  exists sets rest f w' r out, line compile formal_x sets rest args /\ args_x compile args = Some f /\ says_x compile sets rest f /\ said "o" "xsdgen_output.go" sets out /\
    gen_cli T Sp Log compile sat sas ufn D A tree targets refused generate format writable fuel w i f = Some (w', r) /\
    (r <> Ret tt -> w_files _ _ _ _ w' = w_files _ _ _ _ w) /\ (rest = [] -> r = Fail /\ w' = w) /\
    (r = Ret tt -> exists d, forall n, w_files _ _ _ _ w' n = if String.eqb n out then Some d else w_files _ _ _ _ w n).
Proof. exact (xsdgen_does T Sp Log compile sat sas ufn D A tree targets refused generate format writable fuel w i c args). Qed.
Print Assumptions C101_xsdgen.
Example C101_xsdgen_case : args_x some_regexp cars_args = Some (mkFlags ["base.xsd"; "-o"; "main.xsd"] [(double_a, "b")] ["urn:a"] "cars" "new.go" false false true) /\
  exists w', run_xsdgen ["-ns"; "urn:a"; "-pkg=cars"; "-o"; "new.go"; "--"; "base.xsd"; "main.xsd"] = Some (w', Ret tt) /\ w_files _ _ _ _ w' "new.go" = Some (Go_doc "cars" ["Sizes"; "Color"; "Car"; "xsdDate"]) /\ w_files _ _ _ _ w' "out.go" = Some (Go_doc "cars" ["Car"]).
Proof. exact (conj cars_flags good_run). Qed.
Theorem C101_wsdlgen (T Sp Log : Type) compile (sat : T -> T) (sas : Sp -> Sp) (ufn : T -> T) (D A : Type) (targets : list D -> list string) (refused : list string -> list D -> bool) (generate : xconf T Sp Log -> list Z * list string -> list D -> run A * (list Z * list string)) (format : A -> string -> option D) (writable : string -> bool) (Def : Type) (wsdl_parse : D -> option Def) (emit : wconf Log -> Def -> A -> option A) (w : world T Sp Log D) (v : wconf Log) (args : list string) :
  args_w compile args = None /\ (forall sets rest, ~ line compile formal_w sets rest args) \/
  exists sets rest f out, line compile formal_w sets rest args /\ args_w compile args = Some f /\ says_w sets rest f /\ said "o" "wsdlgen_output.go" sets out /\
    forall w' v' r, wsdl_gen_cli T Sp Log compile sat sas ufn D A targets refused generate format writable Def wsdl_parse emit w v f = Some (w', v', r) ->
      (r <> Ret tt -> w_files _ _ _ _ w' = w_files _ _ _ _ w) /\
      (r = Ret tt -> rest <> [] /\ (forall n, In n rest -> w_files _ _ _ _ w n <> None) /\ exists d, forall n, w_files _ _ _ _ w' n = if String.eqb n out then Some d else w_files _ _ _ _ w n).
Proof. exact (wsdlgen_does T Sp Log compile sat sas ufn D A targets refused generate format writable Def wsdl_parse emit w v args). Qed.
Print Assumptions C101_wsdlgen.
Example C101_wsdlgen_case : line some_regexp formal_w [("port", "Shop"); ("c", "A shop."); ("port", "Till"); ("r", "Array(.*)->${1}s")] ["shop.wsdl"; "shop.xsd"] shop_args /\
  args_w some_regexp shop_args = Some (mkWflags ["shop.wsdl"; "shop.xsd"] [("Array(.*)", "${1}s")] ["Shop"; "Till"] "" "A shop." "wsdlgen_output.go" false false).
Proof. exact shop_line. Qed.
Theorem C101_xsdparse compile args ns files : args_p compile args = Some (ns, files) <-> exists sets, line compile formal_p sets files args /\ files <> [] /\ said "ns" "" sets ns.
Proof. exact (xsdparse_reads compile args ns files). Qed.
Print Assumptions C101_xsdparse.
Example C101_xsdparse_case : args_p some_regexp ["-ns=urn:a"; "--ns"; "urn:b"; "-"; "b.xsd"] = Some ("urn:b", ["-"; "b.xsd"]) /\ args_p some_regexp ["-ns"; "urn:a"] = None.
Proof. exact parse_args. Qed.
(* a command with -o F that succeeds need not write F: after the files -o is a file name, and xsdgen takes a file
   that is not there for no documents at all *)
Theorem C101_late_flag_refuted : exists w', run_xsdgen ["base.xsd"; "main.xsd"; "-o"; "new.go"] = Some (w', Ret tt) /\ w_files _ _ _ _ w' "new.go" = None /\ w_files _ _ _ _ w' "xsdgen_output.go" = Some (Go_doc "" []) /\
  exists w'', run_xsdgen ["-o"; "new.go"; "base.xsd"; "main.xsd"] = Some (w'', Ret tt) /\ w_files _ _ _ _ w'' "new.go" = Some (Go_doc "" ["Color"; "Item"; "Sizes"; "Car"; "xsdDate"]).
Proof. exact late_flag. Qed.
Print Assumptions C101_late_flag_refuted.
