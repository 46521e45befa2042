(* Command lines. *)
From Verif Require Import Base SortLib ScopeModel TreeModel EqualModel BuiltinModel CodecModel XsdModel TypesModel TypesExamples GenModel GenSpec GenProofs SgModel SgStruct SgExamples SliceModel SgGen SgGenExamples PipeModel PipeExamples FilesModel OptModel MethodModel CliModel CliSpec CliProofs CliExamples ArgsModel ArgsSpec ArgsProofs.
Local Open Scope string_scope.

(* any expression can be compiled but one *)
Definition some_regexp (s : string) : option ((string -> string -> string) * (string -> bool)) := if String.eqb s "(" then None else Some (double_a, fun _ => true).
Definition cars_args := ["-ns"; "urn:a"; "-pkg=first"; "--o=new.go"; "-vv"; "-v=F"; "--pkg"; "cars"; "-r"; " a -> b "; "base.xsd"; "-o"; "main.xsd"].
Definition cars_sets := [("ns", "urn:a"); ("pkg", "first"); ("o", "new.go"); ("vv", "true"); ("v", "F"); ("pkg", "cars"); ("r", " a -> b ")].
Lemma cars_line : line some_regexp formal_x cars_sets ["base.xsd"; "-o"; "main.xsd"] cars_args.
Proof. apply (flags_read some_regexp formal_x names_x). vm_compute. reflexivity. Qed.
Lemma cars_flags : args_x some_regexp cars_args = Some (mkFlags ["base.xsd"; "-o"; "main.xsd"] [(double_a, "b")] ["urn:a"] "cars" "new.go" false false true).
Proof. vm_compute. reflexivity. Qed.
Lemma bad_lines : args_x some_regexp ["-r"; "( -> x"; "a.xsd"] = None /\ args_x some_regexp ["-x"; "a.xsd"] = None /\ args_x some_regexp ["-v=maybe"; "a.xsd"] = None /\ args_x some_regexp ["a.xsd"; "-x"] <> None /\ args_x some_regexp ["-o"] = None /\ args_x some_regexp ["---o"; "x"] = None.
Proof. vm_compute. repeat split; try reflexivity. discriminate. Qed.
Definition run_xsdgen (args : list string) := match args_x no_regexp args with Some f => ex_cli ex_world 0 f | None => None end.
Lemma good_run : exists w', run_xsdgen ["-ns"; "urn:a"; "-pkg=cars"; "-o"; "new.go"; "--"; "base.xsd"; "main.xsd"] = Some (w', Ret tt) /\ w_files _ _ _ _ w' "new.go" = Some (Go_doc "cars" ["Sizes"; "Color"; "Car"; "xsdDate"]) /\ w_files _ _ _ _ w' "out.go" = Some (Go_doc "cars" ["Car"]).
Proof. eexists. split; [vm_compute; reflexivity|]. split; vm_compute; reflexivity. Qed.
(* the flag after the files: success, nothing in new.go, an empty package in the default output *)
Lemma late_flag : exists w', run_xsdgen ["base.xsd"; "main.xsd"; "-o"; "new.go"] = Some (w', Ret tt) /\ w_files _ _ _ _ w' "new.go" = None /\ w_files _ _ _ _ w' "xsdgen_output.go" = Some (Go_doc "" []) /\
  exists w'', run_xsdgen ["-o"; "new.go"; "base.xsd"; "main.xsd"] = Some (w'', Ret tt) /\ w_files _ _ _ _ w'' "new.go" = Some (Go_doc "" ["Color"; "Item"; "Sizes"; "Car"; "xsdDate"]).
Proof. eexists. split; [vm_compute; reflexivity|]. split; [vm_compute; reflexivity|]. split; [vm_compute; reflexivity|]. eexists. split; vm_compute; reflexivity. Qed.
Definition shop_args := ["-port"; "Shop"; "-c=A shop."; "-port=Till"; "-r"; "Array(.*)->${1}s"; "shop.wsdl"; "shop.xsd"].
Lemma shop_line : line some_regexp formal_w [("port", "Shop"); ("c", "A shop."); ("port", "Till"); ("r", "Array(.*)->${1}s")] ["shop.wsdl"; "shop.xsd"] shop_args /\
  args_w some_regexp shop_args = Some (mkWflags ["shop.wsdl"; "shop.xsd"] [("Array(.*)", "${1}s")] ["Shop"; "Till"] "" "A shop." "wsdlgen_output.go" false false).
Proof. split; [apply (flags_read some_regexp formal_w names_w)|]; vm_compute; reflexivity. Qed.
Lemma parse_args : args_p some_regexp ["-ns=urn:a"; "--ns"; "urn:b"; "-"; "b.xsd"] = Some ("urn:b", ["-"; "b.xsd"]) /\ args_p some_regexp ["-ns"; "urn:a"] = None.
Proof. split; vm_compute; reflexivity. Qed.
