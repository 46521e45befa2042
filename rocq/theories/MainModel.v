(* The commands xsdgen and wsdlgen (cmd/xsdgen/xsdgen.go:10-19, cmd/wsdlgen/wsdlgen.go:11-21; the function GenCLI of
   wsdlgen/cli.go:82-88 does the same), and GenSource (xsdgen/cli.go:98-104). What is written to standard error is
   left out. *)
From Verif Require Import Base ScopeModel TreeModel EqualModel BuiltinModel XsdModel TypesModel GenModel SgModel FilesModel OptModel MethodModel CliModel ArgsModel.
Local Open Scope string_scope.

(* how a process ends: by itself, by log.Fatal, by the package flag, by a panic, or not at all *)
Inductive ending := Fine | Failed | Usage | Crash | Forever.
Definition ends (r : run unit) : ending := match r with Ret _ => Fine | Fail => Failed | Panic => Crash | Loops => Forever end.

Section Main.
  Variables T Sp Log : Type.
  Variable compile : string -> option ((string -> string -> string) * (string -> bool)).
  Variable soap_array_type : T -> T.
  Variable soap_array_slice : Sp -> Sp.
  Variable use_field_names : T -> T.
  Variables D A : Type.
  Variable tree : D -> option elem.
  Variable targets : list D -> list string.
  Variable refused : list string -> list D -> bool.
  Variable generate : xconf T Sp Log -> list Z * list string -> list D -> run A * (list Z * list string).
  Variable format : A -> string -> option D.
  Variable writable : string -> bool.
  Variable fuel : nat.
  (* log.New(os.Stderr, "", 0) *)
  Variable stderr : Log.
  Notation opt := (OptModel.opt T Sp Log).
  Notation set_options := (CliModel.set_options T Sp Log compile soap_array_type soap_array_slice use_field_names D).
  Notation gen_ast := (CliModel.gen_ast T Sp Log compile soap_array_type soap_array_slice use_field_names D A tree targets refused generate fuel).
  Notation gen_cli := (CliModel.gen_cli T Sp Log compile soap_array_type soap_array_slice use_field_names D A tree targets refused generate format writable fuel).
  Notation world := (CliModel.world T Sp Log D).

  (* xsdgen/config.go:69-76 *)
  Definition default_x : list opt :=
    [IgnoreAttributes _ _ _ ["id"; "href"; "ref"; "offset"]; Replace _ _ _ "[._ \s-]" ""; PackageName _ _ _ "ws"; HandleSOAPArrayType _ _ _; SOAPArrayAsSlice _ _ _; UseFieldNames _ _ _].
  (* a process with one Config, all of it zero *)
  Definition fresh (files : string -> option D) : world := mkWorld _ _ _ _ [blank _ _ _] (fun _ => ([], [])) files.
  (* xsdgen.go:10-19: the files when it ends, and how *)
  Definition xsdgen_main (files : string -> option D) (args : list string) : (string -> option D) * ending :=
    match set_options (fresh files) 0 (default_x ++ [LogOutput _ _ _ (Some stderr)])%list with
    | None => (files, Crash)
    | Some w =>
        match args_x compile args with
        | None => (files, Usage)
        | Some f => match gen_cli w 0 f with Some (w', r) => (w_files _ _ _ _ w', ends r) | None => (files, Crash) end
        end
    end.
  (* cli.go:98-104; None: nil dereference *)
  Definition gen_source (w : world) (i : nat) (files : list string) : option (world * run D) :=
    match gen_ast w i files with
    | None => None
    | Some (w', Ret a) => Some (w', match format a "fixme.go" with Some d => Ret d | None => Fail end)
    | Some (w', Fail) => Some (w', Fail)
    | Some (w', Panic) => Some (w', Panic)
    | Some (w', Loops) => Some (w', Loops)
    end.

  Variable Def : Type.
  Variable wsdl_parse : D -> option Def.
  Variable emit : wconf Log -> Def -> A -> option A.
  Notation wset_options := (CliModel.wset_options T Sp Log compile soap_array_type soap_array_slice use_field_names D).
  Notation wsdl_gen_cli := (CliModel.wsdl_gen_cli T Sp Log compile soap_array_type soap_array_slice use_field_names D A targets refused generate format writable Def wsdl_parse emit).
  Notation wsdl_gen_ast := (CliModel.wsdl_gen_ast T Sp Log compile soap_array_type soap_array_slice use_field_names D A targets refused generate Def wsdl_parse emit).
  (* wsdlgen/cli.go:17-23; None: nil dereference *)
  Definition wsdl_gen_source (w : world) (v : wconf Log) (files : list string) : option (world * wconf Log * run D) :=
    match wsdl_gen_ast w v files with
    | None => None
    | Some (w', v', Ret a) => Some (w', v', match format a "fixme.go" with Some d => Ret d | None => Fail end)
    | Some (w', v', Fail) => Some (w', v', Fail)
    | Some (w', v', Panic) => Some (w', v', Panic)
    | Some (w', v', Loops) => Some (w', v', Loops)
    end.
  (* wsdlgen/config.go:61-65 *)
  Definition default_w : list (wopt Log) := [WPackageName _ "ws"; WInputThreshold _ 3; WOutputThreshold _ 2].
  Definition fresh_w : wconf Log := mkW _ "" "" None 0 0 None 0 0.
  (* wsdlgen.go:11-21 *)
  Definition wsdlgen_main (files : string -> option D) (args : list string) : (string -> option D) * ending :=
    match wset_options (fresh files) fresh_w (map inl default_w ++ map inr default_x ++ [inl (WLogOutput _ (Some stderr))])%list with
    | None => (files, Crash)
    | Some (w, v) =>
        match args_w compile args with
        | None => (files, Usage)
        | Some f => match wsdl_gen_cli w v f with Some (w', _, r) => (w_files _ _ _ _ w', ends r) | None => (files, Crash) end
        end
    end.
End Main.
