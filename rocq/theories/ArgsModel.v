(* Command lines: FlagSet.Parse of Go's package flag (flag.go, parseOne), as used by xsdgen's and wsdlgen's GenCLI
   (xsdgen/cli.go:103-126, wsdlgen/cli.go:28-45) and by xsdparse (cmd/xsdparse/xsdparse.go:14-23), and what the flags
   of xsdgen and wsdlgen become. The messages written to standard error are left out, and so is the exit status:
   all three stop the process on an error (flag.ExitOnError) and on -h. *)
From Verif Require Import Base ScopeModel TreeModel EqualModel BuiltinModel XsdModel TypesModel GenModel SgModel FilesModel OptModel MethodModel CliModel.
Local Open Scope string_scope.

(* the flags are of types bool, string or commandline.Strings, and commandline.ReplaceRuleList *)
Inductive kind := KBool | KText | KRule.
(* strconv.ParseBool *)
Definition parse_bool (s : string) : option bool :=
  if existsb (String.eqb s) ["1"; "t"; "T"; "TRUE"; "true"; "True"] then Some true
  else if existsb (String.eqb s) ["0"; "f"; "F"; "FALSE"; "false"; "False"] then Some false else None.
(* one argument: no flag, the end of the flags, a syntax error, or the name of a flag and its value if there is one *)
Inductive word := WArg | WEnd | WBad | WFlag (name : string) (value : option string).
(* at the first = *)
Fixpoint cut (s : string) : string * option string :=
  match s with
  | "" => ("", None)
  | String c s' => if Ascii.eqb c "=" then ("", Some s') else let (a, v) := cut s' in (String c a, v)
  end.
Definition flag_of (n : string) : word :=
  match n with
  | "" => WBad
  | String c s => if Ascii.eqb c "-" || Ascii.eqb c "=" then WBad else let (a, v) := cut s in WFlag (String c a) v
  end.
Definition word_of (s : string) : word :=
  match s with
  | String c (String c' s') =>
      if negb (Ascii.eqb c "-") then WArg
      else if Ascii.eqb c' "-" then (if String.eqb s' "" then WEnd else flag_of s') else flag_of (String c' s')
  | _ => WArg
  end.
Section Flags.
  Variable compile : string -> option ((string -> string -> string) * (string -> bool)).
  Definition compiles (s : string) : bool := match compile s with Some _ => true | None => false end.
  (* Value.Set returns nil *)
  Definition accepts (k : kind) (v : string) : bool :=
    match k with KBool => match parse_bool v with Some _ => true | None => false end | KText => true | KRule => snd (rule_set compiles [] v) end.
  Variable formal : string -> option kind.
  (* the flags that were set, in order, and the arguments that are left; None: the process ends *)
  Fixpoint parse_flags (args : list string) : option (list (string * string) * list string) :=
    let more x r := match r with Some (sets, rest) => Some (x :: sets, rest) | None => None end in
    match args with
    | [] => Some ([], [])
    | s :: rest =>
        match word_of s with
        | WArg => Some ([], args)
        | WEnd => Some ([], rest)
        | WBad => None
        | WFlag n v =>
            match formal n, v with
            | None, _ => None
            | Some k, Some x => if accepts k x then more (n, x) (parse_flags rest) else None
            | Some KBool, None => more (n, "true") (parse_flags rest)
            | Some k, None => match rest with [] => None | x :: rest' => if accepts k x then more (n, x) (parse_flags rest') else None end
            end
        end
    end.
End Flags.

(* xsdgen/cli.go:104-116 *)
Definition formal_x (n : string) : option kind :=
  if existsb (String.eqb n) ["pkg"; "o"; "ns"] then Some KText else if existsb (String.eqb n) ["f"; "v"; "vv"] then Some KBool else if String.eqb n "r" then Some KRule else None.
(* wsdlgen/cli.go:29-40 *)
Definition formal_w (n : string) : option kind :=
  if existsb (String.eqb n) ["pkg"; "c"; "o"; "port"] then Some KText else if existsb (String.eqb n) ["v"; "vv"] then Some KBool else if String.eqb n "r" then Some KRule else None.
(* xsdparse.go:15 *)
Definition formal_p (n : string) : option kind := if String.eqb n "ns" then Some KText else None.
(* boolValue.Set *)
Definition set_bool (old : bool) (v : string) : bool := match parse_bool v with Some b => b | None => old end.
Section Commands.
  Variable compile : string -> option ((string -> string -> string) * (string -> bool)).
  Notation rules_of r v := (rule_set (compiles compile) r v).
  (* the expressions of the rules, compiled *)
  Definition compiled (r : rule) : list ((string -> string -> string) * string) := match compile (fst r) with Some (rx, _) => [(rx, snd r)] | None => [] end.
  Definition set_x (f : flags) (s : string * string) : flags :=
    let (n, v) := s in
    if String.eqb n "pkg" then mkFlags (fl_files f) (fl_rules f) (fl_ns f) v (fl_out f) (fl_follow f) (fl_v f) (fl_vv f)
    else if String.eqb n "o" then mkFlags (fl_files f) (fl_rules f) (fl_ns f) (fl_pkg f) v (fl_follow f) (fl_v f) (fl_vv f)
    else if String.eqb n "ns" then mkFlags (fl_files f) (fl_rules f) (strings_set (fl_ns f) v) (fl_pkg f) (fl_out f) (fl_follow f) (fl_v f) (fl_vv f)
    else if String.eqb n "f" then mkFlags (fl_files f) (fl_rules f) (fl_ns f) (fl_pkg f) (fl_out f) (set_bool (fl_follow f) v) (fl_v f) (fl_vv f)
    else if String.eqb n "v" then mkFlags (fl_files f) (fl_rules f) (fl_ns f) (fl_pkg f) (fl_out f) (fl_follow f) (set_bool (fl_v f) v) (fl_vv f)
    else if String.eqb n "vv" then mkFlags (fl_files f) (fl_rules f) (fl_ns f) (fl_pkg f) (fl_out f) (fl_follow f) (fl_v f) (set_bool (fl_vv f) v)
    else mkFlags (fl_files f) (fl_rules f ++ flat_map compiled (fst (rules_of [] v)))%list (fl_ns f) (fl_pkg f) (fl_out f) (fl_follow f) (fl_v f) (fl_vv f).
  Definition flags_x (sets : list (string * string)) (rest : list string) : flags := fold_left set_x sets (mkFlags rest [] [] "" "xsdgen_output.go" false false false).
  Definition set_w (f : wflags) (s : string * string) : wflags :=
    let (n, v) := s in
    if String.eqb n "pkg" then mkWflags (wf_files f) (wf_rules f) (wf_ports f) v (wf_comment f) (wf_out f) (wf_v f) (wf_vv f)
    else if String.eqb n "c" then mkWflags (wf_files f) (wf_rules f) (wf_ports f) (wf_pkg f) v (wf_out f) (wf_v f) (wf_vv f)
    else if String.eqb n "o" then mkWflags (wf_files f) (wf_rules f) (wf_ports f) (wf_pkg f) (wf_comment f) v (wf_v f) (wf_vv f)
    else if String.eqb n "port" then mkWflags (wf_files f) (wf_rules f) (strings_set (wf_ports f) v) (wf_pkg f) (wf_comment f) (wf_out f) (wf_v f) (wf_vv f)
    else if String.eqb n "v" then mkWflags (wf_files f) (wf_rules f) (wf_ports f) (wf_pkg f) (wf_comment f) (wf_out f) (set_bool (wf_v f) v) (wf_vv f)
    else if String.eqb n "vv" then mkWflags (wf_files f) (wf_rules f) (wf_ports f) (wf_pkg f) (wf_comment f) (wf_out f) (wf_v f) (set_bool (wf_vv f) v)
    else mkWflags (wf_files f) (fst (rules_of (wf_rules f) v)) (wf_ports f) (wf_pkg f) (wf_comment f) (wf_out f) (wf_v f) (wf_vv f).
  Definition flags_w (sets : list (string * string)) (rest : list string) : wflags := fold_left set_w sets (mkWflags rest [] [] "" "" "wsdlgen_output.go" false false).
  (* GenCLI: the flags, then what CliModel.v has; None: the process ends while the flags are read *)
  Definition args_x (args : list string) : option flags := match parse_flags compile formal_x args with Some (sets, rest) => Some (flags_x sets rest) | None => None end.
  Definition args_w (args : list string) : option wflags := match parse_flags compile formal_w args with Some (sets, rest) => Some (flags_w sets rest) | None => None end.
  (* xsdparse.go:14-23: the namespace and the files; None: the process ends *)
  Definition args_p (args : list string) : option (string * list string) :=
    match parse_flags compile formal_p args with
    | Some (sets, []) => None
    | Some (sets, rest) => Some (fold_left (fun a s => snd s) sets "", rest)
    | None => None
    end.
End Commands.
