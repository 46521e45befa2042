(* Model of a Config over several calls: GenCode (xsdgen/cli.go:19-52) with what it keeps in the Config,
   GenAST and GenCLI (54-63, 98-156), and wsdlgen's GenAST and GenCLI (wsdlgen/wsdlgen.go:90-145,
   wsdlgen/cli.go:17-77). Flags have been parsed (C101) and replacement rules are compiled (C62). What xsd.Parse, gen,
   wsdl.Parse and the printers do is left open here: C63-C65, C79, C87 and C90 are about it. *)
From Verif Require Import Base ScopeModel TreeModel EqualModel BuiltinModel XsdModel TypesModel GenModel SgModel FilesModel OptModel MethodModel.
Local Open Scope string_scope.

(* the built-ins with a helper type (config.go:620-733) *)
Definition standard_types : list Z := [16; 17; 22; 23; 24; 25; 26; 39; 27; 13]%Z.
(* the flags of xsdgen *)
Record flags := mkFlags { fl_files : list string; fl_rules : list ((string -> string -> string) * string); fl_ns : list string; fl_pkg : string; fl_out : string; fl_follow : bool; fl_v : bool; fl_vv : bool }.
(* and those of wsdlgen; rules are patterns again (cli.go:63) *)
Record wflags := mkWflags { wf_files : list string; wf_rules : list (string * string); wf_ports : list string; wf_pkg : string; wf_comment : string; wf_out : string; wf_v : bool; wf_vv : bool }.

Section Cli.
  Variables T Sp Log : Type.
  Variable compile : string -> option ((string -> string -> string) * (string -> bool)).
  Variable soap_array_type : T -> T.
  Variable soap_array_slice : Sp -> Sp.
  Variable use_field_names : T -> T.
  Notation conf := (xconf T Sp Log).
  Notation opt := (OptModel.opt T Sp Log).
  Notation apply := (OptModel.apply T Sp Log compile soap_array_type soap_array_slice use_field_names).
  Notation wapply := (OptModel.wapply T Sp Log compile soap_array_type soap_array_slice use_field_names).
  (* D: what a file contains; A: an ast.File *)
  Variables D A : Type.
  Variable tree : D -> option elem.
  (* lookupTargetNS *)
  Variable targets : list D -> list string.
  (* cli.go:24-49: xsd.Parse, or a missing namespace *)
  Variable refused : list string -> list D -> bool.
  (* cli.go:51, then Code.GenAST: the result, and what is left of the helpers *)
  Variable generate : conf -> list Z * list string -> list D -> run A * (list Z * list string).
  (* gen.FormattedSource; whether a file can be written *)
  Variable format : A -> string -> option D.
  Variable writable : string -> bool.

  (* all Configs, their helpers, and the file system *)
  Record world := mkWorld { w_confs : list conf; w_left : nat -> list Z * list string; w_files : string -> option D }.
  Definition put_left (i : nat) (x : list Z * list string) (w : world) : world := mkWorld (w_confs w) (fun j => if Nat.eqb j i then x else w_left w j) (w_files w).
  Definition put_confs (h : list conf) (w : world) : world := mkWorld h (w_left w) (w_files w).
  Definition put_file (n : string) (d : D) (w : world) : world := mkWorld (w_confs w) (w_left w) (fun m => if String.eqb m n then Some d else w_files w m).
  (* cfg.Option with one option; None: nil dereference *)
  Definition set_option (w : world) (i : nat) (o : opt) : option world := match apply (w_confs w) i o with Some (h, _) => Some (put_confs h w) | None => None end.
  Fixpoint set_options (w : world) (i : nat) (l : list opt) : option world :=
    match l with [] => Some w | o :: l' => match set_option w i o with Some w' => set_options w' i l' | None => None end end.
  (* cli.go:19-52 *)
  Definition gen_code (w : world) (i : nat) (data : list D) : option (world * run A) :=
    match nth_error (w_confs w) i with
    | None => None
    | Some c =>
        match (match x_ns _ _ _ c with [] => set_option w i (Namespaces _ _ _ (targets data)) | _ => Some w end) with
        | None => None
        | Some w1 =>
            match nth_error (w_confs w1) i with
            | None => None
            | Some c1 =>
                if refused (x_ns _ _ _ c1) data then Some (w1, Fail)
                else let w2 := put_left i (standard_types, standard_funcs) w1 in
                     let (r, rest) := generate c1 (w_left w2 i) data in Some (put_left i rest w2, r)
            end
        end
    end.
  (* cli.go:54-63; fuel for following imports (C56) *)
  Variable fuel : nat.
  Definition gen_ast (w : world) (i : nat) (files : list string) : option (world * run A) :=
    match nth_error (w_confs w) i with
    | None => None
    | Some c => match read_files D (w_files w) tree fuel (x_follow _ _ _ c) files with
                | Ret data => gen_code w i data
                | Fail => gen_code w i []
                | Panic => Some (w, Panic)
                | Loops => Some (w, Loops)
                end
    end.
  (* cli.go:125-138 *)
  Definition flag_options (f : flags) : list opt :=
    ((if fl_vv f then [LogLevel _ _ _ 5] else if fl_v f then [LogLevel _ _ _ 1] else []) ++ [Namespaces _ _ _ (fl_ns f); FollowImports _ _ _ (fl_follow f)] ++
     map (fun r => ReplaceNames _ _ _ (fst r) (snd r)) (fl_rules f) ++ (if String.eqb (fl_pkg f) "" then [] else [PackageName _ _ _ (fl_pkg f)]))%list.
  (* the last lines of either GenCLI *)
  Definition write_source (w : world) (a : A) (out : string) : world * run unit :=
    match format a out with
    | None => (w, Fail)
    | Some d => if writable out then (put_file out d w, Ret tt) else (w, Fail)
    end.
  (* cli.go:103-156 *)
  Definition gen_cli (w : world) (i : nat) (f : flags) : option (world * run unit) :=
    match fl_files f with
    | [] => Some (w, Fail)
    | files =>
        match set_options w i (flag_options f) with
        | None => None
        | Some w1 =>
            match gen_ast w1 i files with
            | None => None
            | Some (w2, Ret a) => Some (write_source w2 a (fl_out f))
            | Some (w2, Fail) => Some (w2, Fail)
            | Some (w2, Panic) => Some (w2, Panic)
            | Some (w2, Loops) => Some (w2, Loops)
            end
        end
    end.

  (* ---------- wsdlgen ---------- *)
  (* wsdl.Parse; wsdlgen.go:126-145 with the package name and its comment *)
  Variable Def : Type.
  Variable wsdl_parse : D -> option Def.
  Variable emit : wconf Log -> Def -> A -> option A.
  (* wsdlgen.go:94-99 *)
  Definition defaults (v : wconf Log) : wconf Log :=
    let p := if String.eqb (w_pkg _ v) "" then "ws" else w_pkg _ v in
    mkW _ p (if String.eqb (w_header _ v) "" then "Package " ++ p else w_header _ v) (w_logger _ v) (w_level _ v) (w_x _ v) (w_ports _ v) (w_args _ v) (w_returns _ v).
  Definition wsdl_gen_ast (w : world) (v : wconf Log) (files : list string) : option (world * wconf Log * run A) :=
    match files with
    | [] => Some (w, v, Fail)
    | _ =>
        let v' := defaults v in
        match mapo (w_files w) files with
        | None => Some (w, v', Fail)
        | Some [] => Some (w, v', Panic)
        | Some (d :: ds) =>
            match wsdl_parse d with
            | None => Some (w, v', Fail)
            | Some def => match gen_code w (w_x _ v') (d :: ds) with
                          | None => None
                          | Some (w', Ret a) => Some (w', v', match emit v' def a with Some b => Ret b | None => Fail end)
                          | Some (w', r) => Some (w', v', r)
                          end
            end
        end
    end.
  Fixpoint wset_options (w : world) (v : wconf Log) (l : list (wopt Log + opt)) : option (world * wconf Log) :=
    match l with
    | [] => Some (w, v)
    | inl o :: l' => match wapply (w_confs w) v o with Some (h, v', _) => wset_options (put_confs h w) v' l' | None => None end
    | inr o :: l' => match set_option w (w_x _ v) o with Some w' => wset_options w' v l' | None => None end
    end.
  (* wsdlgen/cli.go:46-64 *)
  Definition wflag_options (f : wflags) : list (wopt Log + opt) :=
    ((if wf_vv f then [inl (WLogLevel _ 5)] else if wf_v f then [inl (WLogLevel _ 1)] else []) ++
     (if String.eqb (wf_pkg f) "" then [] else [inl (WPackageName _ (wf_pkg f)); inr (PackageName _ _ _ (wf_pkg f))]) ++
     (if String.eqb (wf_comment f) "" then [] else [inl (WPackageComment _ (wf_comment f))]) ++
     (match wf_ports f with [] => [] | l => [inl (WOnlyPorts _ l)] end) ++
     map (fun r => inr (Replace _ _ _ (fst r) (snd r))) (wf_rules f))%list.
  Definition wsdl_gen_cli (w : world) (v : wconf Log) (f : wflags) : option (world * wconf Log * run unit) :=
    match wf_files f with
    | [] => Some (w, v, Fail)
    | files =>
        match wset_options w v (wflag_options f) with
        | None => None
        | Some (w1, v1) =>
            match wsdl_gen_ast w1 v1 files with
            | None => None
            | Some (w2, v2, Ret a) => let (w3, r) := write_source w2 a (wf_out f) in Some (w3, v2, r)
            | Some (w2, v2, Fail) => Some (w2, v2, Fail)
            | Some (w2, v2, Panic) => Some (w2, v2, Panic)
            | Some (w2, v2, Loops) => Some (w2, v2, Loops)
            end
        end
    end.

  (* ---------- a program using Configs ---------- *)
  Inductive op := Set_ (i : nat) (o : opt) | Gen (i : nat) (data : list D) | Cli (i : nat) (f : flags).
  Definition step (w : world) (o : op) : option (world * run unit) :=
    match o with
    | Set_ i o => match set_option w i o with Some w' => Some (w', Ret tt) | None => None end
    | Gen i data => match gen_code w i data with Some (w', r) => Some (w', match r with Ret _ => Ret tt | Fail => Fail | Panic => Panic | Loops => Loops end) | None => None end
    | Cli i f => gen_cli w i f
    end.
  Fixpoint steps (w : world) (l : list op) : option world := match l with [] => Some w | o :: l' => match step w o with Some (w', _) => steps w' l' | None => None end end.
End Cli.
