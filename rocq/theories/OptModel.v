(* Model of the options of xsdgen (xsdgen/config.go:16-418) and wsdlgen (wsdlgen/config.go). An Option is
   a closure; here it is a datum, and [apply] is what calling it does. Configs live on a heap because
   some options keep a pointer into the Config they were first applied to. Functions held by a Config
   are Coq functions; that they may write to the log is left out. *)
From Verif Require Import Base ScopeModel TreeModel XsdModel SgModel.
Local Open Scope string_scope.

Section Opt.
  (* schemas and types (typeTransform, config.go:47), generated specs (specTransform), loggers *)
  Variables T Sp Log : Type.
  (* regexp.Compile: ReplaceAllString(input, repl) and MatchString *)
  Variable compile : string -> option ((string -> string -> string) * (string -> bool)).
  (* config.go:500-592 and 738-866 *)
  Variable soap_array_type : T -> T.
  Variable soap_array_slice : Sp -> Sp.
  (* config.go:311-352 *)
  Variable use_field_names : T -> T.

  (* config.go:16-45; filterTypes reads the name of the type only; helpers are not options *)
  Record xconf := mkConf {
    x_logger : option Log; x_level : Z; x_ns : list string; x_pkg : string; x_follow : bool;
    x_pre : option (T -> T); x_post : option (Sp -> Sp);
    x_fa : option (attribute -> bool); x_fe : option (element -> bool); x_ft : option (xname -> bool);
    x_name : option (xname -> xname); x_allow : option (list xname) }.
  Definition blank : xconf := mkConf None 0 [] "" false None None None None None None None.
  Definition set_logger v c := mkConf v (x_level c) (x_ns c) (x_pkg c) (x_follow c) (x_pre c) (x_post c) (x_fa c) (x_fe c) (x_ft c) (x_name c) (x_allow c).
  Definition set_level v c := mkConf (x_logger c) v (x_ns c) (x_pkg c) (x_follow c) (x_pre c) (x_post c) (x_fa c) (x_fe c) (x_ft c) (x_name c) (x_allow c).
  Definition set_ns v c := mkConf (x_logger c) (x_level c) v (x_pkg c) (x_follow c) (x_pre c) (x_post c) (x_fa c) (x_fe c) (x_ft c) (x_name c) (x_allow c).
  Definition set_pkg v c := mkConf (x_logger c) (x_level c) (x_ns c) v (x_follow c) (x_pre c) (x_post c) (x_fa c) (x_fe c) (x_ft c) (x_name c) (x_allow c).
  Definition set_follow v c := mkConf (x_logger c) (x_level c) (x_ns c) (x_pkg c) v (x_pre c) (x_post c) (x_fa c) (x_fe c) (x_ft c) (x_name c) (x_allow c).
  Definition set_pre v c := mkConf (x_logger c) (x_level c) (x_ns c) (x_pkg c) (x_follow c) v (x_post c) (x_fa c) (x_fe c) (x_ft c) (x_name c) (x_allow c).
  Definition set_post v c := mkConf (x_logger c) (x_level c) (x_ns c) (x_pkg c) (x_follow c) (x_pre c) v (x_fa c) (x_fe c) (x_ft c) (x_name c) (x_allow c).
  Definition set_fa v c := mkConf (x_logger c) (x_level c) (x_ns c) (x_pkg c) (x_follow c) (x_pre c) (x_post c) v (x_fe c) (x_ft c) (x_name c) (x_allow c).
  Definition set_fe v c := mkConf (x_logger c) (x_level c) (x_ns c) (x_pkg c) (x_follow c) (x_pre c) (x_post c) (x_fa c) v (x_ft c) (x_name c) (x_allow c).
  Definition set_ft v c := mkConf (x_logger c) (x_level c) (x_ns c) (x_pkg c) (x_follow c) (x_pre c) (x_post c) (x_fa c) (x_fe c) v (x_name c) (x_allow c).
  Definition set_name v c := mkConf (x_logger c) (x_level c) (x_ns c) (x_pkg c) (x_follow c) (x_pre c) (x_post c) (x_fa c) (x_fe c) (x_ft c) v (x_allow c).
  Definition set_allow v c := mkConf (x_logger c) (x_level c) (x_ns c) (x_pkg c) (x_follow c) (x_pre c) (x_post c) (x_fa c) (x_fe c) (x_ft c) (x_name c) v.

  (* the exported options, then the closures they return: replacePropertyFilter on one of three fields
     of the Config p (127-133), replacePreprocessType, replacePostprocessType (213-227),
     replaceNameTransform (277-283), the inner function of AllowType (206-209) and
     replaceAllNamesRegex (285-301), which gets a compiled expression *)
  Inductive opt :=
  | Namespaces (l : list string) | LogOutput (l : option Log) | LogLevel (n : Z) | PackageName (s : string) | FollowImports (b : bool)
  | IgnoreAttributes (names : list string) | IgnoreElements (names : list string) | OnlyTypes (pats : list string) | AllowType (n : xname)
  | Replace (pat repl : string) | ProcessTypes (fn : T -> T) | UseFieldNames | HandleSOAPArrayType | SOAPArrayAsSlice
  | PutAttrs (p : nat) (f : option (attribute -> bool)) | PutElems (p : nat) (f : option (element -> bool)) | PutTypes (p : nat) (f : option (xname -> bool))
  | PutPre (p : nat) (f : option (T -> T)) | PutPost (p : nat) (f : option (Sp -> Sp))
  | PutName (f : option (xname -> xname)) | Disallow (n : xname) | ReplaceNames (rx : string -> string -> string) (repl : string).

  Definition heap := list xconf.
  (* prev applied first, if there is one *)
  Definition after {A} (prev : option (A -> A)) (fn : A -> A) (a : A) : A := match prev with Some g => fn (g a) | None => fn a end.
  Definition local_by (rx : string -> string -> string) (repl : string) (n : xname) : xname := mkName (nspace n) (rx (nlocal n) repl).
  Definition join (l : list string) : string := joined "|" l.
  (* 184-196: types that do not match are filtered, none if the expression is invalid *)
  Definition only_types (pats : list string) (n : xname) : bool :=
    match compile (join pats) with Some (_, m) => negb (m (nlocal n)) | None => false end.
  (* 259-272 *)
  Definition replace_by (pat repl : string) (n : xname) : xname :=
    match compile pat with Some (rx, _) => local_by rx repl n | None => n end.
  Definition at_conf (h : heap) (i : nat) (f : xconf -> xconf * opt) : option (heap * opt) :=
    match nth_error h i with Some c => let (c', u) := f c in Some (set_nth i c' h, u) | None => None end.
  (* calling the option with the Config i; None: nil dereference *)
  Definition apply (h : heap) (i : nat) (o : opt) : option (heap * opt) :=
    match o with
    | Namespaces l => at_conf h i (fun c => (set_ns l c, Namespaces (x_ns c)))
    | LogOutput l => at_conf h i (fun c => (set_logger l c, LogOutput (x_logger c)))
    | LogLevel n => at_conf h i (fun c => (set_level n c, LogLevel (x_level c)))
    | PackageName s => at_conf h i (fun c => (set_pkg s c, PackageName (x_pkg c)))
    | FollowImports b => at_conf h i (fun c => (set_follow b c, FollowImports (x_follow c)))
    | IgnoreAttributes names => at_conf h i (fun c => (set_fa (Some (ignore_attributes names)) c, PutAttrs i (x_fa c)))
    | IgnoreElements names => at_conf h i (fun c => (set_fe (Some (ignore_elements names)) c, PutElems i (x_fe c)))
    | OnlyTypes pats => at_conf h i (fun c => (set_ft (Some (only_types pats)) c, PutTypes i (x_ft c)))
    | PutAttrs p f => at_conf h p (fun c => (set_fa f c, PutAttrs p (x_fa c)))
    | PutElems p f => at_conf h p (fun c => (set_fe f c, PutElems p (x_fe c)))
    | PutTypes p f => at_conf h p (fun c => (set_ft f c, PutTypes p (x_ft c)))
    | AllowType n => at_conf h i (fun c =>
        let l := match x_allow c with Some l => l | None => [] end in
        (set_allow (Some (if mem_name n l then l else n :: l)) c, Disallow n))
    | Disallow n => at_conf h i (fun c => (set_allow (option_map (filter (fun m => negb (xname_eqb m n))) (x_allow c)) c, AllowType n))
    | Replace pat repl => at_conf h i (fun c => (set_name (Some (after (x_name c) (replace_by pat repl))) c, PutName (x_name c)))
    | ReplaceNames rx repl => at_conf h i (fun c => (set_name (Some (after (x_name c) (local_by rx repl))) c, PutName (x_name c)))
    | PutName f => at_conf h i (fun c => (set_name f c, PutName (x_name c)))
    | ProcessTypes fn => at_conf h i (fun c => (set_pre (Some (after (x_pre c) fn)) c, PutPre i (x_pre c)))
    | UseFieldNames => at_conf h i (fun c => (set_pre (Some (after (x_pre c) use_field_names)) c, PutPre i (x_pre c)))
    | HandleSOAPArrayType => at_conf h i (fun c => (set_pre (Some (after (x_pre c) soap_array_type)) c, PutPre i (x_pre c)))
    | PutPre p f => at_conf h p (fun c => (set_pre f c, PutPre p (x_pre c)))
    | SOAPArrayAsSlice => at_conf h i (fun c => (set_post (Some (after (x_post c) soap_array_slice)) c, PutPost i (x_post c)))
    | PutPost p f => at_conf h p (fun c => (set_post f c, PutPost p (x_post c)))
    end.
  (* config.go:98-103: the undo of the last option, nil if there is none *)
  Fixpoint option_method (h : heap) (i : nat) (prev : option opt) (l : list opt) : option (heap * option opt) :=
    match l with [] => Some (h, prev) | o :: l' => match apply h i o with Some (h', u) => option_method h' i (Some u) l' | None => None end end.

  (* ---------- wsdlgen/config.go ---------- *)
  (* the xsdgen.Config inside is the Config w_x of the heap *)
  Record wconf := mkW { w_pkg : string; w_header : string; w_logger : option Log; w_level : Z; w_x : nat; w_ports : option (string -> bool); w_args : Z; w_returns : Z }.
  Inductive wopt := WOnlyPorts (l : list string) | WPackageName (s : string) | WPackageComment (s : string) | WLogLevel (n : Z) | WLogOutput (l : option Log)
  | WInputThreshold (n : Z) | WOutputThreshold (n : Z).
  Definition wapply (h : heap) (w : wconf) (o : wopt) : option (heap * wconf * wopt) :=
    match o with
    | WOnlyPorts l => Some (h, mkW (w_pkg w) (w_header w) (w_logger w) (w_level w) (w_x w) (Some (fun p => mem_str p l)) (w_args w) (w_returns w), WOnlyPorts [])
    | WPackageName s => Some (h, mkW s (w_header w) (w_logger w) (w_level w) (w_x w) (w_ports w) (w_args w) (w_returns w), WPackageName (w_pkg w))
    | WPackageComment s => Some (h, mkW (w_pkg w) s (w_logger w) (w_level w) (w_x w) (w_ports w) (w_args w) (w_returns w), WPackageComment (w_header w))
    | WLogLevel n =>
        match apply h (w_x w) (LogLevel n) with
        | Some (h', _) => Some (h', mkW (w_pkg w) (w_header w) (w_logger w) n (w_x w) (w_ports w) (w_args w) (w_returns w), WLogLevel (w_level w))
        | None => None end
    | WLogOutput l =>
        match apply h (w_x w) (LogOutput l) with
        | Some (h', _) => Some (h', mkW (w_pkg w) (w_header w) l (w_level w) (w_x w) (w_ports w) (w_args w) (w_returns w), WLogOutput (w_logger w))
        | None => None end
    | WInputThreshold n => Some (h, mkW (w_pkg w) (w_header w) (w_logger w) (w_level w) (w_x w) (w_ports w) n (w_returns w), WInputThreshold (w_args w))
    | WOutputThreshold n => Some (h, mkW (w_pkg w) (w_header w) (w_logger w) (w_level w) (w_x w) (w_ports w) (w_args w) n, WOutputThreshold (w_returns w))
    end.
End Opt.
