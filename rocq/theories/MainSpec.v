(* What the commands are to do with their command line and the files. *)
From Verif Require Import Base ScopeModel TreeModel EqualModel BuiltinModel XsdModel TypesModel GenModel SgModel FilesModel OptModel MethodModel CliModel CliSpec ArgsModel MainModel.
Local Open Scope string_scope.

Section MainSpec.
  Variables T Sp Log : Type.
  Variable compile : string -> option ((string -> string -> string) * (string -> bool)).
  Variable soap_array_type : T -> T.
  Variable soap_array_slice : Sp -> Sp.
  Variable use_field_names : T -> T.
  Variables D A : Type.
  Variable refused : list string -> list D -> bool.
  Variable generate : xconf T Sp Log -> list Z * list string -> list D -> run A * (list Z * list string).
  Variable format : A -> string -> option D.
  Variable writable : string -> bool.
  Variable stderr : Log.
  (* what all runs have in common: these attributes are left out, arrays of SOAP are slices, and so on *)
  Definition usual (c : xconf T Sp Log) : Prop :=
    x_logger _ _ _ c = Some stderr /\
    (exists g, x_fa _ _ _ c = Some g /\ forall a, g a = true <-> In (nlocal (at_name a)) ["id"; "href"; "ref"; "offset"]) /\
    x_fe _ _ _ c = None /\ x_ft _ _ _ c = None /\ x_allow _ _ _ c = None /\
    (exists g, x_pre _ _ _ c = Some g /\ forall t, g t = use_field_names (soap_array_type t)) /\
    (exists g, x_post _ _ _ c = Some g /\ forall s, g s = soap_array_slice s).
  (* the separators that are taken out of names before the rules of the user *)
  Definition separators : list (string * string) := [("[._ \s-]", "")].
  (* the Config that xsdgen with the flags f generates code by; ns: the namespaces of the documents *)
  Definition set_by (f : flags) (ns : list string) (c : xconf T Sp Log) : Prop :=
    usual c /\ x_pkg _ _ _ c = (if String.eqb (fl_pkg f) "" then "ws" else fl_pkg f) /\ x_ns _ _ _ c = (match fl_ns f with [] => ns | l => l end) /\ x_follow _ _ _ c = fl_follow f /\
    x_level _ _ _ c = (if fl_vv f then 5%Z else if fl_v f then 1%Z else 0%Z) /\
    forall n, transform _ _ _ c n = by_rules (fl_rules f) (by_patterns compile separators n).
  (* and those of wsdlgen *)
  Definition set_by_w (f : wflags) (ns : list string) (v : wconf Log) (c : xconf T Sp Log) : Prop :=
    usual c /\ x_pkg _ _ _ c = (if String.eqb (wf_pkg f) "" then "ws" else wf_pkg f) /\ x_ns _ _ _ c = ns /\ x_follow _ _ _ c = false /\
    x_level _ _ _ c = (if wf_vv f then 5%Z else if wf_v f then 1%Z else 0%Z) /\
    (forall n, transform _ _ _ c n = by_patterns compile (separators ++ wf_rules f) n) /\
    w_pkg _ v = x_pkg _ _ _ c /\ w_level _ v = x_level _ _ _ c /\ w_logger _ v = Some stderr /\ w_args _ v = 3%Z /\ w_returns _ v = 2%Z /\
    w_header _ v = (if String.eqb (wf_comment f) "" then "Package " ++ w_pkg _ v else wf_comment f) /\
    (wf_ports f = [] -> w_ports _ v = None) /\
    (wf_ports f <> [] -> exists g, w_ports _ v = Some g /\ forall p, g p = true <-> In p (wf_ports f)).
  (* the end: the file out is written, and no other *)
  Definition written_to (files : string -> option D) (out : string) (a : A) : (string -> option D) * ending :=
    match format a out with
    | None => (files, Failed)
    | Some d => if writable out then (fun n => if String.eqb n out then Some d else files n, Fine) else (files, Failed)
    end.
  (* code is generated from the documents data by the Config c, made into a file by put, and written; all helpers can be used *)
  Definition carried_out (files : string -> option D) (c : xconf T Sp Log) (data : list D) (put : A -> option A) (out : string) : (string -> option D) * ending :=
    if refused (x_ns _ _ _ c) data then (files, Failed)
    else match fst (generate c (standard_types, standard_funcs) data) with
         | Ret a => match put a with Some b => written_to files out b | None => (files, Failed) end
         | Fail => (files, Failed)
         | Panic => (files, Crash)
         | Loops => (files, Forever)
         end.
End MainSpec.
