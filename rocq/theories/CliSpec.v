(* What is wanted of a Config that is used more than once. *)
From Verif Require Import Base ScopeModel TreeModel EqualModel BuiltinModel XsdModel TypesModel GenModel SgModel FilesModel OptModel MethodModel CliModel.
Local Open Scope string_scope.

Section CliSpec.
  Variables T Sp Log : Type.
  Variable compile : string -> option ((string -> string -> string) * (string -> bool)).
  Variable soap_array_type : T -> T.
  Variable soap_array_slice : Sp -> Sp.
  Variable use_field_names : T -> T.
  Variables D A : Type.
  Variable tree : D -> option elem.
  Variable targets : list D -> list string.
  Variable refused : list string -> list D -> bool.
  Variable generate : xconf T Sp Log -> list Z * list string -> list D -> run A * (list Z * list string).
  Variable format : A -> string -> option D.
  Variable writable : string -> bool.
  Variable fuel : nat.
  Notation world := (CliModel.world T Sp Log D).
  Notation op := (CliModel.op T Sp Log D).
  Notation gen_code := (CliModel.gen_code T Sp Log compile soap_array_type soap_array_slice use_field_names D A targets refused generate).
  Notation step := (CliModel.step T Sp Log compile soap_array_type soap_array_slice use_field_names D A tree targets refused generate format writable fuel).

  (* what a call of GenCode returns *)
  Definition answer (w : world) (i : nat) (data : list D) : option (run A) := option_map snd (gen_code w i data).
  (* the options set by a program, without its calls *)
  Definition settings (l : list op) : list op := filter (fun o => match o with Set_ _ _ _ _ _ _ => true | _ => false end) l.
  Definition no_cli (l : list op) : Prop := Forall (fun o => match o with Cli _ _ _ _ _ _ => False | _ => True end) l.
  (* GenCode is called only with Configs that have namespaces *)
  Fixpoint named (w : world) (l : list op) : Prop :=
    match l with
    | [] => True
    | o :: l' => match o with Gen _ _ _ _ i _ => forall c, nth_error (w_confs _ _ _ _ w) i = Some c -> x_ns _ _ _ c <> [] | _ => True end /\
                 forall w' r, step w o = Some (w', r) -> named w' l'
    end.
  (* the name that replacement rules make of a name, the first rule first *)
  Definition by_rules (rules : list ((string -> string -> string) * string)) (n : xname) : xname :=
    fold_left (fun m r => mkName (nspace m) (fst r (nlocal m) (snd r))) rules n.
  Definition transform (c : xconf T Sp Log) (n : xname) : xname := match x_name _ _ _ c with Some f => f n | None => n end.
  (* what GenCLI leaves in the Config c when called with the flags f *)
  Definition left_by (f : flags) (c c' : xconf T Sp Log) : Prop :=
    (fl_ns f <> [] -> x_ns _ _ _ c' = fl_ns f) /\
    (fl_ns f = [] -> x_ns _ _ _ c' = [] \/ exists data, x_ns _ _ _ c' = targets data) /\
    x_follow _ _ _ c' = fl_follow f /\
    (forall n, transform c' n = by_rules (fl_rules f) (transform c n)) /\
    x_pkg _ _ _ c' = (if String.eqb (fl_pkg f) "" then x_pkg _ _ _ c else fl_pkg f) /\
    x_level _ _ _ c' = (if fl_vv f then 5%Z else if fl_v f then 1%Z else x_level _ _ _ c) /\
    x_logger _ _ _ c' = x_logger _ _ _ c /\ x_pre _ _ _ c' = x_pre _ _ _ c /\ x_post _ _ _ c' = x_post _ _ _ c /\ x_fa _ _ _ c' = x_fa _ _ _ c /\
    x_fe _ _ _ c' = x_fe _ _ _ c /\ x_ft _ _ _ c' = x_ft _ _ _ c /\ x_allow _ _ _ c' = x_allow _ _ _ c.
  (* and what wsdlgen's leaves in its Config v, and in the Config c of xsdgen inside it. Patterns that are not
     valid change nothing *)
  Definition by_patterns (rules : list (string * string)) (n : xname) : xname :=
    fold_left (fun m r => match compile (fst r) with Some (rx, _) => mkName (nspace m) (rx (nlocal m) (snd r)) | None => m end) rules n.
  Definition wsdl_left (f : wflags) (v v' : wconf Log) : Prop :=
    w_pkg _ v' = (if String.eqb (wf_pkg f) "" then if String.eqb (w_pkg _ v) "" then "ws" else w_pkg _ v else wf_pkg f) /\
    w_header _ v' = (if String.eqb (wf_comment f) "" then if String.eqb (w_header _ v) "" then "Package " ++ w_pkg _ v' else w_header _ v else wf_comment f) /\
    w_level _ v' = (if wf_vv f then 5%Z else if wf_v f then 1%Z else w_level _ v) /\
    (wf_ports f = [] -> w_ports _ v' = w_ports _ v) /\
    (wf_ports f <> [] -> exists g, w_ports _ v' = Some g /\ forall p, g p = true <-> In p (wf_ports f)) /\
    w_logger _ v' = w_logger _ v /\ w_x _ v' = w_x _ v /\ w_args _ v' = w_args _ v /\ w_returns _ v' = w_returns _ v.
  Definition xsd_left (f : wflags) (c c' : xconf T Sp Log) : Prop :=
    (x_ns _ _ _ c' = x_ns _ _ _ c \/ x_ns _ _ _ c = [] /\ exists data, x_ns _ _ _ c' = targets data) /\
    (forall n, transform c' n = by_patterns (wf_rules f) (transform c n)) /\
    x_pkg _ _ _ c' = (if String.eqb (wf_pkg f) "" then x_pkg _ _ _ c else wf_pkg f) /\
    x_level _ _ _ c' = (if wf_vv f then 5%Z else if wf_v f then 1%Z else x_level _ _ _ c) /\
    x_follow _ _ _ c' = x_follow _ _ _ c /\ x_logger _ _ _ c' = x_logger _ _ _ c /\ x_pre _ _ _ c' = x_pre _ _ _ c /\ x_post _ _ _ c' = x_post _ _ _ c /\ x_fa _ _ _ c' = x_fa _ _ _ c /\
    x_fe _ _ _ c' = x_fe _ _ _ c /\ x_ft _ _ _ c' = x_ft _ _ _ c /\ x_allow _ _ _ c' = x_allow _ _ _ c.
End CliSpec.
