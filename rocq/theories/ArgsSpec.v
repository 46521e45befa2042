(* How settings are written on a command line, and what a list of settings says. *)
From Verif Require Import Base ScopeModel TreeModel GenModel GenSpec OptModel CliModel ArgsModel.
Local Open Scope string_scope.

(* a name a flag can have *)
Definition flag_name (n : string) : Prop := n <> "" /\ ~ occurs "=" n /\ forall s, n <> String "-" s.
(* an argument that is read as a flag, even if there is none of that name; - alone is none *)
Definition dashed (s : string) : Prop := exists t, s = "-" ++ t /\ t <> "".
(* the words that stand for true and false *)
Definition truth (w : string) (b : bool) : Prop :=
  b = true /\ In w ["1"; "t"; "T"; "TRUE"; "true"; "True"] \/ b = false /\ In w ["0"; "f"; "F"; "FALSE"; "false"; "False"].
Section Written.
  Variable compile : string -> option ((string -> string -> string) * (string -> bool)).
  Variable formal : string -> option kind.
  (* a rule: an expression and its replacement, around the first -> *)
  Definition rule_text (s from to : string) : Prop := exists a b, first_split "->" s a b /\ trimmed_of a from /\ trimmed_of b to.
  Definition fits (k : kind) (v : string) : Prop := match k with KBool => exists b, truth v b | KText => True | KRule => exists from to x, rule_text v from to /\ compile from = Some x end.
  (* one setting: -name value, -name=value, or -name for a Boolean; with one dash or two *)
  Inductive written : string * string -> list string -> Prop :=
  | wr_next d n v k : d = "-" \/ d = "--" -> formal n = Some k -> k <> KBool -> fits k v -> written (n, v) [d ++ n; v]
  | wr_equals d n v k : d = "-" \/ d = "--" -> formal n = Some k -> fits k v -> written (n, v) [d ++ n ++ "=" ++ v]
  | wr_true d n : d = "-" \/ d = "--" -> formal n = Some KBool -> written (n, "true") [d ++ n].
  (* settings, then the other arguments: after --, or the first of them is no flag *)
  Inductive line : list (string * string) -> list string -> list string -> Prop :=
  | ln_none : line [] [] []
  | ln_args a rest : ~ dashed a -> line [] (a :: rest) (a :: rest)
  | ln_end rest : line [] rest ("--" :: rest)
  | ln_set x sets rest a args : written x a -> line sets rest args -> line (x :: sets) rest (a ++ args)%list.
End Written.
(* the value of a flag: the last that was given, or the default *)
Definition said (n dflt : string) (sets : list (string * string)) (v : string) : Prop :=
  (exists s1 s2, sets = (s1 ++ (n, v) :: s2)%list /\ forall x, ~ In (n, x) s2) \/ v = dflt /\ forall x, ~ In (n, x) sets.
Definition said_yes (n : string) (sets : list (string * string)) (b : bool) : Prop := exists w, said n "false" sets w /\ truth w b.
(* all values of a flag, in order *)
Inductive values (n : string) : list (string * string) -> list string -> Prop :=
| vl_nil : values n [] []
| vl_this v s l : values n s l -> values n ((n, v) :: s) (v :: l)
| vl_other m v s l : m <> n -> values n s l -> values n ((m, v) :: s) l.
(* what the flags of xsdgen say *)
Definition says_x (compile : string -> option ((string -> string -> string) * (string -> bool))) (sets : list (string * string)) (rest : list string) (f : flags) : Prop :=
  fl_files f = rest /\ said "pkg" "" sets (fl_pkg f) /\ said "o" "xsdgen_output.go" sets (fl_out f) /\ values "ns" sets (fl_ns f) /\
  said_yes "f" sets (fl_follow f) /\ said_yes "v" sets (fl_v f) /\ said_yes "vv" sets (fl_vv f) /\
  exists l, values "r" sets l /\ Forall2 (fun s r => exists from m, rule_text s from (snd r) /\ compile from = Some (fst r, m)) l (fl_rules f).
(* and those of wsdlgen *)
Definition says_w (sets : list (string * string)) (rest : list string) (f : wflags) : Prop :=
  wf_files f = rest /\ said "pkg" "" sets (wf_pkg f) /\ said "c" "" sets (wf_comment f) /\ said "o" "wsdlgen_output.go" sets (wf_out f) /\ values "port" sets (wf_ports f) /\
  said_yes "v" sets (wf_v f) /\ said_yes "vv" sets (wf_vv f) /\
  exists l, values "r" sets l /\ Forall2 (fun s r => rule_text s (fst r) (snd r)) l (wf_rules f).
