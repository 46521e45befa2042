(* C49 and C77: options. The parameters: what a Config's functions work on, the regular expressions, and
   the three transformations built into xsdgen. *)
From Verif Require Import Base ScopeModel TreeModel XsdModel SgModel OptModel OptSpec OptProofs OptExamples.
Local Open Scope string_scope.

Section Props.
  Variables T Sp Log : Type.
  Variable compile : string -> option ((string -> string -> string) * (string -> bool)).
  Variable soap_array_type : T -> T.
  Variable soap_array_slice : Sp -> Sp.
  Variable use_field_names : T -> T.
  Notation apply := (apply T Sp Log compile soap_array_type soap_array_slice use_field_names).
  Notation apply_all := (apply_all compile soap_array_type soap_array_slice use_field_names).
  Notation option_method := (option_method T Sp Log compile soap_array_type soap_array_slice use_field_names).
  Notation wapply := (wapply T Sp Log compile soap_array_type soap_array_slice use_field_names).

(* C49. What an option returns restores the Config exactly, and can itself be reverted. *)
Theorem C49_revert h i o : i < List.length h -> about T Sp Log i o -> ordinary T Sp Log o -> exists h1 u v,
    apply h i o = Some (h1, u) /\ apply h1 i u = Some (h, v) /\ apply h i v = Some (h1, u) /\ about T Sp Log i u /\ ordinary T Sp Log u /\
    List.length h1 = List.length h /\ forall k, k <> i -> nth_error h1 k = nth_error h k.
Proof. exact (revert compile soap_array_type soap_array_slice use_field_names h i o). Qed.
(* Any options, reverted last first. *)
Theorem C49_revert_all i l h : i < List.length h -> Forall (about T Sp Log i) l -> Forall (ordinary T Sp Log) l -> exists h1 us vs,
    apply_all h i l = Some (h1, us) /\ apply_all h1 i us = Some (h, vs) /\ List.length h1 = List.length h /\ forall k, k <> i -> nth_error h1 k = nth_error h k.
Proof. exact (revert_all compile soap_array_type soap_array_slice use_field_names i l h). Qed.
(* The Option method returns what undoes its last argument, and only that. *)
Theorem C49_method_reverts_last i l o h : i < List.length h -> Forall (about T Sp Log i) (l ++ [o]) -> Forall (ordinary T Sp Log) (l ++ [o]) -> exists h1 p h2 u v,
    option_method h i None l = Some (h1, p) /\ option_method h i None (l ++ [o]) = Some (h2, Some u) /\ apply h2 i u = Some (h1, v).
Proof. exact (method_reverts_last compile soap_array_type soap_array_slice use_field_names i l o h). Qed.
(* AllowType, if the name is new and another one is allowed already; *)
Theorem C49_allow_type h i c l n : nth_error h i = Some c -> x_allow _ _ _ c = Some l -> ~ In n l -> exists h1 u v,
    apply h i (AllowType _ _ _ n) = Some (h1, u) /\ apply h1 i u = Some (h, v).
Proof. exact (allow_reverts compile soap_array_type soap_array_slice use_field_names h i c l n). Qed.
(* with no name allowed before, its undo leaves a Config that selects no type at all; *)
Theorem C49_allow_first_refuted h i c n : nth_error h i = Some c -> x_allow _ _ _ c = None -> exists h1 u h2 v c2,
    apply h i (AllowType _ _ _ n) = Some (h1, u) /\ apply h1 i u = Some (h2, v) /\ nth_error h2 i = Some c2 /\ forall ft m, selected ft (x_allow _ _ _ c2) m = false.
Proof. exact (allow_first compile soap_array_type soap_array_slice use_field_names h i c n). Qed.
(* with this name allowed before, the option changes nothing and its undo removes the name. *)
Theorem C49_allow_twice_refuted h i c l n : nth_error h i = Some c -> x_allow _ _ _ c = Some l -> In n l -> exists h1 u h2 v c2,
    apply h i (AllowType _ _ _ n) = Some (h1, u) /\ h1 = h /\ apply h1 i u = Some (h2, v) /\ nth_error h2 i = Some c2 /\ ~ allowed (x_allow _ _ _ c2) n.
Proof. exact (allow_twice compile soap_array_type soap_array_slice use_field_names h i c l n). Qed.
(* Undoing a filter on another Config j reverts i. *)
Theorem C49_other_config_refuted h i j names : i <> j -> i < List.length h -> j < List.length h -> exists h1 u v,
    apply h i (IgnoreAttributes _ _ _ names) = Some (h1, u) /\ apply h1 j u = Some (h, v).
Proof. exact (undo_elsewhere compile soap_array_type soap_array_slice use_field_names h i j names). Qed.
(* wsdlgen: all but OnlyPorts, and the log settings if the xsdgen Config has the same ones. *)
Theorem C49_wsdlgen h w o : w_x _ w < List.length h ->
    match o with WOnlyPorts _ _ => False | WLogLevel _ _ => exists c, nth_error h (w_x _ w) = Some c /\ x_level _ _ _ c = w_level _ w
      | WLogOutput _ _ => exists c, nth_error h (w_x _ w) = Some c /\ x_logger _ _ _ c = w_logger _ w | _ => True end ->
    exists h1 w1 u v, wapply h w o = Some (h1, w1, u) /\ wapply h1 w1 u = Some (h, w, v).
Proof. exact (wrevert compile soap_array_type soap_array_slice use_field_names h w o). Qed.
(* After OnlyPorts and its undo no port passes the filter. *)
Theorem C49_only_ports_refuted h w l : exists h1 w1 u h2 w2 v, wapply h w (WOnlyPorts _ l) = Some (h1, w1, u) /\ wapply h1 w1 u = Some (h2, w2, v) /\
    exists f, w_ports _ w2 = Some f /\ forall p, f p = false.
Proof. exact (only_ports_undo compile soap_array_type soap_array_slice use_field_names h w l). Qed.
(* Undoing wsdlgen's LogLevel gives the xsdgen Config the level of the wsdlgen Config. *)
Theorem C49_log_level_refuted h w c n : nth_error h (w_x _ w) = Some c -> x_level _ _ _ c <> w_level _ w -> exists h1 w1 u h2 v c2, wapply h w (WLogLevel _ n) = Some (h1, w1, u) /\
    wapply h1 w1 u = Some (h2, w, v) /\ nth_error h2 (w_x _ w) = Some c2 /\ x_level _ _ _ c2 = w_level _ w /\ x_level _ _ _ c2 <> x_level _ _ _ c.
Proof. exact (log_level_undo compile soap_array_type soap_array_slice use_field_names h w c n). Qed.

(* C77. Any options in any order: Replace, ProcessTypes and the like add up, in order; IgnoreAttributes,
   IgnoreElements and OnlyTypes replace what was there; AllowType adds. *)
Theorem C77_effects i l h c : nth_error h i = Some c -> Forall (public_opt T Sp Log) l -> exists h' us c', apply_all h i l = Some (h', us) /\ nth_error h' i = Some c' /\
    (forall n, run_fn (x_name _ _ _ c') n = fold_left (fun n o => match o with
        | Replace _ _ _ pat repl => match compile pat with Some (replace_all, _) => mkName (nspace n) (replace_all (nlocal n) repl) | None => n end
        | ReplaceNames _ _ _ replace_all repl => mkName (nspace n) (replace_all (nlocal n) repl)
        | _ => n end) l (run_fn (x_name _ _ _ c) n)) /\
    (forall t, run_fn (x_pre _ _ _ c') t = fold_left (fun t o => transforms T Sp Log soap_array_type use_field_names o t) l (run_fn (x_pre _ _ _ c) t)) /\
    (forall s, run_fn (x_post _ _ _ c') s = fold_left (fun s o => postprocesses T Sp Log soap_array_slice o s) l (run_fn (x_post _ _ _ c) s)) /\
    (forall a, filtered (x_fa _ _ _ c') a = latest (fun o => match o with IgnoreAttributes _ _ _ names => Some (mem_str (nlocal (at_name a)) names) | _ => None end) l (filtered (x_fa _ _ _ c) a)) /\
    (forall e, filtered (x_fe _ _ _ c') e = latest (fun o => match o with IgnoreElements _ _ _ names => Some (mem_str (nlocal (el_name e)) names) | _ => None end) l (filtered (x_fe _ _ _ c) e)) /\
    (forall n, filtered (x_ft _ _ _ c') n = latest (fun o => match o with OnlyTypes _ _ _ pats => Some (match compile (joined "|" pats) with Some (_, matches) => negb (matches (nlocal n)) | None => false end) | _ => None end) l (filtered (x_ft _ _ _ c) n)) /\
    (forall n, allowed (x_allow _ _ _ c') n <-> allowed (x_allow _ _ _ c) n \/ In (AllowType _ _ _ n) l) /\
    (x_allow _ _ _ c' = None <-> x_allow _ _ _ c = None /\ forall n, ~ In (AllowType _ _ _ n) l) /\
    x_ns _ _ _ c' = latest (fun o => match o with Namespaces _ _ _ v => Some v | _ => None end) l (x_ns _ _ _ c) /\
    x_pkg _ _ _ c' = latest (fun o => match o with PackageName _ _ _ v => Some v | _ => None end) l (x_pkg _ _ _ c) /\
    x_follow _ _ _ c' = latest (fun o => match o with FollowImports _ _ _ v => Some v | _ => None end) l (x_follow _ _ _ c).
Proof. exact (effects compile soap_array_type soap_array_slice use_field_names i l h c). Qed.
End Props.
Print Assumptions C49_revert.
Print Assumptions C49_revert_all.
Print Assumptions C49_method_reverts_last.
Print Assumptions C49_allow_type.
Print Assumptions C49_allow_first_refuted.
Print Assumptions C49_allow_twice_refuted.
Print Assumptions C49_other_config_refuted.
Print Assumptions C49_wsdlgen.
Print Assumptions C49_only_ports_refuted.
Print Assumptions C49_log_level_refuted.
Print Assumptions C77_effects.
Example C49_case : Forall (about nat nat nat 1) some_opts /\ Forall (ordinary nat nat nat) some_opts /\ Forall (public_opt nat nat nat) some_opts.
Proof. exact some_opts_ok. Qed.
Example C77_case : match all0 [c0; c0] 1 some_opts with Some ([a; b], us) => (shown a, shown b, List.length us) | _ => (shown c0, shown c0, 0) end =
  (("a", 3, false, false, "", [], false, false), ("c", 7, false, true, "p", ["urn:a"; "urn:b"], false, true), 10).
Proof. exact some_opts_applied. Qed.
