From Verif Require Import Base ScopeModel TreeModel EqualModel XsdModel XsdProofs NormAttr SgModel SgFlat OptModel OptSpec OptProofs.
Local Open Scope string_scope.

Section E.
  Context {T Sp Log : Type}.
  Variable compile : string -> option ((string -> string -> string) * (string -> bool)).
  Variable soap_array_type : T -> T.
  Variable soap_array_slice : Sp -> Sp.
  Variable use_field_names : T -> T.
  Notation apply := (apply T Sp Log compile soap_array_type soap_array_slice use_field_names).
  Notation wapply := (wapply T Sp Log compile soap_array_type soap_array_slice use_field_names).
  (* nothing allowed explicitly, so everything is; after AllowType and its undo nothing is *)
  Lemma allow_first h i c n : nth_error h i = Some c -> x_allow _ _ _ c = None -> exists h1 u h2 v c2,
    apply h i (AllowType _ _ _ n) = Some (h1, u) /\ apply h1 i u = Some (h2, v) /\ nth_error h2 i = Some c2 /\ forall ft m, selected ft (x_allow _ _ _ c2) m = false.
  Proof.
    intros E Ea. do 5 eexists. cbn [OptModel.apply]. unfold at_conf. rewrite E, Ea. cbn [mem_name existsb]. split; [reflexivity|]. cbn [OptModel.apply]. unfold at_conf. rewrite (set_get _ _ _ _ E), set_again.
    split; [reflexivity|]. split; [exact (set_get _ _ _ _ E)|]. intros ft m. cbn [set_allow x_allow option_map filter]. rewrite (proj2 (xname_eqb_eq n n) eq_refl). cbn [negb]. unfold selected. cbn [mem_name existsb]. apply andb_false_r.
  Qed.
  Lemma allow_twice h i c l n : nth_error h i = Some c -> x_allow _ _ _ c = Some l -> In n l -> exists h1 u h2 v c2,
    apply h i (AllowType _ _ _ n) = Some (h1, u) /\ h1 = h /\ apply h1 i u = Some (h2, v) /\ nth_error h2 i = Some c2 /\ ~ allowed (x_allow _ _ _ c2) n.
  Proof.
    intros E Ea Hn. apply mem_name_in in Hn. do 5 eexists. cbn [OptModel.apply]. unfold at_conf. rewrite E, Ea, Hn. split; [reflexivity|].
    split; [apply set_back; rewrite E; f_equal; destruct c; cbn in *; subst; reflexivity|]. cbn [OptModel.apply]. unfold at_conf. rewrite (set_get _ _ _ _ E), set_again.
    split; [reflexivity|]. split; [exact (set_get _ _ _ _ E)|]. cbn [set_allow x_allow option_map allowed]. intros H. apply filter_In in H as [_ H]. rewrite (proj2 (xname_eqb_eq n n) eq_refl) in H. discriminate.
  Qed.
  (* the undo of a filter, used on another Config, changes the first one and not the other *)
  Lemma undo_elsewhere h i j names : i <> j -> i < List.length h -> j < List.length h -> exists h1 u v, apply h i (IgnoreAttributes _ _ _ names) = Some (h1, u) /\ apply h1 j u = Some (h, v).
  Proof.
    intros N Hi Hj. destruct (revert compile soap_array_type soap_array_slice use_field_names h i (IgnoreAttributes _ _ _ names) Hi I I) as [h1 [u [v [E1 [E2 _]]]]]. exists h1, u, v. split; [exact E1|].
    rewrite <- E2. cbn [OptModel.apply] in E1. unfold at_conf in E1. destruct (nth_error h i) as [c|]; [|discriminate]. injection E1 as <- <-. reflexivity.
  Qed.
  Lemma only_ports_undo h w l : exists h1 w1 u h2 w2 v, wapply h w (WOnlyPorts _ l) = Some (h1, w1, u) /\ wapply h1 w1 u = Some (h2, w2, v) /\
    exists f, w_ports _ w2 = Some f /\ forall p, f p = false.
  Proof. do 6 eexists. split; [reflexivity|]. split; [reflexivity|]. eexists. split; [reflexivity|]. intros p. reflexivity. Qed.
  Lemma log_level_undo h w c n : nth_error h (w_x _ w) = Some c -> x_level _ _ _ c <> w_level _ w -> exists h1 w1 u h2 v c2, wapply h w (WLogLevel _ n) = Some (h1, w1, u) /\
    wapply h1 w1 u = Some (h2, w, v) /\ nth_error h2 (w_x _ w) = Some c2 /\ x_level _ _ _ c2 = w_level _ w /\ x_level _ _ _ c2 <> x_level _ _ _ c.
  Proof.
    intros E N. destruct w as [w1 w2 w3 w4 w5 w6 w7 w8]. cbn [w_x w_level w_pkg w_header w_logger w_ports w_args w_returns] in *.
    do 6 eexists. cbn [OptModel.wapply OptModel.apply w_x w_level w_pkg w_header w_logger w_ports w_args w_returns]. unfold at_conf. rewrite E. split; [reflexivity|].
    cbn [OptModel.wapply OptModel.apply w_x w_level w_pkg w_header w_logger w_ports w_args w_returns]. unfold at_conf. rewrite (set_get _ _ _ _ E), set_again. split; [reflexivity|].
    split; [exact (set_get _ _ _ _ E)|]. cbn [set_level x_level]. split; [reflexivity|]. congruence.
  Qed.
End E.

(* a compiler of expressions that replaces the whole name, for the cases *)
Definition whole (pat : string) : option ((string -> string -> string) * (string -> bool)) :=
  if String.eqb pat "(" then None else Some ((fun s r => if String.eqb s pat then r else s), String.eqb pat).
Notation conf := (xconf nat nat nat).
Notation apply0 := (apply nat nat nat whole (fun n => n + 1) (fun n => n) (fun n => n * 2)).
Notation all0 := (apply_all whole (fun n => n + 1) (fun n => n) (fun n => n * 2)).
Definition c0 : conf := blank nat nat nat.
Definition some_opts : list (opt nat nat nat) :=
  [Replace _ _ _ "a" "b"; IgnoreAttributes _ _ _ ["id"]; Replace _ _ _ "(" "x"; UseFieldNames _ _ _; Replace _ _ _ "b" "c"; HandleSOAPArrayType _ _ _; IgnoreAttributes _ _ _ ["href"];
   PackageName _ _ _ "p"; OnlyTypes _ _ _ ["T"]; Namespaces _ _ _ ["urn:a"; "urn:b"]].
Definition id_at (s : string) : attribute := mkAttribute (mkName "" s) "" TNil "" false [] [].
Definition shown (c : conf) := (nlocal (run_fn (x_name _ _ _ c) (mkName "" "a")), run_fn (x_pre _ _ _ c) 3, filtered (x_fa _ _ _ c) (id_at "id"), filtered (x_fa _ _ _ c) (id_at "href"), x_pkg _ _ _ c, x_ns _ _ _ c,
  filtered (x_ft _ _ _ c) (mkName "urn:a" "T"), filtered (x_ft _ _ _ c) (mkName "urn:a" "U")).
Lemma some_opts_applied : match all0 [c0; c0] 1 some_opts with Some ([a; b], us) => (shown a, shown b, List.length us) | _ => (shown c0, shown c0, 0) end =
  (("a", 3, false, false, "", [], false, false), ("c", 7, false, true, "p", ["urn:a"; "urn:b"], false, true), 10).
Proof. vm_compute. reflexivity. Qed.
Lemma some_opts_ok : Forall (about nat nat nat 1) some_opts /\ Forall (ordinary nat nat nat) some_opts /\ Forall (public_opt nat nat nat) some_opts.
Proof. repeat split; repeat constructor. Qed.
