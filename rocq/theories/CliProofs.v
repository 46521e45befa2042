(* A Config that is used more than once. *)
From Verif Require Import Base ScopeModel TreeModel EqualModel BuiltinModel XsdModel TypesModel GenModel SgModel FilesModel OptModel OptSpec OptProofs MethodModel CliModel CliSpec SgProofs.
Local Open Scope string_scope.

Section CliProofs.
  Variables T Sp Log : Type.
  Variable compile : string -> option ((string -> string -> string) * (string -> bool)).
  Variable soap_array_type : T -> T.
  Variable soap_array_slice : Sp -> Sp.
  Variable use_field_names : T -> T.
  Variables D A : Type.
  Variable tree : D -> option elem.
  Variable targets : list D -> list string.
  Variable refused : list string -> list D -> bool.
  Variable generate : xconf T Sp Log -> list Z * list string -> list D -> run A * (list Z * list string).
  Variable format : A -> string -> option D.
  Variable writable : string -> bool.
  Variable fuel : nat.
  Notation conf := (xconf T Sp Log).
  Notation opt := (OptModel.opt T Sp Log).
  Notation world := (CliModel.world T Sp Log D).
  Notation op := (CliModel.op T Sp Log D).
  Notation apply := (OptModel.apply T Sp Log compile soap_array_type soap_array_slice use_field_names).
  Notation gen_code := (CliModel.gen_code T Sp Log compile soap_array_type soap_array_slice use_field_names D A targets refused generate).
  Notation gen_ast := (CliModel.gen_ast T Sp Log compile soap_array_type soap_array_slice use_field_names D A tree targets refused generate fuel).
  Notation set_option := (CliModel.set_option T Sp Log compile soap_array_type soap_array_slice use_field_names D).
  Notation set_options := (CliModel.set_options T Sp Log compile soap_array_type soap_array_slice use_field_names D).
  Notation gen_cli := (CliModel.gen_cli T Sp Log compile soap_array_type soap_array_slice use_field_names D A tree targets refused generate format writable fuel).
  Notation step := (CliModel.step T Sp Log compile soap_array_type soap_array_slice use_field_names D A tree targets refused generate format writable fuel).
  Notation steps := (CliModel.steps T Sp Log compile soap_array_type soap_array_slice use_field_names D A tree targets refused generate format writable fuel).
  Notation answer := (CliSpec.answer T Sp Log compile soap_array_type soap_array_slice use_field_names D A targets refused generate).
  Notation named := (CliSpec.named T Sp Log compile soap_array_type soap_array_slice use_field_names D A tree targets refused generate format writable fuel).
  Notation confs := (w_confs T Sp Log D).
  Notation files := (w_files T Sp Log D).
  Notation ns := (x_ns T Sp Log).

  (* what GenCode makes of a Config *)
  Definition with_ns (c : conf) (data : list D) : conf := match ns c with [] => set_ns T Sp Log (targets data) c | _ => c end.
  Lemma code_is w i data c : nth_error (confs w) i = Some c -> exists w', gen_code w i data = Some (w', if refused (ns (with_ns c data)) data then Fail else fst (generate (with_ns c data) (standard_types, standard_funcs) data)) /\
    confs w' = set_nth i (with_ns c data) (confs w) /\ files w' = files w.
  Proof.
    intros E. unfold CliModel.gen_code. rewrite E. unfold with_ns.
    assert (X : (match ns c with [] => set_option w i (Namespaces _ _ _ (targets data)) | _ => Some w end) = Some (put_confs _ _ _ _ (set_nth i (with_ns c data) (confs w)) w)).
    { unfold with_ns, CliModel.set_option. destruct (ns c) as [|n l] eqn:En; [cbn [OptModel.apply]; unfold at_conf; rewrite E; reflexivity|]. rewrite (set_back _ _ _ E). destruct w; reflexivity. }
    rewrite X. cbn [put_confs w_confs]. rewrite (set_get _ _ _ _ E). fold (with_ns c data). destruct (refused (ns (with_ns c data)) data).
    - eexists. split; [reflexivity|]. split; reflexivity.
    - cbn [put_left w_left]. rewrite Nat.eqb_refl. destruct (generate (with_ns c data) (standard_types, standard_funcs) data) as [r rest]. eexists. split; [reflexivity|]. split; reflexivity.
  Qed.
  Lemma code_none w i data : nth_error (confs w) i = None -> gen_code w i data = None.
  Proof. intros E. unfold CliModel.gen_code. rewrite E. reflexivity. Qed.
  Lemma with_ns_named c data : ns c <> [] -> with_ns c data = c.
  Proof. unfold with_ns. destruct (ns c); [congruence|reflexivity]. Qed.
  Lemma with_ns_again c data : with_ns (with_ns c data) data = with_ns c data.
  Proof. unfold with_ns. destruct (ns c) as [|n l] eqn:E; [|rewrite E; reflexivity]. cbn [set_ns x_ns]. destruct (targets data); reflexivity. Qed.
  (* only the Config counts *)
  Lemma answer_confs w u i data : nth_error (confs w) i = nth_error (confs u) i -> answer w i data = answer u i data.
  Proof.
    intros E. unfold CliSpec.answer. destruct (nth_error (confs u) i) as [c|] eqn:Eu.
    - destruct (code_is w i data c E) as (w' & -> & _). destruct (code_is u i data c Eu) as (u' & -> & _). reflexivity.
    - rewrite (code_none w), (code_none u) by assumption. reflexivity.
  Qed.
  Lemma option_confs w u i o : confs w = confs u -> match set_option w i o, set_option u i o with Some w', Some u' => confs w' = confs u' | None, None => True | _, _ => False end.
  Proof. intros E. unfold CliModel.set_option. rewrite E. destruct (apply (confs u) i o) as [[h' x]|]; [reflexivity|exact I]. Qed.
  Lemma history l : forall w u w', confs w = confs u -> no_cli _ _ _ _ l -> named w l -> steps w l = Some w' -> exists u', steps u (settings _ _ _ _ l) = Some u' /\ confs u' = confs w' /\ files u' = files u /\ files w' = files w.
  Proof.
    induction l as [|o l IH]; intros w u w' E N M H.
    - cbn in H. injection H as <-. exists u. split; [reflexivity|]. auto.
    - inversion N as [|? ? N1 N2]; subst. cbn [CliSpec.named] in M. destruct M as [M1 M2]. cbn [CliModel.steps] in H. destruct (step w o) as [[w1 r]|] eqn:S; [|discriminate]. specialize (M2 _ _ eq_refl). destruct o as [i o|i data|i f]; [| |destruct N1].
      + cbn [settings filter]. cbn [CliModel.steps]. cbn [CliModel.step] in S |- *. pose proof (option_confs w u i o E) as X. destruct (set_option w i o) as [w2|] eqn:Ew; [|discriminate]. injection S as <- <-. destruct (set_option u i o) as [u2|] eqn:Eu; [|destruct X].
        destruct (IH w2 u2 w' X N2 M2 H) as (u' & H1 & H2 & H3 & H4). exists u'. split; [exact H1|]. split; [exact H2|]. unfold CliModel.set_option in Ew, Eu. destruct (apply (confs w) i o) as [[h1 x1]|]; [|discriminate]. destruct (apply (confs u) i o) as [[h2 x2]|]; [|discriminate].
        injection Ew as <-. injection Eu as <-. split; assumption.
      + change (settings _ _ _ _ (Gen T Sp Log D i data :: l)) with (settings T Sp Log D l). cbn [CliModel.step] in S. destruct (nth_error (confs w) i) as [c|] eqn:Ec; [|rewrite code_none in S by exact Ec; discriminate].
        destruct (code_is w i data c Ec) as (w2 & G & C & F). rewrite G in S. injection S as <- _. rewrite with_ns_named in C by exact (M1 c eq_refl). rewrite (set_back _ _ _ Ec) in C.
        destruct (IH w2 u w' (eq_trans C E) N2 M2 H) as (u' & H1 & H2 & H3 & H4). exists u'. repeat split; auto. congruence.
  Qed.
  Theorem history_does_not_matter l w w' : no_cli _ _ _ _ l -> named w l -> steps w l = Some w' ->
    exists u, steps w (settings _ _ _ _ l) = Some u /\ confs u = confs w' /\ forall i data, answer w' i data = answer u i data.
  Proof. intros N M H. destruct (history l w w w' eq_refl N M H) as (u & H1 & H2 & _). exists u. split; [exact H1|]. split; [exact H2|]. intros i data. apply answer_confs. rewrite H2. reflexivity. Qed.
  Theorem remembered w i data c w' r : nth_error (confs w) i = Some c -> ns c = [] -> gen_code w i data = Some (w', r) ->
    nth_error (confs w') i = Some (set_ns _ _ _ (targets data) c) /\ (forall j, j <> i -> nth_error (confs w') j = nth_error (confs w) j) /\ files w' = files w /\
    forall data', refused (targets data) data' = true -> targets data <> [] -> answer w' i data' = Some Fail.
  Proof.
    intros E N H. destruct (code_is w i data c E) as (w1 & G & C & F). rewrite G in H. injection H as -> _. assert (W : with_ns c data = set_ns _ _ _ (targets data) c) by (unfold with_ns; rewrite N; reflexivity). rewrite W in C.
    split; [rewrite C; exact (set_get _ _ _ _ E)|]. split; [intros j Hj; rewrite C; apply set_else; exact Hj|]. split; [exact F|]. intros data' R Nt.
    unfold CliSpec.answer. destruct (code_is w' i data' (set_ns _ _ _ (targets data) c)) as (w2 & -> & _); [rewrite C; exact (set_get _ _ _ _ E)|]. rewrite with_ns_named by exact Nt. cbn [set_ns x_ns]. rewrite R. reflexivity.
  Qed.
  Theorem repeated w i data w' r : gen_code w i data = Some (w', r) -> answer w' i data = Some r /\ exists w'', gen_code w' i data = Some (w'', r) /\ confs w'' = confs w' /\ files w'' = files w.
  Proof.
    intros H. destruct (nth_error (confs w) i) as [c|] eqn:E; [|rewrite code_none in H by exact E; discriminate]. destruct (code_is w i data c E) as (w1 & G & C & F). rewrite G in H. injection H as -> <-.
    assert (E' : nth_error (confs w') i = Some (with_ns c data)) by (rewrite C; exact (set_get _ _ _ _ E)). destruct (code_is w' i data _ E') as (w2 & G' & C' & F'). rewrite with_ns_again in G', C'. rewrite (set_back _ _ _ E') in C'.
    unfold CliSpec.answer. rewrite G'. split; [reflexivity|]. exists w2. split; [reflexivity|]. split; [exact C'|congruence].
  Qed.
  (* other Configs keep their options and their helpers *)
  Theorem apart w i data w' r : gen_code w i data = Some (w', r) -> forall j, j <> i -> nth_error (confs w') j = nth_error (confs w) j /\ w_left _ _ _ _ w' j = w_left _ _ _ _ w j.
  Proof.
    intros H j Hj. destruct (nth_error (confs w) i) as [c|] eqn:E; [|rewrite code_none in H by exact E; discriminate]. split; [destruct (code_is w i data c E) as (w1 & G & C & F); rewrite G in H; injection H as -> _; rewrite C; apply set_else; exact Hj|].
    revert H. unfold CliModel.gen_code. rewrite E. assert (L : forall o w1, set_option w i o = Some w1 -> w_left _ _ _ _ w1 = w_left _ _ _ _ w) by (intros o w1; unfold CliModel.set_option; destruct (apply (confs w) i o) as [[h x]|]; [intros [= <-]; reflexivity|discriminate]).
    assert (X : forall w1, (match ns c with [] => set_option w i (Namespaces _ _ _ (targets data)) | _ => Some w end) = Some w1 -> w_left _ _ _ _ w1 = w_left _ _ _ _ w) by (intros w1; destruct (ns c); [apply L|intros [= <-]; reflexivity]).
    apply Nat.eqb_neq in Hj. destruct (match ns c with [] => _ | _ => _ end) as [w1|]; [|discriminate]. rewrite <- (X w1 eq_refl). destruct (nth_error (confs w1) i) as [c1|]; [|discriminate]. destruct (refused _ _); [intros [= <- _]; reflexivity|].
    destruct (generate _ _ _) as [r1 rest]. intros [= <- _]. cbn [put_left w_left]. rewrite !Hj. reflexivity.
  Qed.

  (* ---------- GenCLI ---------- *)
  Definition put_opt (o : opt) (c : conf) : conf :=
    match o with
    | Namespaces _ _ _ l => set_ns _ _ _ l c
    | LogLevel _ _ _ n => set_level _ _ _ n c
    | PackageName _ _ _ n => set_pkg _ _ _ n c
    | FollowImports _ _ _ b => set_follow _ _ _ b c
    | ReplaceNames _ _ _ rx repl => set_name _ _ _ (Some (after (x_name _ _ _ c) (local_by rx repl))) c
    | _ => c
    end.
  Definition flag_opt (o : opt) : Prop := match o with Namespaces _ _ _ _ | LogLevel _ _ _ _ | PackageName _ _ _ _ | FollowImports _ _ _ _ | ReplaceNames _ _ _ _ _ => True | _ => False end.
  Lemma options_are l : Forall flag_opt l -> forall w i c, nth_error (confs w) i = Some c ->
    set_options w i l = Some (put_confs _ _ _ _ (set_nth i (fold_left (fun c o => put_opt o c) l c) (confs w)) w).
  Proof.
    induction 1 as [|o l Ho Hl IH]; intros w i c E; cbn [CliModel.set_options fold_left].
    - rewrite (set_back _ _ _ E). destruct w; reflexivity.
    - assert (X : set_option w i o = Some (put_confs _ _ _ _ (set_nth i (put_opt o c) (confs w)) w)) by (unfold CliModel.set_option; destruct o; try destruct Ho; cbn [OptModel.apply]; unfold at_conf; rewrite E; reflexivity).
      rewrite X. rewrite (IH _ i (put_opt o c)) by (cbn [put_confs w_confs]; exact (set_get _ _ _ _ E)). cbn [put_confs w_confs]. rewrite set_again. reflexivity.
  Qed.
  Lemma flags_opt f : Forall flag_opt (flag_options T Sp Log f).
  Proof.
    unfold flag_options. apply Forall_app. split; [destruct (fl_vv f); [|destruct (fl_v f)]; repeat constructor|]. apply Forall_app. split; [repeat constructor|]. apply Forall_app. split; [|destruct (String.eqb (fl_pkg f) ""); repeat constructor].
    apply Forall_forall. intros o H. apply in_map_iff in H as (r & <- & _). exact I.
  Qed.
  Definition flagged (f : flags) (c : conf) : conf := fold_left (fun c o => put_opt o c) (flag_options T Sp Log f) c.
  Lemma rules_are rules : forall c, let c' := fold_left (fun c o => put_opt o c) (map (fun r => ReplaceNames T Sp Log (fst r) (snd r)) rules) c in
    c' = set_name _ _ _ (x_name _ _ _ c') c /\ forall n, transform _ _ _ c' n = by_rules rules (transform _ _ _ c n).
  Proof.
    induction rules as [|r rules IH]; intros c; cbn [map fold_left].
    - cbv zeta. split; [destruct c; reflexivity|reflexivity].
    - cbv zeta. destruct (IH (put_opt (ReplaceNames T Sp Log (fst r) (snd r)) c)) as [I1 I2]. split; [rewrite I1 at 1; reflexivity|]. intros n. rewrite I2. unfold by_rules. cbn [fold_left]. f_equal.
      cbn [put_opt]. unfold transform, set_name. cbn [x_name]. unfold after, local_by. destruct (x_name _ _ _ c); reflexivity.
  Qed.
  Lemma flagged_is f c : ns (flagged f c) = fl_ns f /\ x_follow _ _ _ (flagged f c) = fl_follow f /\ (forall n, transform _ _ _ (flagged f c) n = by_rules (fl_rules f) (transform _ _ _ c n)) /\
    x_pkg _ _ _ (flagged f c) = (if String.eqb (fl_pkg f) "" then x_pkg _ _ _ c else fl_pkg f) /\
    x_level _ _ _ (flagged f c) = (if fl_vv f then 5%Z else if fl_v f then 1%Z else x_level _ _ _ c) /\
    x_logger _ _ _ (flagged f c) = x_logger _ _ _ c /\ x_pre _ _ _ (flagged f c) = x_pre _ _ _ c /\ x_post _ _ _ (flagged f c) = x_post _ _ _ c /\ x_fa _ _ _ (flagged f c) = x_fa _ _ _ c /\
    x_fe _ _ _ (flagged f c) = x_fe _ _ _ c /\ x_ft _ _ _ (flagged f c) = x_ft _ _ _ c /\ x_allow _ _ _ (flagged f c) = x_allow _ _ _ c.
  Proof.
    unfold flagged, flag_options. rewrite !fold_left_app. set (c1 := fold_left _ (if fl_vv f then _ else _) c).
    assert (C1 : c1 = set_level _ _ _ (if fl_vv f then 5%Z else if fl_v f then 1%Z else x_level _ _ _ c) c) by (unfold c1; destruct (fl_vv f); [reflexivity|]; destruct (fl_v f); [reflexivity|]; destruct c; reflexivity).
    cbn [fold_left put_opt]. set (c2 := set_follow _ _ _ _ _). destruct (rules_are (fl_rules f) c2) as [R1 R2]. revert R1 R2. cbv zeta. set (c3 := fold_left _ (map _ _) c2). intros R1 R2.
    assert (P : fold_left (fun c o => put_opt o c) (if String.eqb (fl_pkg f) "" then [] else [PackageName T Sp Log (fl_pkg f)]) c3 = set_pkg _ _ _ (if String.eqb (fl_pkg f) "" then x_pkg _ _ _ c3 else fl_pkg f) c3) by (destruct (String.eqb (fl_pkg f) ""); [destruct c3; reflexivity|reflexivity]).
    rewrite P. clear P. assert (R2' : forall n, transform _ _ _ (set_pkg _ _ _ (if String.eqb (fl_pkg f) "" then x_pkg _ _ _ c3 else fl_pkg f) c3) n = by_rules (fl_rules f) (transform _ _ _ c n)).
    { intros n. change (transform _ _ _ c3 n = by_rules (fl_rules f) (transform _ _ _ c n)). rewrite R2. f_equal. unfold c2. rewrite C1. reflexivity. }
    assert (R3 : exists nm, c3 = set_name _ _ _ nm c2) by (exists (x_name _ _ _ c3); exact R1). clearbody c3. clear R1 R2. destruct R3 as [nm ->]. unfold c2 in *. clear c2. rewrite C1 in *. clear c1 C1. cbn [x_pkg set_name set_follow set_ns set_level] in *.
    repeat (split; [reflexivity || exact R2'|]). reflexivity.
  Qed.
  Lemma ast_is w i c fs : nth_error (confs w) i = Some c -> exists w' r, gen_ast w i fs = Some (w', r) /\ files w' = files w /\ exists c', confs w' = set_nth i c' (confs w) /\ (c' = c \/ exists data, c' = with_ns c data).
  Proof.
    intros E. unfold CliModel.gen_ast. rewrite E. destruct (read_files D (files w) tree fuel (x_follow _ _ _ c) fs) as [data| | |].
    - destruct (code_is w i data c E) as (w' & -> & C & F). eexists. eexists. split; [reflexivity|]. split; [exact F|]. eauto.
    - destruct (code_is w i [] c E) as (w' & -> & C & F). eexists. eexists. split; [reflexivity|]. split; [exact F|]. eauto.
    - eexists. eexists. split; [reflexivity|]. split; [reflexivity|]. exists c. rewrite (set_back _ _ _ E). auto.
    - eexists. eexists. split; [reflexivity|]. split; [reflexivity|]. exists c. rewrite (set_back _ _ _ E). auto.
  Qed.
  Lemma flagged_left f c c' : c' = flagged f c \/ (exists data, c' = with_ns (flagged f c) data) -> left_by T Sp Log D targets f c c'.
  Proof.
    intros H. destruct (flagged_is f c) as (F1 & F2 & F3 & F4 & F5 & F6). unfold left_by.
    assert (X : c' = set_ns _ _ _ (ns c') (flagged f c) /\ (fl_ns f <> [] -> ns c' = fl_ns f) /\ (fl_ns f = [] -> ns c' = [] \/ exists data, ns c' = targets data)).
    { destruct H as [->|(data & ->)]; [rewrite F1; split; [rewrite <- F1; destruct (flagged f c); reflexivity|]; split; [reflexivity|intros ->; left; reflexivity]|]. unfold with_ns. rewrite F1. destruct (fl_ns f) eqn:En.
      - split; [destruct (flagged f c); reflexivity|]. split; [congruence|]. intros _. right. exists data. reflexivity.
      - split; [destruct (flagged f c); reflexivity|]. split; [intros _; exact F1|discriminate]. }
    destruct X as (X1 & X2 & X3). split; [exact X2|]. split; [exact X3|]. rewrite X1. cbn [set_ns x_follow x_pkg x_level x_logger x_pre x_post x_fa x_fe x_ft x_allow]. unfold transform in *. cbn [set_ns x_name]. auto.
  Qed.
  Theorem cli_does w i f c : nth_error (confs w) i = Some c -> exists w' r, gen_cli w i f = Some (w', r) /\
    (r <> Ret tt -> files w' = files w) /\
    (r = Ret tt -> exists a d, format a (fl_out f) = Some d /\ writable (fl_out f) = true /\ forall n, files w' n = if String.eqb n (fl_out f) then Some d else files w n) /\
    (forall j, j <> i -> nth_error (confs w') j = nth_error (confs w) j) /\
    (fl_files f = [] -> w' = w /\ r = Fail) /\
    (fl_files f <> [] -> exists c', nth_error (confs w') i = Some c' /\ left_by T Sp Log D targets f c c').
  Proof.
    intros E. unfold CliModel.gen_cli. destruct (fl_files f) as [|file fs] eqn:Ef.
    { exists w, Fail. split; [reflexivity|]. split; [auto|]. split; [discriminate|]. split; [auto|]. split; [auto|congruence]. }
    rewrite (options_are _ (flags_opt f) w i c E). fold (flagged f c). set (w1 := put_confs _ _ _ _ _ w).
    assert (E1 : nth_error (confs w1) i = Some (flagged f c)) by exact (set_get _ _ _ _ E). destruct (ast_is w1 i (flagged f c) (file :: fs) E1) as (w2 & r & -> & F & c' & C & Hc).
    assert (K1 : forall j, j <> i -> nth_error (confs w2) j = nth_error (confs w) j) by (intros j Hj; rewrite C; unfold w1; cbn [put_confs w_confs]; rewrite !set_else by exact Hj; reflexivity).
    assert (K2 : exists c', nth_error (confs w2) i = Some c' /\ left_by T Sp Log D targets f c c') by (exists c'; split; [rewrite C; exact (set_get _ _ _ _ E1)|apply flagged_left, Hc]).
    assert (F' : files w2 = files w) by exact F.
    destruct r as [a| | |]; [|eexists; eexists; split; [reflexivity|]; split; [auto|]; split; [discriminate|]; split; [exact K1|]; split; [discriminate|auto]..].
    unfold write_source. destruct (format a (fl_out f)) as [d|] eqn:Ed; [destruct (writable (fl_out f)) eqn:Ew|].
    - eexists. eexists. split; [reflexivity|]. split; [congruence|]. split; [intros _; exists a, d; split; [exact Ed|]; split; [reflexivity|]; intros n; cbn [put_file w_files]; rewrite F'; reflexivity|]. split; [exact K1|]. split; [discriminate|auto].
    - eexists; eexists; split; [reflexivity|]; split; [auto|]; split; [discriminate|]; split; [exact K1|]; split; [discriminate|auto].
    - eexists; eexists; split; [reflexivity|]; split; [auto|]; split; [discriminate|]; split; [exact K1|]; split; [discriminate|auto].
  Qed.
  (* namespaces, imports and helpers from before do not matter *)
  Lemma fold_ns l : Forall flag_opt l -> forall c n b, exists n' b', fold_left (fun c o => put_opt o c) l (set_ns _ _ _ n (set_follow _ _ _ b c)) = set_ns _ _ _ n' (set_follow _ _ _ b' (fold_left (fun c o => put_opt o c) l c)).
  Proof.
    induction 1 as [|o l Ho Hl IH]; intros c n b; cbn [fold_left]; [eauto|]. destruct o; try destruct Ho; cbn [put_opt].
    - destruct (IH (set_ns _ _ _ l0 c) l0 b) as (n' & b' & X). exists n', b'. rewrite <- X. reflexivity.
    - destruct (IH (set_level _ _ _ n0 c) n b) as (n' & b' & X). exists n', b'. rewrite <- X. reflexivity.
    - destruct (IH (set_pkg _ _ _ s c) n b) as (n' & b' & X). exists n', b'. rewrite <- X. reflexivity.
    - destruct (IH (set_follow _ _ _ b0 c) n b0) as (n' & b' & X). exists n', b'. rewrite <- X. reflexivity.
    - destruct (IH (set_name _ _ _ (Some (after (x_name _ _ _ c) (local_by rx repl))) c) n b) as (n' & b' & X). exists n', b'. rewrite <- X. reflexivity.
  Qed.
  Lemma flagged_ns f c n b : flagged f (set_ns _ _ _ n (set_follow _ _ _ b c)) = flagged f c.
  Proof.
    destruct (fold_ns _ (flags_opt f) c n b) as (n' & b' & X). fold (flagged f c) in X. fold (flagged f (set_ns _ _ _ n (set_follow _ _ _ b c))) in X.
    destruct (flagged_is f c) as (F1 & F2 & _). destruct (flagged_is f (set_ns _ _ _ n (set_follow _ _ _ b c))) as (G1 & G2 & _). rewrite X in G1, G2. cbn [set_ns set_follow x_ns x_follow] in G1, G2. rewrite X, G1, G2, <- F1, <- F2. destruct (flagged f c); reflexivity.
  Qed.
  Lemma ast_same w u i fs : nth_error (confs w) i = nth_error (confs u) i -> files w = files u -> option_map snd (gen_ast w i fs) = option_map snd (gen_ast u i fs).
  Proof.
    intros E F. unfold CliModel.gen_ast. rewrite <- E, F. destruct (nth_error (confs w) i) as [c|] eqn:Ec; [|reflexivity]. destruct (read_files D (files u) tree fuel (x_follow _ _ _ c) fs) as [data| | |]; try reflexivity; apply (answer_confs w u i); congruence.
  Qed.
  Theorem cli_fresh w u i f c n b : nth_error (confs w) i = Some c -> nth_error (confs u) i = Some (set_ns _ _ _ n (set_follow _ _ _ b c)) -> files w = files u ->
    exists w' u' r, gen_cli w i f = Some (w', r) /\ gen_cli u i f = Some (u', r) /\ forall m, files w' m = files u' m.
  Proof.
    intros E1 E2 F. unfold CliModel.gen_cli. destruct (fl_files f) as [|file fs]; [exists w, u, Fail; rewrite F; auto|].
    rewrite (options_are _ (flags_opt f) w i _ E1), (options_are _ (flags_opt f) u i _ E2). fold (flagged f c). fold (flagged f (set_ns _ _ _ n (set_follow _ _ _ b c))). rewrite flagged_ns. set (w1 := put_confs _ _ _ _ _ w). set (u1 := put_confs _ _ _ _ _ u).
    assert (W : nth_error (confs w1) i = Some (flagged f c)) by exact (set_get _ _ _ _ E1). assert (U : nth_error (confs u1) i = Some (flagged f c)) by exact (set_get _ _ _ _ E2).
    pose proof (ast_same w1 u1 i (file :: fs) (eq_trans W (eq_sym U)) F) as S. destruct (ast_is w1 i _ (file :: fs) W) as (w2 & r & Ew & Fw & _). destruct (ast_is u1 i _ (file :: fs) U) as (u2 & r' & Eu & Fu & _). rewrite Ew, Eu in *. cbn [option_map snd] in S. injection S as <-.
    assert (FF : forall m, files w2 m = files u2 m) by (intros m; rewrite Fw, Fu; unfold w1, u1; cbn [put_confs w_files]; rewrite F; reflexivity).
    destruct r as [a| | |]; [|eauto 8..]. unfold write_source. destruct (format a (fl_out f)) as [d|]; [destruct (writable (fl_out f))|].
    - eexists. eexists. eexists. split; [reflexivity|]. split; [reflexivity|]. intros m. cbn [put_file w_files]. rewrite FF. reflexivity.
    - eauto 8.
    - eauto 8.
  Qed.

  (* ---------- wsdlgen ---------- *)
  Variable Def : Type.
  Variable wsdl_parse : D -> option Def.
  Variable emit : wconf Log -> Def -> A -> option A.
  Notation wsdl_gen_ast := (CliModel.wsdl_gen_ast T Sp Log compile soap_array_type soap_array_slice use_field_names D A targets refused generate Def wsdl_parse emit).
  Notation wsdl_gen_cli := (CliModel.wsdl_gen_cli T Sp Log compile soap_array_type soap_array_slice use_field_names D A targets refused generate format writable Def wsdl_parse emit).
  Notation wset_options := (CliModel.wset_options T Sp Log compile soap_array_type soap_array_slice use_field_names D).
  Lemma mapo_some {X Y} (g : X -> option Y) l m : mapo g l = Some m -> forall x, In x l -> exists y, g x = Some y.
  Proof. revert m. induction l as [|a l IH]; intros m H x Hx; [destruct Hx|]. cbn [mapo] in H. destruct (g a) as [y|] eqn:Ea; [|discriminate]. destruct (mapo g l) as [m'|] eqn:Em; [|discriminate]. destruct Hx as [<-|Hx]; [eauto|exact (IH m' eq_refl x Hx)]. Qed.
  Lemma code_files w i data w' r : gen_code w i data = Some (w', r) -> files w' = files w.
  Proof. intros H. destruct (nth_error (confs w) i) as [c|] eqn:E; [|rewrite code_none in H by exact E; discriminate]. destruct (code_is w i data c E) as (w1 & G & C & F). rewrite G in H. injection H as <- _. exact F. Qed.
  Theorem wsdl_ast_does w v fs w' v' r : wsdl_gen_ast w v fs = Some (w', v', r) -> files w' = files w /\ v' = match fs with [] => v | _ => defaults Log v end /\
    (fs = [] -> r = Fail) /\ (forall n, In n fs -> files w n = None -> r = Fail /\ w' = w).
  Proof.
    unfold CliModel.wsdl_gen_ast. destruct fs as [|f fs]; [intros [= <- <- <-]; split; [reflexivity|]; split; [reflexivity|]; split; [reflexivity|intros n []]|].
    assert (U : forall m, mapo (files w) (f :: fs) = Some m -> forall n, In n (f :: fs) -> files w n = None -> r = Fail /\ w' = w) by (intros m Hm n Hn Hf; destruct (mapo_some _ _ _ Hm n Hn) as [y Y]; congruence).
    destruct (mapo (files w) (f :: fs)) as [[|d ds]|] eqn:E.
    - intros [= <- <- <-]. split; [reflexivity|]. split; [reflexivity|]. split; [discriminate|]. exact (U _ eq_refl).
    - specialize (U _ eq_refl). destruct (wsdl_parse d) as [def|]; [|intros [= <- <- <-]; split; [reflexivity|]; split; [reflexivity|]; split; [discriminate|exact U]].
      destruct (gen_code w (w_x Log (defaults Log v)) (d :: ds)) as [[w1 r1]|] eqn:G; [|discriminate]. apply code_files in G. intros H. assert (X : w1 = w' /\ v' = defaults Log v) by (destruct r1; injection H; auto). destruct X as [-> ->].
      split; [exact G|]. split; [reflexivity|]. split; [discriminate|exact U].
    - intros [= <- <- <-]. split; [reflexivity|]. split; [reflexivity|]. split; [discriminate|auto].
  Qed.
  Lemma woptions_files l : forall w v w' v', wset_options w v l = Some (w', v') -> files w' = files w.
  Proof.
    induction l as [|[o|o] l IH]; intros w v w' v'; cbn [CliModel.wset_options]; [intros [= <- _]; reflexivity| |].
    - destruct (OptModel.wapply _ _ _ _ _ _ _ (confs w) v o) as [[[h v1] u]|]; [|discriminate]. intros H. apply IH in H. exact H.
    - unfold CliModel.set_option. destruct (apply (confs w) (w_x Log v) o) as [[h u]|]; [|discriminate]. intros H. apply IH in H. exact H.
  Qed.
  Theorem wsdl_cli_does w v f w' v' r : wsdl_gen_cli w v f = Some (w', v', r) -> (r <> Ret tt -> files w' = files w) /\
    (r = Ret tt -> (exists a d, format a (wf_out f) = Some d /\ writable (wf_out f) = true /\ forall n, files w' n = if String.eqb n (wf_out f) then Some d else files w n) /\
       wf_files f <> [] /\ forall n, In n (wf_files f) -> files w n <> None).
  Proof.
    unfold CliModel.wsdl_gen_cli. destruct (wf_files f) as [|file fs]; [intros [= <- <- <-]; split; [reflexivity|discriminate]|]. destruct (wset_options w v (wflag_options T Sp Log f)) as [[w1 v1]|] eqn:O; [|discriminate]. apply woptions_files in O.
    destruct (wsdl_gen_ast w1 v1 (file :: fs)) as [[[w2 v2] r2]|] eqn:G; [|discriminate]. destruct (wsdl_ast_does _ _ _ _ _ _ G) as (F & _ & _ & U). destruct r2 as [a| | |]; [|intros [= <- <- <-]; split; [congruence|discriminate]..].
    unfold write_source. destruct (format a (wf_out f)) as [d|] eqn:Ed; [destruct (writable (wf_out f)) eqn:Ew|]; intros [= <- <- <-]; (split; [try (intros X; destruct (X eq_refl)); intros _; congruence|]); try discriminate.
    intros _. split; [exists a, d; split; [exact Ed|]; split; [reflexivity|]; intros n; cbn [put_file w_files]; rewrite F, O; reflexivity|]. split; [discriminate|]. intros n Hn X. rewrite <- O in X. destruct (U n Hn X) as [Y _]. discriminate.
  Qed.

  (* what wsdlgen's GenCLI leaves *)
  Definition vput (v : wconf Log) (o : wopt Log + opt) : wconf Log :=
    match o with
    | inl (WOnlyPorts _ l) => mkW _ (w_pkg _ v) (w_header _ v) (w_logger _ v) (w_level _ v) (w_x _ v) (Some (fun p => mem_str p l)) (w_args _ v) (w_returns _ v)
    | inl (WPackageName _ s) => mkW _ s (w_header _ v) (w_logger _ v) (w_level _ v) (w_x _ v) (w_ports _ v) (w_args _ v) (w_returns _ v)
    | inl (WPackageComment _ s) => mkW _ (w_pkg _ v) s (w_logger _ v) (w_level _ v) (w_x _ v) (w_ports _ v) (w_args _ v) (w_returns _ v)
    | inl (WLogLevel _ n) => mkW _ (w_pkg _ v) (w_header _ v) (w_logger _ v) n (w_x _ v) (w_ports _ v) (w_args _ v) (w_returns _ v)
    | _ => v
    end.
  Definition cput (c : conf) (o : wopt Log + opt) : conf :=
    match o with
    | inl (WLogLevel _ n) => set_level _ _ _ n c
    | inr (PackageName _ _ _ s) => set_pkg _ _ _ s c
    | inr (Replace _ _ _ pat repl) => set_name _ _ _ (Some (after (x_name _ _ _ c) (replace_by compile pat repl))) c
    | _ => c
    end.
  Definition wflag_opt (o : wopt Log + opt) : Prop :=
    match o with inl (WOnlyPorts _ _) | inl (WPackageName _ _) | inl (WPackageComment _ _) | inl (WLogLevel _ _) | inr (PackageName _ _ _ _) | inr (Replace _ _ _ _ _) => True | _ => False end.
  Lemma vput_x o v : w_x _ (vput v o) = w_x _ v.
  Proof. destruct o as [[]|[]]; reflexivity. Qed.
  Lemma put_same (w : world) i c : nth_error (confs w) i = Some c -> put_confs _ _ _ _ (set_nth i c (confs w)) w = w.
  Proof. intros E. rewrite (set_back _ _ _ E). destruct w; reflexivity. Qed.
  Lemma woptions_are l : Forall wflag_opt l -> forall w v c, nth_error (confs w) (w_x _ v) = Some c ->
    wset_options w v l = Some (put_confs _ _ _ _ (set_nth (w_x _ v) (fold_left cput l c) (confs w)) w, fold_left vput l v).
  Proof.
    induction 1 as [|o rest Ho Hl IH]; intros w v c E; cbn [CliModel.wset_options fold_left].
    - rewrite (put_same _ _ _ E). reflexivity.
    - destruct o as [o|o]; (destruct o; try destruct Ho); cbn [OptModel.wapply vput cput]; unfold CliModel.set_option; cbn [OptModel.apply]; unfold at_conf; rewrite ?E;
           match goal with
           | |- _ = Some (put_confs _ _ _ _ (set_nth _ (fold_left cput rest ?c1) _) _, fold_left vput rest ?v1) =>
               match goal with |- ?lhs = _ => match lhs with context [wset_options ?w1 ?v2 rest] => rewrite (IH w1 v2 c1) end end
           end.
      all: cbn [put_confs w_confs w_x]; rewrite ?set_again; try reflexivity.
      all: try exact E; exact (set_get _ _ _ _ E).
  Qed.
  Lemma wflags_opt f : Forall wflag_opt (wflag_options T Sp Log f).
  Proof.
    unfold wflag_options. apply Forall_app. split; [destruct (wf_vv f); [|destruct (wf_v f)]; repeat constructor|]. apply Forall_app. split; [destruct (String.eqb (wf_pkg f) ""); repeat constructor|].
    apply Forall_app. split; [destruct (String.eqb (wf_comment f) ""); repeat constructor|]. apply Forall_app. split; [destruct (wf_ports f); repeat constructor|].
    apply Forall_forall. intros o H. apply in_map_iff in H as (r & <- & _). exact I.
  Qed.
  Lemma vput_rules rules : forall v, fold_left vput (map (fun r => inr (Replace T Sp Log (fst r) (snd r))) rules) v = v.
  Proof. induction rules as [|r rules IH]; intros v; [reflexivity|]. cbn [map fold_left vput]. apply IH. Qed.
  Lemma cput_rules rules : forall c, let c' := fold_left cput (map (fun r => inr (Replace T Sp Log (fst r) (snd r))) rules) c in
    c' = set_name _ _ _ (x_name _ _ _ c') c /\ forall n, transform _ _ _ c' n = by_patterns compile rules (transform _ _ _ c n).
  Proof.
    induction rules as [|r rules IH]; intros c; cbn [map fold_left].
    - cbv zeta. split; [destruct c; reflexivity|reflexivity].
    - cbv zeta. destruct (IH (cput c (inr (Replace T Sp Log (fst r) (snd r))))) as [I1 I2]. split; [rewrite I1 at 1; reflexivity|]. intros n. rewrite I2. unfold by_patterns. cbn [fold_left]. f_equal.
      cbn [cput]. unfold transform, set_name. cbn [x_name]. unfold after, replace_by, local_by. destruct (x_name _ _ _ c); destruct (compile (fst r)) as [[rx m]|]; reflexivity.
  Qed.
  Lemma wsdl_left_flags f v : wsdl_left Log f v (defaults Log (fold_left vput (wflag_options T Sp Log f) v)).
  Proof.
    unfold wflag_options. rewrite !fold_left_app, vput_rules. unfold wsdl_left.
    destruct (wf_vv f), (wf_v f), (String.eqb (wf_pkg f) "") eqn:Ep, (String.eqb (wf_comment f) "") eqn:Ec, (wf_ports f) as [|p ps] eqn:Eo; cbn [fold_left vput defaults w_pkg w_header w_level w_ports w_logger w_x w_args w_returns];
      rewrite ?Ep, ?Ec; repeat (split; [first [reflexivity|congruence|idtac]|]); try reflexivity.
    all: intros _; eexists; (split; [reflexivity|]); intros q; apply mem_str_in.
  Qed.
  Lemma xsd_left_flags f c data : xsd_left T Sp Log compile D targets f c (fold_left cput (wflag_options T Sp Log f) c) /\ xsd_left T Sp Log compile D targets f c (with_ns (fold_left cput (wflag_options T Sp Log f) c) data).
  Proof.
    assert (X : xsd_left T Sp Log compile D targets f c (fold_left cput (wflag_options T Sp Log f) c) /\ ns (fold_left cput (wflag_options T Sp Log f) c) = ns c).
    { unfold wflag_options. rewrite !fold_left_app. match goal with |- context [fold_left cput (map ?g ?r) ?c0] => set (c1 := c0) end.
      assert (C : c1 = set_pkg _ _ _ (if String.eqb (wf_pkg f) "" then x_pkg _ _ _ c else wf_pkg f) (set_level _ _ _ (if wf_vv f then 5%Z else if wf_v f then 1%Z else x_level _ _ _ c) c)).
      { unfold c1. destruct (wf_vv f), (wf_v f), (String.eqb (wf_pkg f) ""), (String.eqb (wf_comment f) ""), (wf_ports f); destruct c; reflexivity. }
      clearbody c1. subst c1. match goal with |- context [fold_left cput (map ?g ?r) ?c0] => destruct (cput_rules r c0) as [R1 R2]; cbv zeta in R1, R2; set (c2 := fold_left cput (map g r) c0) in * end.
      assert (R3 : exists nm, c2 = set_name _ _ _ nm (set_pkg _ _ _ (if String.eqb (wf_pkg f) "" then x_pkg _ _ _ c else wf_pkg f) (set_level _ _ _ (if wf_vv f then 5%Z else if wf_v f then 1%Z else x_level _ _ _ c) c))) by (exists (x_name _ _ _ c2); exact R1). clearbody c2. clear R1. destruct R3 as [nm ->]. unfold xsd_left. cbn [set_name set_pkg set_level x_ns x_pkg x_level x_follow x_logger x_pre x_post x_fa x_fe x_ft x_allow].
      split; [|reflexivity]. split; [left; reflexivity|]. split; [|repeat split]. intros n. rewrite R2. reflexivity. }
    destruct X as [X N]. split; [exact X|]. unfold with_ns. rewrite N. destruct (ns c) as [|n0 l] eqn:Ec; [|exact X].
    revert X. set (c2 := fold_left cput _ c). intros (X1 & X2 & X). unfold xsd_left. cbn [set_ns x_ns x_pkg x_level x_follow x_logger x_pre x_post x_fa x_fe x_ft x_allow].
    split; [right; split; [exact Ec|exists data; reflexivity]|]. split; [exact X2|]. exact X.
  Qed.
  Theorem wsdl_cli_left w v f c : nth_error (confs w) (w_x _ v) = Some c -> exists w' v' r, wsdl_gen_cli w v f = Some (w', v', r) /\
    (wf_files f = [] -> w' = w /\ v' = v /\ r = Fail) /\
    (forall j, j <> w_x _ v -> nth_error (confs w') j = nth_error (confs w) j) /\
    (wf_files f <> [] -> wsdl_left Log f v v' /\ exists c', nth_error (confs w') (w_x _ v) = Some c' /\ xsd_left T Sp Log compile D targets f c c').
  Proof.
    intros E. unfold CliModel.wsdl_gen_cli. destruct (wf_files f) as [|file fs].
    { do 3 eexists. split; [reflexivity|]. split; [auto|]. split; [reflexivity|]. intros X. destruct (X eq_refl). }
    rewrite (woptions_are _ (wflags_opt f) w v c E). set (v1 := fold_left vput _ v). set (c1 := fold_left cput _ c). set (w1 := put_confs _ _ _ _ _ w).
    assert (V : wsdl_left Log f v (defaults Log v1)) by apply wsdl_left_flags.
    assert (Vx : w_x _ (defaults Log v1) = w_x _ v) by (destruct V as (_ & _ & _ & _ & _ & _ & V & _); exact V).
    assert (E1 : nth_error (confs w1) (w_x _ v) = Some c1) by (unfold w1; cbn [put_confs w_confs]; exact (set_get _ _ _ _ E)).
    assert (O1 : forall j, j <> w_x _ v -> nth_error (confs w1) j = nth_error (confs w) j) by (intros j Hj; unfold w1; cbn [put_confs w_confs]; apply set_else; exact Hj).
    assert (G : exists w2 r2, wsdl_gen_ast w1 v1 (file :: fs) = Some (w2, defaults Log v1, r2) /\ (confs w2 = confs w1 \/ exists data, confs w2 = set_nth (w_x _ v) (with_ns c1 data) (confs w1))).
    { unfold CliModel.wsdl_gen_ast. destruct (mapo (files w1) (file :: fs)) as [[|d ds]|]; [eauto 6| |eauto 6]. destruct (wsdl_parse d) as [def|]; [|eauto 6].
      rewrite Vx. destruct (code_is w1 (w_x _ v) (d :: ds) c1 E1) as (w2 & G & C & _). rewrite G. match goal with |- context [if refused ?a ?b then Fail else ?x] => destruct (if refused a b then Fail else x) end; eauto 8. }
    destruct G as (w2 & r2 & G & C). rewrite G. assert (C2 : (forall j, j <> w_x _ v -> nth_error (confs w2) j = nth_error (confs w) j) /\ exists c', nth_error (confs w2) (w_x _ v) = Some c' /\ xsd_left T Sp Log compile D targets f c c').
    { destruct C as [C|[data C]]; rewrite C.
      - split; [exact O1|]. exists c1. split; [exact E1|]. apply (xsd_left_flags f c []).
      - split; [intros j Hj; rewrite set_else by exact Hj; apply O1; exact Hj|]. exists (with_ns c1 data). split; [exact (set_get _ _ _ _ E1)|]. apply (xsd_left_flags f c data). }
    destruct C2 as [C2 C3]. assert (Z : exists w' r, match r2 with Ret a => let (w3, r) := CliModel.write_source T Sp Log D A format writable w2 a (wf_out f) in Some (w3, defaults Log v1, r) | Fail => Some (w2, defaults Log v1, Fail) | Panic => Some (w2, defaults Log v1, Panic) | Loops => Some (w2, defaults Log v1, Loops) end = Some (w', defaults Log v1, r) /\ confs w' = confs w2).
    { destruct r2 as [a| | |]; [|eauto 6..]. unfold write_source. destruct (format a (wf_out f)) as [d|]; [destruct (writable (wf_out f))|]; eauto 6. }
    destruct Z as (w' & r & Z & Cw). exists w', (defaults Log v1), r. split; [exact Z|]. split; [discriminate|]. rewrite Cw. split; [exact C2|]. intros _. split; [exact V|exact C3].
  Qed.
End CliProofs.
