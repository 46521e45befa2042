(* The commands do what their command lines say. *)
From Verif Require Import Base ScopeModel TreeModel EqualModel BuiltinModel XsdModel TypesModel GenModel SgModel SgProofs FilesModel OptModel OptSpec OptProofs MethodModel CliModel CliSpec CliProofs ArgsModel ArgsSpec ArgsProofs MainModel MainSpec.
Local Open Scope string_scope.

Section MainProofs.
  Variables T Sp Log : Type.
  Variable compile : string -> option ((string -> string -> string) * (string -> bool)).
  Variable soap_array_type : T -> T.
  Variable soap_array_slice : Sp -> Sp.
  Variable use_field_names : T -> T.
  Variables D A : Type.
  Variable tree : D -> option elem.
  Variable targets : list D -> list string.
  Variable refused : list string -> list D -> bool.
  Variable generate : xconf T Sp Log -> list Z * list string -> list D -> run A * (list Z * list string).
  Variable format : A -> string -> option D.
  Variable writable : string -> bool.
  Variable fuel : nat.
  Variable stderr : Log.
  Notation conf := (xconf T Sp Log).
  Notation world := (CliModel.world T Sp Log D).
  Notation confs := (w_confs T Sp Log D).
  Notation files_of := (w_files T Sp Log D).
  Notation set_options := (CliModel.set_options T Sp Log compile soap_array_type soap_array_slice use_field_names D).
  Notation gen_code := (CliModel.gen_code T Sp Log compile soap_array_type soap_array_slice use_field_names D A targets refused generate).
  Notation gen_ast := (CliModel.gen_ast T Sp Log compile soap_array_type soap_array_slice use_field_names D A tree targets refused generate fuel).
  Notation gen_cli := (CliModel.gen_cli T Sp Log compile soap_array_type soap_array_slice use_field_names D A tree targets refused generate format writable fuel).
  Notation gen_source := (MainModel.gen_source T Sp Log compile soap_array_type soap_array_slice use_field_names D A tree targets refused generate format fuel).
  Notation xsdgen_main := (MainModel.xsdgen_main T Sp Log compile soap_array_type soap_array_slice use_field_names D A tree targets refused generate format writable fuel stderr).
  Notation code_is := (CliProofs.code_is T Sp Log compile soap_array_type soap_array_slice use_field_names D A targets refused generate).
  Notation options_are := (CliProofs.options_are T Sp Log compile soap_array_type soap_array_slice use_field_names D).
  Notation flagged := (CliProofs.flagged T Sp Log).
  Notation with_ns := (CliProofs.with_ns T Sp Log D targets).
  Notation usual := (MainSpec.usual T Sp Log soap_array_type soap_array_slice use_field_names stderr).
  Notation set_by := (MainSpec.set_by T Sp Log compile soap_array_type soap_array_slice use_field_names stderr).
  Notation carried_out := (MainSpec.carried_out T Sp Log D A refused generate format writable).

  (* the Config before the flags *)
  Definition first_conf : conf :=
    mkConf _ _ _ (Some stderr) 0 [] "ws" false (Some (after (Some (after None soap_array_type)) use_field_names)) (Some (after None soap_array_slice)) (Some (ignore_attributes ["id"; "href"; "ref"; "offset"])) None None (Some (after None (replace_by compile "[._ \s-]" ""))) None.
  Lemma start files : set_options (fresh T Sp Log D files) 0 (default_x T Sp Log ++ [LogOutput _ _ _ (Some stderr)])%list = Some (mkWorld _ _ _ _ [first_conf] (fun _ => ([], [])) files).
  Proof. reflexivity. Qed.
  Lemma first_usual : usual first_conf.
  Proof.
    unfold MainSpec.usual, first_conf. cbn [x_logger x_fa x_fe x_ft x_allow x_pre x_post]. split; [reflexivity|]. split; [eexists; split; [reflexivity|]; intros a; unfold ignore_attributes; apply mem_str_in|].
    do 3 (split; [reflexivity|]). split; eexists; (split; [reflexivity|]); reflexivity.
  Qed.
  Lemma first_transform n : transform _ _ _ first_conf n = by_patterns compile separators n.
  Proof. unfold transform, first_conf, by_patterns, separators. cbn [x_name after fold_left fst snd]. unfold replace_by, local_by. destruct (compile "[._ \s-]") as [[rx m]|]; reflexivity. Qed.
  Lemma usual_same c c' : x_logger _ _ _ c' = x_logger _ _ _ c -> x_pre _ _ _ c' = x_pre _ _ _ c -> x_post _ _ _ c' = x_post _ _ _ c -> x_fa _ _ _ c' = x_fa _ _ _ c -> x_fe _ _ _ c' = x_fe _ _ _ c -> x_ft _ _ _ c' = x_ft _ _ _ c -> x_allow _ _ _ c' = x_allow _ _ _ c -> usual c -> usual c'.
  Proof. intros E1 E2 E3 E4 E5 E6 E7 U. unfold MainSpec.usual. rewrite E1, E2, E3, E4, E5, E6, E7. exact U. Qed.
  Lemma with_ns_is c data : with_ns c data = set_ns _ _ _ (match x_ns _ _ _ c with [] => targets data | l => l end) c.
  Proof. unfold CliProofs.with_ns. destruct (x_ns _ _ _ c) eqn:E; [reflexivity|]. rewrite <- E. destruct c; reflexivity. Qed.
  Lemma flagged_set f data : set_by f (targets data) (with_ns (flagged f first_conf) data).
  Proof.
    destruct (flagged_is T Sp Log f first_conf) as (F1 & F2 & F3 & F4 & F5 & F6 & F7 & F8 & F9 & F10 & F11 & F12). rewrite with_ns_is, F1. set (c := flagged f first_conf) in *. clearbody c. unfold MainSpec.set_by.
    split; [apply (usual_same c); try reflexivity; apply (usual_same first_conf); auto using first_usual|]. cbn [set_ns x_pkg x_ns x_follow x_level]. split; [exact F4|]. split; [reflexivity|]. split; [exact F2|]. split; [exact F5|].
    intros n. rewrite <- first_transform, <- F3. reflexivity.
  Qed.
  Lemma ast_does w i c fs : nth_error (confs w) i = Some c -> exists w', files_of w' = files_of w /\
    gen_ast w i fs = Some (w', match read_files D (files_of w) tree fuel (x_follow _ _ _ c) fs with
      | Panic => Panic | Loops => Loops
      | r => let data := match r with Ret d => d | _ => [] end in if refused (x_ns _ _ _ (with_ns c data)) data then Fail else fst (generate (with_ns c data) (standard_types, standard_funcs) data) end) /\
    (match read_files D (files_of w) tree fuel (x_follow _ _ _ c) fs with Panic | Loops => confs w' = confs w | r => confs w' = set_nth i (with_ns c (match r with Ret d => d | _ => [] end)) (confs w) end).
  Proof.
    intros E. unfold CliModel.gen_ast. rewrite E. destruct (read_files D (files_of w) tree fuel (x_follow _ _ _ c) fs) as [data| | |].
    - destruct (code_is w i data c E) as (w' & -> & C & F). exists w'. auto.
    - destruct (code_is w i [] c E) as (w' & -> & C & F). exists w'. auto.
    - exists w. auto.
    - exists w. auto.
  Qed.
  Theorem xsdgen_main_does files args :
    (forall sets rest, ~ line compile formal_x sets rest args) /\ xsdgen_main files args = (files, Usage) \/
    exists sets rest f, line compile formal_x sets rest args /\ says_x compile sets rest f /\
      (rest = [] -> xsdgen_main files args = (files, Failed)) /\
      (rest <> [] -> match read_files D files tree fuel (fl_follow f) rest with
                     | Panic => xsdgen_main files args = (files, Crash)
                     | Loops => xsdgen_main files args = (files, Forever)
                     | r => let data := match r with Ret d => d | _ => [] end in
                            exists c, set_by f (targets data) c /\ xsdgen_main files args = carried_out files c data (fun a => Some a) (fl_out f)
                     end).
  Proof.
    unfold MainModel.xsdgen_main. rewrite start. destruct (parse_flags compile formal_x args) as [[sets rest]|] eqn:E.
    - right. apply (flags_read compile formal_x names_x) in E. destruct (flags_x_say compile sets rest args E) as [Ef S]. exists sets, rest, (flags_x compile sets rest). set (f := flags_x compile sets rest) in *. clearbody f. split; [exact E|]. split; [exact S|]. rewrite Ef.
      destruct S as (S1 & _). set (w := mkWorld _ _ _ _ [first_conf] _ files). unfold CliModel.gen_cli. rewrite S1. split; [intros ->; reflexivity|]. intros N. destruct rest as [|n0 ns]; [congruence|]. clear N.
      assert (Ew : nth_error (confs w) 0 = Some first_conf) by reflexivity. rewrite (options_are _ (flags_opt T Sp Log f) w 0 first_conf Ew). fold (flagged f first_conf). set (w1 := put_confs _ _ _ _ _ w).
      assert (E1 : nth_error (confs w1) 0 = Some (flagged f first_conf)) by exact (set_get _ _ _ _ Ew). destruct (ast_does w1 0 _ (n0 :: ns) E1) as (w2 & F & G & _). rewrite G. clear G.
      assert (Fl : x_follow _ _ _ (flagged f first_conf) = fl_follow f) by (destruct (flagged_is T Sp Log f first_conf) as (_ & X & _); exact X). rewrite Fl. change (files_of w1) with files in *.
      assert (K : forall data, exists c, set_by f (targets data) c /\ match (match (if refused (x_ns _ _ _ (with_ns (flagged f first_conf) data)) data then Fail else fst (generate (with_ns (flagged f first_conf) data) (standard_types, standard_funcs) data)) with
          | Ret a => Some (CliModel.write_source T Sp Log D A format writable w2 a (fl_out f)) | Fail => Some (w2, Fail) | Panic => Some (w2, Panic) | Loops => Some (w2, Loops) end) with Some (w', r) => (files_of w', ends r) | None => (files, Crash) end = carried_out files c data (fun a => Some a) (fl_out f)).
      { intros data. exists (with_ns (flagged f first_conf) data). split; [apply flagged_set|]. unfold MainSpec.carried_out. destruct (refused _ data); [rewrite F; reflexivity|]. destruct (fst _) as [a| | |]; [|rewrite F; reflexivity..].
        unfold CliModel.write_source, MainSpec.written_to. destruct (format a (fl_out f)) as [d|]; [destruct (writable (fl_out f))|]; cbn [put_file w_files ends]; rewrite F; reflexivity. }
      destruct (read_files D files tree fuel (fl_follow f) (n0 :: ns)) as [data| | |]; [exact (K data)|exact (K [])|rewrite F; reflexivity|rewrite F; reflexivity].
    - left. split; [apply (args_fail compile formal_x args names_x); exact E|]. unfold args_x. rewrite E. reflexivity.
  Qed.
  (* GenSource gives what GenCLI has written *)
  Theorem source_is_written w i f c w' : nth_error (confs w) i = Some c -> (forall a n m, format a n = format a m) ->
    read_files D (files_of w') tree fuel (fl_follow f) (fl_files f) = read_files D (files_of w) tree fuel (fl_follow f) (fl_files f) ->
    gen_cli w i f = Some (w', Ret tt) -> exists d w'', files_of w' (fl_out f) = Some d /\ gen_source w' i (fl_files f) = Some (w'', Ret d) /\ files_of w'' = files_of w' /\ confs w'' = confs w'.
  Proof.
    intros E Hf Hr. unfold CliModel.gen_cli. destruct (fl_files f) as [|n0 ns] eqn:Efl; [discriminate|]. rewrite (options_are _ (flags_opt T Sp Log f) w i c E). fold (flagged f c). set (w1 := put_confs _ _ _ _ _ w).
    assert (E1 : nth_error (confs w1) i = Some (flagged f c)) by exact (set_get _ _ _ _ E). destruct (ast_does w1 i _ (n0 :: ns) E1) as (w2 & F & G & C). rewrite G. clear G.
    assert (Fl : x_follow _ _ _ (flagged f c) = fl_follow f) by (destruct (flagged_is T Sp Log f c) as (_ & X & _); exact X). rewrite Fl in *. change (files_of w1) with (files_of w) in *.
    assert (K : forall data, (match read_files D (files_of w) tree fuel (fl_follow f) (n0 :: ns) with Ret d => d = data | Fail => data = [] | _ => False end) -> confs w2 = set_nth i (with_ns (flagged f c) data) (confs w1) ->
      match (if refused (x_ns _ _ _ (with_ns (flagged f c) data)) data then Fail else fst (generate (with_ns (flagged f c) data) (standard_types, standard_funcs) data)) with Ret a => Some (CliModel.write_source T Sp Log D A format writable w2 a (fl_out f)) | Fail => Some (w2, Fail) | Panic => Some (w2, Panic) | Loops => Some (w2, Loops) end = Some (w', Ret tt) ->
      exists d w'', files_of w' (fl_out f) = Some d /\ gen_source w' i (n0 :: ns) = Some (w'', Ret d) /\ files_of w'' = files_of w' /\ confs w'' = confs w').
    { intros data R C2 H. set (c2 := with_ns (flagged f c) data) in *.
      destruct (if refused (x_ns _ _ _ c2) data then Fail else fst (generate c2 (standard_types, standard_funcs) data)) as [a| | |] eqn:Ea; try discriminate.
      unfold CliModel.write_source in H. destruct (format a (fl_out f)) as [d|] eqn:Ed; [|discriminate]. destruct (writable (fl_out f)); [|discriminate]. injection H as <-. exists d.
      set (w3 := put_file _ _ _ _ (fl_out f) d w2) in *. assert (C3 : confs w3 = set_nth i c2 (confs w1)) by exact C2. assert (E3 : nth_error (confs w3) i = Some c2) by (rewrite C3; exact (set_get _ _ _ _ E1)).
      destruct (ast_does w3 i c2 (n0 :: ns) E3) as (w4 & F4 & G4 & C4). exists w4.
      assert (Fo : x_follow _ _ _ c2 = fl_follow f) by (unfold c2; rewrite with_ns_is; exact Fl). rewrite Fo, Hr in G4, C4. unfold MainModel.gen_source. rewrite G4.
      assert (N2 : with_ns c2 data = c2) by apply CliProofs.with_ns_again.
      split; [unfold w3; cbn [put_file w_files]; rewrite String.eqb_refl; reflexivity|].
      destruct (read_files D (files_of w) tree fuel (fl_follow f) (n0 :: ns)) as [d0| | |]; try destruct R; cbv zeta; rewrite N2, Ea, (Hf a "fixme.go" (fl_out f)), Ed; (split; [reflexivity|]); (split; [exact F4|]); rewrite C4, N2; exact (set_back _ _ _ E3). }
    destruct (read_files D (files_of w) tree fuel (fl_follow f) (n0 :: ns)) as [data| | |]; try discriminate; cbv zeta in *; intros H; [apply (K data); auto|apply (K []); auto].
  Qed.
  (* GenSource by itself, whatever it comes to *)
  Theorem source_does w i c fs : nth_error (confs w) i = Some c ->
    exists w' r, gen_source w i fs = Some (w', r) /\ files_of w' = files_of w /\
      match read_files D (files_of w) tree fuel (x_follow _ _ _ c) fs with
      | Panic => r = Panic
      | Loops => r = Loops
      | got => let data := match got with Ret d => d | _ => [] end in
               exists c', c' = set_ns T Sp Log (match x_ns _ _ _ c with [] => targets data | l => l end) c /\
                 (refused (x_ns _ _ _ c') data = true -> r = Fail) /\
                 (refused (x_ns _ _ _ c') data = false ->
                  match fst (generate c' (standard_types, standard_funcs) data) with
                  | Ret a => (forall d, format a "fixme.go" = Some d -> r = Ret d) /\ (format a "fixme.go" = None -> r = Fail)
                  | Fail => r = Fail
                  | Panic => r = Panic
                  | Loops => r = Loops
                  end)
      end.
  Proof.
    intros E. destruct (ast_does w i c fs E) as (w' & F & G & _). unfold MainModel.gen_source. rewrite G. clear G.
    destruct (read_files D (files_of w) tree fuel (x_follow _ _ _ c) fs) as [data| | |]; cbv zeta; [| |eexists; eexists; split; [reflexivity|]; split; [exact F|reflexivity]..].
    all: rewrite !with_ns_is; match goal with |- context [refused (x_ns _ _ _ ?c0) ?d] => destruct (refused (x_ns _ _ _ c0) d) eqn:Er; [|destruct (fst (generate c0 (standard_types, standard_funcs) d)) as [a| | |] eqn:Eg] end.
    all: eexists; eexists; (split; [reflexivity|]); (split; [exact F|]); eexists; (split; [reflexivity|]); rewrite Er; (split; [try discriminate; reflexivity|]); try discriminate; rewrite ?Eg; try reflexivity.
    all: intros _; destruct (format a "fixme.go"); (split; [|discriminate || reflexivity]); congruence.
  Qed.

  Lemma carried_files files c data put out : (snd (carried_out files c data put out) <> Fine -> fst (carried_out files c data put out) = files) /\ forall n, n <> out -> fst (carried_out files c data put out) n = files n.
  Proof.
    unfold MainSpec.carried_out, MainSpec.written_to. destruct (refused _ data); [auto|]. destruct (fst _) as [a| | |]; auto. destruct (put a) as [b|]; auto. destruct (format b out) as [d|]; auto. destruct (writable out); auto. cbn [fst snd].
    split; [intros X; destruct (X eq_refl)|]. intros n Hn. apply String.eqb_neq in Hn. rewrite Hn. reflexivity.
  Qed.
  Theorem xsdgen_files files args files' e : xsdgen_main files args = (files', e) -> (e <> Fine -> files' = files) /\ exists out, (forall n, n <> out -> files' n = files n) /\ (e = Fine -> exists sets rest, line compile formal_x sets rest args /\ said "o" "xsdgen_output.go" sets out).
  Proof.
    intros H. destruct (xsdgen_main_does files args) as [[_ X]|(sets & rest & f & L & S & H1 & H2)].
    - rewrite X in H. injection H as <- <-. split; [auto|]. exists "". split; [auto|discriminate].
    - destruct rest as [|n0 ns]; [rewrite (H1 eq_refl) in H; injection H as <- <-; split; [auto|]; exists ""; split; [auto|discriminate]|]. specialize (H2 ltac:(discriminate)).
      assert (K : forall data, (exists c, set_by f (targets data) c /\ xsdgen_main files args = carried_out files c data (fun a => Some a) (fl_out f)) -> (e <> Fine -> files' = files) /\ exists out, (forall n, n <> out -> files' n = files n) /\ (e = Fine -> exists sets rest, line compile formal_x sets rest args /\ said "o" "xsdgen_output.go" sets out)).
      { intros data (c & _ & X). rewrite X in H. destruct (carried_files files c data (fun a => Some a) (fl_out f)) as [C1 C2]. rewrite H in C1, C2. cbn [fst snd] in C1, C2. split; [exact C1|]. exists (fl_out f). split; [exact C2|]. intros _. exists sets, (n0 :: ns). split; [exact L|]. destruct S as (_ & _ & S & _). exact S. }
      destruct (read_files D files tree fuel (fl_follow f) (n0 :: ns)) as [data| | |]; [exact (K data H2)|exact (K [] H2)|..]; rewrite H2 in H; injection H as <- <-; (split; [auto|]); exists ""; (split; [auto|discriminate]).
  Qed.

  (* ---------- wsdlgen ---------- *)
  Variable Def : Type.
  Variable wsdl_parse : D -> option Def.
  Variable emit : wconf Log -> Def -> A -> option A.
  Notation wsdl_gen_cli := (CliModel.wsdl_gen_cli T Sp Log compile soap_array_type soap_array_slice use_field_names D A targets refused generate format writable Def wsdl_parse emit).
  Notation wset_options := (CliModel.wset_options T Sp Log compile soap_array_type soap_array_slice use_field_names D).
  Notation wsdlgen_main := (MainModel.wsdlgen_main T Sp Log compile soap_array_type soap_array_slice use_field_names D A targets refused generate format writable stderr Def wsdl_parse emit).
  Notation set_by_w := (MainSpec.set_by_w T Sp Log compile soap_array_type soap_array_slice use_field_names stderr).
  Notation cput := (CliProofs.cput T Sp Log compile).
  Notation vput := (CliProofs.vput T Sp Log).
  Definition first_w : wconf Log := mkW _ "ws" "" (Some stderr) 0 0 None 3 2.
  Lemma wstart files : wset_options (fresh T Sp Log D files) (fresh_w Log) (map inl (default_w Log) ++ map inr (default_x T Sp Log) ++ [inl (WLogOutput _ (Some stderr))])%list = Some (mkWorld _ _ _ _ [first_conf] (fun _ => ([], [])) files, first_w).
  Proof. reflexivity. Qed.
  Lemma cput_ns l : forall c, x_ns _ _ _ (fold_left cput l c) = x_ns _ _ _ c.
  Proof. induction l as [|o l IH]; intros c; [reflexivity|]. cbn [fold_left]. rewrite IH. destruct o as [[]|[]]; reflexivity. Qed.
  Lemma by_patterns_app a b n : by_patterns compile (a ++ b)%list n = by_patterns compile b (by_patterns compile a n).
  Proof. unfold by_patterns. apply fold_left_app. Qed.
  Lemma wflagged_set f data : set_by_w f (targets data) (defaults Log (fold_left vput (wflag_options T Sp Log f) first_w)) (with_ns (fold_left cput (wflag_options T Sp Log f) first_conf) data).
  Proof.
    destruct (wsdl_left_flags T Sp Log f first_w) as (V1 & V2 & V3 & V4 & V5 & V6 & V7 & V8 & V9). destruct (xsd_left_flags T Sp Log compile D targets f first_conf data) as [_ X].
    assert (Nx : x_ns _ _ _ (with_ns (fold_left cput (wflag_options T Sp Log f) first_conf) data) = targets data) by (rewrite with_ns_is, cput_ns; reflexivity).
    set (v := defaults _ _) in *. set (c := with_ns _ data) in *. clearbody v c. destruct X as (_ & X2 & X3 & X4 & X5 & X6 & X7 & X8 & X9 & X10 & X11 & X12). unfold MainSpec.set_by_w.
    split; [apply (usual_same first_conf); auto using first_usual|]. split; [exact X3|]. split; [exact Nx|]. split; [exact X5|]. split; [exact X4|]. split; [intros n; rewrite X2, first_transform; symmetry; apply by_patterns_app|].
    split; [rewrite V1, X3; reflexivity|]. split; [rewrite V3, X4; reflexivity|]. split; [exact V6|]. split; [exact V8|]. split; [exact V9|]. split; [rewrite V2; reflexivity|]. split; [exact V4|exact V5].
  Qed.
  Theorem wsdlgen_main_does files args :
    (forall sets rest, ~ line compile formal_w sets rest args) /\ wsdlgen_main files args = (files, Usage) \/
    exists sets rest f, line compile formal_w sets rest args /\ says_w sets rest f /\
      (rest = [] \/ (exists n, In n rest /\ files n = None) -> wsdlgen_main files args = (files, Failed)) /\
      (forall d data, Forall2 (fun n x => files n = Some x) rest (d :: data) ->
         match wsdl_parse d with
         | None => wsdlgen_main files args = (files, Failed)
         | Some def => exists v c, set_by_w f (targets (d :: data)) v c /\ wsdlgen_main files args = carried_out files c (d :: data) (emit v def) (wf_out f)
         end).
  Proof.
    unfold MainModel.wsdlgen_main. rewrite wstart. destruct (parse_flags compile formal_w args) as [[sets rest]|] eqn:E.
    - right. apply (flags_read compile formal_w names_w) in E. destruct (flags_w_say compile sets rest args E) as [Ef S]. exists sets, rest, (flags_w compile sets rest). set (f := flags_w compile sets rest) in *. clearbody f. split; [exact E|]. split; [exact S|]. rewrite Ef.
      destruct S as (S1 & _). set (w := mkWorld _ _ _ _ [first_conf] _ files). unfold CliModel.wsdl_gen_cli. rewrite S1. destruct rest as [|n0 ns].
      { split; [reflexivity|]. intros d data H. inversion H. }
      assert (Ew : nth_error (confs w) (w_x _ first_w) = Some first_conf) by reflexivity. rewrite (woptions_are T Sp Log compile soap_array_type soap_array_slice use_field_names D _ (wflags_opt T Sp Log f) w first_w first_conf Ew).
      set (v1 := fold_left vput _ first_w). set (c1 := fold_left cput _ first_conf). set (w1 := put_confs _ _ _ _ _ w). unfold CliModel.wsdl_gen_ast. change (files_of w1) with files. split.
      + intros [X|(n & Hn & Hf)]; [discriminate|]. destruct (mapo files (n0 :: ns)) as [data|] eqn:M; [|reflexivity]. destruct (mapo_some _ _ _ M n Hn) as [y Y]. congruence.
      + intros d data H. assert (M : mapo files (n0 :: ns) = Some (d :: data)).
        { revert H. generalize (n0 :: ns) (d :: data). intros l m H. induction H as [|a b l m Hab H IH]; [reflexivity|]. cbn [mapo]. rewrite Hab, IH. reflexivity. }
        rewrite M. destruct (wsdl_parse d) as [def|]; [|reflexivity]. exists (defaults Log v1), (with_ns c1 (d :: data)). split; [apply wflagged_set|].
        assert (Vx : w_x _ (defaults Log v1) = 0) by (destruct (wsdl_left_flags T Sp Log f first_w) as (_ & _ & _ & _ & _ & _ & V & _); exact V). rewrite Vx.
        assert (E1 : nth_error (confs w1) 0 = Some c1) by exact (set_get _ _ _ _ Ew). destruct (code_is w1 0 (d :: data) c1 E1) as (w2 & -> & _ & F). change (files_of w1) with files in F. unfold MainSpec.carried_out.
        destruct (refused _ _); [rewrite <- F; reflexivity|]. destruct (fst _) as [a| | |]; [|rewrite <- F; reflexivity..]. destruct (emit (defaults Log v1) def a) as [b|]; [|rewrite <- F; reflexivity].
        unfold CliModel.write_source, MainSpec.written_to. destruct (format b (wf_out f)) as [x|]; [destruct (writable (wf_out f))|]; cbn [put_file w_files ends]; rewrite F; reflexivity.
    - left. split; [apply (args_fail compile formal_w args names_w); exact E|]. unfold args_w. rewrite E. reflexivity.
  Qed.
  (* GenSource of wsdlgen *)
  Notation wsdl_gen_source := (MainModel.wsdl_gen_source T Sp Log compile soap_array_type soap_array_slice use_field_names D A targets refused generate format Def wsdl_parse emit).
  Lemma all_read (l : list string) (fs : string -> option D) m : Forall2 (fun n x => fs n = Some x) l m -> mapo fs l = Some m.
  Proof. induction 1 as [|a b l m Hab H IH]; [reflexivity|]. cbn [mapo]. rewrite Hab, IH. reflexivity. Qed.
  Theorem wsource_does w v c fs : nth_error (confs w) (w_x _ v) = Some c ->
    exists w' v' r, wsdl_gen_source w v fs = Some (w', v', r) /\ files_of w' = files_of w /\
      (fs = [] \/ (exists n, In n fs /\ files_of w n = None) -> r = Fail) /\
      forall d data, Forall2 (fun n x => files_of w n = Some x) fs (d :: data) ->
        (w_pkg _ v' = (if String.eqb (w_pkg _ v) "" then "ws" else w_pkg _ v) /\ w_header _ v' = (if String.eqb (w_header _ v) "" then "Package " ++ w_pkg _ v' else w_header _ v) /\
         w_logger _ v' = w_logger _ v /\ w_level _ v' = w_level _ v /\ w_x _ v' = w_x _ v /\ w_ports _ v' = w_ports _ v /\ w_args _ v' = w_args _ v /\ w_returns _ v' = w_returns _ v) /\
        match wsdl_parse d with
        | None => r = Fail
        | Some def => exists c', c' = set_ns T Sp Log (match x_ns _ _ _ c with [] => targets (d :: data) | l => l end) c /\
            (refused (x_ns _ _ _ c') (d :: data) = true -> r = Fail) /\
            (refused (x_ns _ _ _ c') (d :: data) = false ->
             match fst (generate c' (standard_types, standard_funcs) (d :: data)) with
             | Ret a => (forall b x, emit v' def a = Some b -> format b "fixme.go" = Some x -> r = Ret x) /\
                        (emit v' def a = None \/ (exists b, emit v' def a = Some b /\ format b "fixme.go" = None) -> r = Fail)
             | Fail => r = Fail
             | Panic => r = Panic
             | Loops => r = Loops
             end)
        end.
  Proof.
    intros E. unfold MainModel.wsdl_gen_source, CliModel.wsdl_gen_ast. destruct fs as [|n0 ns].
    { exists w, v, Fail. split; [reflexivity|]. split; [reflexivity|]. split; [reflexivity|]. intros d data H. inversion H. }
    destruct (mapo (files_of w) (n0 :: ns)) as [[|d ds]|] eqn:M.
    { cbn [mapo] in M. destruct (files_of w n0); [destruct (mapo _ ns)|]; discriminate. }
    2: { do 3 eexists. split; [reflexivity|]. split; [reflexivity|]. split; [reflexivity|]. intros d data H. apply all_read in H. congruence. }
    assert (Np : forall P : Prop, n0 :: ns = [] \/ (exists n, In n (n0 :: ns) /\ files_of w n = None) -> P).
    { intros P [X|(n & Hn & Hf)]; [discriminate|]. destruct (mapo_some _ _ _ M n Hn) as [y Y]. congruence. }
    assert (U : forall d' data', Forall2 (fun n x => files_of w n = Some x) (n0 :: ns) (d' :: data') -> d' = d /\ data' = ds).
    { intros d' data' H. apply all_read in H. rewrite M in H. injection H as <- <-. auto. }
    assert (V : forall v', v' = defaults Log v -> w_pkg _ v' = (if String.eqb (w_pkg _ v) "" then "ws" else w_pkg _ v) /\ w_header _ v' = (if String.eqb (w_header _ v) "" then "Package " ++ w_pkg _ v' else w_header _ v) /\
         w_logger _ v' = w_logger _ v /\ w_level _ v' = w_level _ v /\ w_x _ v' = w_x _ v /\ w_ports _ v' = w_ports _ v /\ w_args _ v' = w_args _ v /\ w_returns _ v' = w_returns _ v).
    { intros v' ->. repeat split. }
    destruct (wsdl_parse d) as [def|] eqn:Ep.
    2: { do 3 eexists. split; [reflexivity|]. split; [reflexivity|]. split; [apply Np|]. intros d' data' H. destruct (U _ _ H) as [-> ->]. rewrite Ep. split; [apply V; reflexivity|reflexivity]. }
    cbv zeta. change (w_x _ (defaults Log v)) with (w_x _ v). destruct (code_is w (w_x _ v) (d :: ds) c E) as (w' & -> & _ & F). rewrite with_ns_is. set (c' := set_ns _ _ _ _ c).
    destruct (refused (x_ns _ _ _ c') (d :: ds)) eqn:Er; [|destruct (fst (generate c' (standard_types, standard_funcs) (d :: ds))) as [a| | |] eqn:Eg; [destruct (emit (defaults Log v) def a) as [b|] eqn:Ee|..]].
    all: do 3 eexists; (split; [reflexivity|]); (split; [exact F|]); (split; [apply Np|]); intros d' data' H; destruct (U _ _ H) as [-> ->]; rewrite Ep; (split; [apply V; reflexivity|]); exists c'; (split; [reflexivity|]); rewrite Er; (split; [try discriminate; reflexivity|]); try discriminate; rewrite ?Eg; try reflexivity.
    - intros _. split; [intros b' x Hb Hx|intros [X|(b' & Hb & Hx)]]; rewrite Ee in *; try discriminate; injection Hb as <-; rewrite Hx; reflexivity.
    - intros _. split; [intros b' x Hb; congruence|reflexivity].
  Qed.
  Lemma defaults_again v : defaults Log (defaults Log v) = defaults Log v.
  Proof.
    unfold defaults. cbn [w_pkg w_header w_logger w_level w_x w_ports w_args w_returns].
    assert (P : (if String.eqb (if String.eqb (w_pkg Log v) "" then "ws" else w_pkg Log v) "" then "ws" else (if String.eqb (w_pkg Log v) "" then "ws" else w_pkg Log v)) = (if String.eqb (w_pkg Log v) "" then "ws" else w_pkg Log v)).
    { destruct (String.eqb (w_pkg Log v) "") eqn:E; [reflexivity|rewrite E; reflexivity]. }
    rewrite P. destruct (String.eqb (w_header Log v) "") eqn:E; [reflexivity|rewrite E; reflexivity].
  Qed.
  (* GenSource of wsdlgen gives what its GenCLI has written *)
  Theorem wsource_is_written w v f c w' v' : nth_error (confs w) (w_x _ v) = Some c -> (forall a n m, format a n = format a m) -> ~ In (wf_out f) (wf_files f) ->
    wsdl_gen_cli w v f = Some (w', v', Ret tt) -> exists d w'', files_of w' (wf_out f) = Some d /\ wsdl_gen_source w' v' (wf_files f) = Some (w'', v', Ret d) /\ files_of w'' = files_of w' /\ confs w'' = confs w'.
  Proof.
    intros E Hf Hout. unfold CliModel.wsdl_gen_cli. destruct (wf_files f) as [|n0 ns] eqn:Efl; [discriminate|]. rewrite (woptions_are T Sp Log compile soap_array_type soap_array_slice use_field_names D _ (wflags_opt T Sp Log f) w v c E).
    set (v1 := fold_left vput _ v). set (c1 := fold_left cput _ c). set (w1 := put_confs _ _ _ _ _ w). assert (X1 : w_x _ v1 = w_x _ v) by (destruct (wsdl_left_flags T Sp Log f v) as (_ & _ & _ & _ & _ & _ & V & _); exact V).
    assert (E1 : nth_error (confs w1) (w_x _ v) = Some c1) by exact (set_get _ _ _ _ E). unfold CliModel.wsdl_gen_ast at 1. change (files_of w1) with (files_of w).
    destruct (mapo (files_of w) (n0 :: ns)) as [[|d ds]|] eqn:M; try discriminate. destruct (wsdl_parse d) as [def|] eqn:Ep; [|discriminate].
    cbv zeta. change (w_x _ (defaults Log v1)) with (w_x _ v1). rewrite X1. destruct (code_is w1 (w_x _ v) (d :: ds) c1 E1) as (w2 & -> & C2 & F2). set (c2 := with_ns c1 (d :: ds)) in *.
    destruct (if refused (x_ns _ _ _ c2) (d :: ds) then Fail else fst (generate c2 (standard_types, standard_funcs) (d :: ds))) as [a| | |] eqn:Ea; try discriminate.
    destruct (emit (defaults Log v1) def a) as [b|] eqn:Ee; [|discriminate]. unfold CliModel.write_source. destruct (format b (wf_out f)) as [x|] eqn:Ex; [|discriminate]. destruct (writable (wf_out f)); [|discriminate].
    intros H. injection H as <- <-. exists x. set (w3 := put_file _ _ _ _ (wf_out f) x w2) in *. assert (C3 : confs w3 = set_nth (w_x _ v) c2 (confs w1)) by exact C2. assert (E3 : nth_error (confs w3) (w_x _ v) = Some c2) by (rewrite C3; exact (set_get _ _ _ _ E1)).
    assert (M3 : mapo (files_of w3) (n0 :: ns) = Some (d :: ds)).
    { rewrite <- M. revert Hout. generalize (n0 :: ns). intros l. induction l as [|n l IH]; intros Ho; [reflexivity|]. cbn [mapo]. rewrite IH by (intros Hi; apply Ho; right; exact Hi).
      unfold w3 at 1. cbn [put_file w_files]. rewrite F2. destruct (String.eqb n (wf_out f)) eqn:En; [apply String.eqb_eq in En; destruct Ho; left; exact En|reflexivity]. }
    assert (N2 : with_ns c2 (d :: ds) = c2) by apply CliProofs.with_ns_again. destruct (code_is w3 (w_x _ v) (d :: ds) c2 E3) as (w4 & G4 & C4 & F4). rewrite N2 in G4, C4.
    exists w4. split; [unfold w3; cbn [put_file w_files]; rewrite String.eqb_refl; reflexivity|]. unfold MainModel.wsdl_gen_source, CliModel.wsdl_gen_ast. rewrite M3, Ep, defaults_again. cbv zeta. change (w_x _ (defaults Log v1)) with (w_x _ v1). rewrite X1, G4, Ea, Ee, (Hf b "fixme.go" (wf_out f)), Ex.
    split; [reflexivity|]. split; [exact F4|]. rewrite C4. exact (set_back _ _ _ E3).
  Qed.
End MainProofs.
