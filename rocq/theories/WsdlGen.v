(* The declarations made for operations. *)
From Coq Require Import Sorted.
From Verif Require Import Base ScopeModel TreeModel TreeSpec TreeProofs GenModel BuiltinModel XsdModel XsdProofs SgModel SgStruct OptModel WsdlModel WsdlSpec WsdlProofs.
Local Open Scope string_scope.
Set Default Proof Using "Type".

Lemma F2_len {A B} (R : A -> B -> Prop) l m : Forall2 R l m -> List.length l = List.length m.
Proof. induction 1; cbn [List.length]; auto. Qed.

Section Gen.
  Variable title : string -> string.
  Variable public : xname -> string.
  Variable parses : wdecl -> bool.
  Variable names : list (xname * string).
  Variable other : xname -> string.
  Variable doc_type : string -> option (list (xname * xname)).
  Notation go_name := (go_name names other).
  Notation go_type := (go_type names other doc_type).
  Notation name_of := (name_of names other).
  Notation part_type := (part_type names other doc_type).
  Notation op_args := (op_args title names other doc_type).
  Notation gen_operation := (gen_operation title public parses names other doc_type).
  Notation gen_port := (gen_port title public parses names other doc_type).
  Notation gen_ports := (gen_ports title public parses names other doc_type).

  Lemma name_of_spec n s : name_of n = s <-> go_name n s.
  Proof.
    unfold WsdlModel.name_of. split.
    - intros <-. destruct (lookup n names) as [s|] eqn:L; [constructor; auto|]. destruct (parse_builtin n) as [b|] eqn:P; [|apply gn_other; auto].
      destruct (builtin_expr b) as [|[g|]] eqn:E; [eapply gn_nothing; eauto; congruence|eapply gn_builtin; eauto|eapply gn_nothing; eauto; congruence].
    - intros [s' L|b g L P E|b L P E|L P]; rewrite L; auto; rewrite P; auto.
      + rewrite E. reflexivity.
      + destruct (builtin_expr b) as [|[g|]]; auto. exfalso. apply (E g). reflexivity.
  Qed.
  Lemma part_type_spec p s : part_type p = Some s <-> go_type p s.
  Proof.
    unfold WsdlModel.part_type. split.
    - destruct (String.eqb (nlocal (pa_type p)) "") eqn:E1; cbn [negb].
      + destruct (String.eqb (nlocal (pa_elem p)) "") eqn:E2; cbn [negb]; [discriminate|]. destruct (doc_type (nspace (pa_elem p))) as [els|] eqn:D; [|discriminate].
        destruct (lookup (pa_elem p) els) as [t|] eqn:L; [|discriminate]. intros H. injection H as H.
        eapply gt_element; [apply String.eqb_eq; exact E1|apply String.eqb_neq; exact E2|exact D|exact L|apply name_of_spec; exact H].
      + intros H. injection H as H. apply gt_type; [apply String.eqb_neq; exact E1|apply name_of_spec; exact H].
    - intros [s' N G|els t s' N N2 D L G].
      + apply String.eqb_neq in N. rewrite N. cbn [negb]. apply name_of_spec in G. congruence.
      + rewrite N. cbn [String.eqb negb]. apply String.eqb_neq in N2. rewrite N2. cbn [negb]. rewrite D, L. apply name_of_spec in G. congruence.
  Qed.
  Lemma types_spec ps ts : mapo part_type ps = Some ts <-> Forall2 go_type ps ts.
  Proof. rewrite mapo_forall2. split; (induction 1; constructor; [apply part_type_spec|]; assumption). Qed.
  Lemma param_ident_ok p t : param_ident p t (param_name p t).
  Proof. unfold param_ident, param_name. destruct (String.eqb (Sanitize (pa_name p)) t) eqn:E; [apply String.eqb_eq in E|apply String.eqb_neq in E]; split; intros H; congruence. Qed.
  Lemma app_underscore s : s ++ "_" <> s.
  Proof. induction s as [|c s IH]; [discriminate|]. cbn [String.append]. intros H. injection H. exact IH. Qed.
  Lemma param_not_type p t v : param_ident p t v -> v <> t.
  Proof.
    intros [H1 H2]. destruct (string_dec (Sanitize (pa_name p)) t) as [E|E]; [rewrite (H2 E), E; apply app_underscore|rewrite (H1 E); exact E].
  Qed.
  Lemma mapo_if_parses l r : mapo (if_parses parses) l = Some r -> r = l /\ Forall (fun d => parses d = true) l.
  Proof.
    revert r. induction l as [|d l IH]; intros r H; cbn [mapo] in H; [injection H as <-; auto|]. unfold if_parses at 1 in H.
    destruct (parses d) eqn:E; [|discriminate]. destruct (mapo _ l) as [m|]; [|discriminate]. injection H as <-. destruct (IH m eq_refl) as [-> F]. split; [reflexivity|constructor; auto].
  Qed.
  Lemma if_parses_none l : mapo (if_parses parses) l = None <-> exists d, In d l /\ parses d = false.
  Proof.
    induction l as [|d l IH]; cbn [mapo]; [split; [discriminate|intros (x & [] & _)]|]. unfold if_parses at 1. destruct (parses d) eqn:E.
    - destruct (mapo (if_parses parses) l) as [m|]; split; try discriminate.
      + intros (x & [<-|HI] & F); [congruence|]. destruct IH as [_ IH]. discriminate (IH (ex_intro _ x (conj HI F))).
      + intros _. destruct IH as [IH _]. destruct (IH eq_refl) as (x & HI & F). exists x. split; [right; auto|auto].
      + auto.
    - split; [intros _; exists d; split; [left; auto|auto]|auto].
  Qed.
  (* the decls without the check by the Go parser *)
  Definition all_decls (p : port) (op : operation) (a : opargs) : list wdecl :=
    ((if String.eqb (oa_intype a) "" then [] else [WType (oa_intype a) (map (fun f => (fd_name f, fd_public f)) (oa_fields a))]) ++
     (if String.eqb (oa_rettype a) "" then [] else [WType (oa_rettype a) (map (fun f => (fd_name f, fd_type f)) (oa_retfields a))]) ++
     [method_decl public p op a])%list.

  Lemma combine_fst {A B} (l : list A) (r : list B) : List.length l = List.length r -> map fst (combine l r) = l.
  Proof. revert r. induction l as [|a l IH]; intros [|b r] E; try discriminate; [reflexivity|]. cbn [combine map fst]. rewrite IH; auto. Qed.
  Lemma combine_snd {A B} (l : list A) (r : list B) : List.length l = List.length r -> map snd (combine l r) = r.
  Proof. revert r. induction l as [|a l IH]; intros [|b r] E; try discriminate; [reflexivity|]. cbn [combine map snd]. rewrite IH; auto. Qed.
  Lemma combine_map_l {A B} (f : A -> B) l (g : list A) : g = l -> combine (map f l) g = map (fun x => (f x, x)) l.
  Proof. intros ->. induction l; cbn; congruence. Qed.

  Lemma over_fields tns parts ts : List.length parts = List.length ts ->
    map (fun fp => with_arg (fst fp) (String "v" (String "." (title (pa_name (snd fp)))))) (combine (map (fun pt => in_field title tns (fst pt) (snd pt)) (combine parts ts)) parts) =
    map (fun pt => with_arg (in_field title tns (fst pt) (snd pt)) (String "v" (String "." (title (pa_name (fst pt)))))) (combine parts ts).
  Proof.
    revert ts. induction parts as [|p parts IH]; intros [|t ts] E; try discriminate; [reflexivity|]. cbn [combine map fst snd]. rewrite IH; auto.
  Qed.

  Lemma exposed_shown t : expose_type t = shown t.
  Proof.
    unfold expose_type, shown, shown_as, mem_str. cbn [existsb find fst snd].
    repeat match goal with |- context [String.eqb t ?k] => destruct (String.eqb t k); [reflexivity|] end. reflexivity.
  Qed.
  Lemma args_declared ma mr tns input output a p op : op_args ma mr tns input output = Some a ->
    exists ts us, Forall2 go_type (ms_parts input) ts /\ Forall2 go_type (ms_parts output) us /\
      declared title ma mr tns input ts output us (all_decls p op a) (method_decl public p op a).
  Proof.
    unfold WsdlModel.op_args. destruct (mapo part_type (ms_parts input)) as [ts|] eqn:TS; [|discriminate].
    destruct (mapo part_type (ms_parts output)) as [us|] eqn:US; [|discriminate]. intros H. injection H as <-.
    apply types_spec in TS. apply types_spec in US. exists ts, us. split; [exact TS|]. split; [exact US|].
    pose proof (F2_len _ _ _ TS) as L1. pose proof (F2_len _ _ _ US) as L2.
    set (parts := ms_parts input) in *. set (outs := ms_parts output) in *. rewrite !map_length, !combine_length, <- L1, <- L2, !Nat.min_id.
    split.
    - eexists. unfold all_decls. split; [rewrite app_assoc; reflexivity|]. split; [exact I|].
      apply Forall_app. split; [destruct (String.eqb (oa_intype _) "")|destruct (String.eqb (oa_rettype _) "")]; repeat constructor; intros [].
    - intros LE. assert (E : (ma <? Z.of_nat (List.length parts))%Z = false) by (apply Z.ltb_ge; exact LE). cbn [method_decl method_params oa_input]. rewrite E.
      eexists. split; [reflexivity|]. apply Forall2_map_r. intros pt. exists (param_name (fst pt) (snd pt)). split; [apply param_ident_ok|rewrite exposed_shown; reflexivity].
    - intros LT. assert (E : (ma <? Z.of_nat (List.length parts))%Z = true) by (apply Z.ltb_lt; exact LT). cbn [method_decl method_params oa_input]. rewrite E. split; [reflexivity|].
      intros NZ. apply String.eqb_neq in NZ. eexists. split.
      + unfold all_decls. cbn [oa_intype oa_fields]. rewrite NZ. left. reflexivity.
      + rewrite (over_fields tns parts ts L1), !map_map. cbn [fst snd with_arg fd_name fd_public in_field]. split.
        * rewrite <- (map_map fst (fun p => title (pa_name p))), combine_fst; auto.
        * rewrite <- (map_map snd expose_type), combine_snd, (map_ext _ _ exposed_shown); auto.
    - cbn [method_decl method_sends oa_fields]. destruct (ma <? Z.of_nat (List.length parts))%Z eqn:E.
      + apply Z.ltb_lt in E. rewrite (over_fields tns parts ts L1), map_map. apply Forall2_map_r. intros pt. cbn [fst snd fd_xml fd_type fd_arg with_arg in_field]. split; [reflexivity|]. split; [reflexivity|]. split; [intros X; exfalso; subst parts; lia|reflexivity].
      + apply Z.ltb_ge in E. rewrite map_map. apply Forall2_map_r. intros pt. cbn [fst snd fd_xml fd_type fd_arg with_arg in_field]. split; [reflexivity|]. split; [reflexivity|]. split; [intros _; apply param_ident_ok|intros X; exfalso; subst parts; lia].
    - cbn [method_decl method_receives oa_outfields]. rewrite map_map. apply map_ext. reflexivity.
    - intros LE. assert (E : (mr <? Z.of_nat (List.length outs))%Z = false) by (apply Z.ltb_ge; exact LE). cbn [method_decl method_results method_returns oa_output oa_outfields oa_rettype oa_retfields].
      rewrite E. split.
      + rewrite <- (map_map snd expose_type), combine_snd, (map_ext _ _ exposed_shown); auto.
      + rewrite app_length, map_length, combine_length, <- L2, Nat.min_id. cbn [List.length]. destruct (map _ (combine outs us)) as [|f l] eqn:M.
        * cbn [String.eqb negb]. assert (X : List.length (map (fun pt => out_field title tns (fst pt) (snd pt)) (combine outs us)) = 0) by (rewrite M; reflexivity).
          rewrite map_length, combine_length, <- L2, Nat.min_id in X. lia.
        * rewrite <- M, map_length, combine_length, <- L2, Nat.min_id. lia.
    - intros LT. assert (E : (mr <? Z.of_nat (List.length outs))%Z = true) by (apply Z.ltb_lt; exact LT). cbn [method_decl method_results oa_output]. rewrite E. split; [reflexivity|].
      intros NZ. apply String.eqb_neq in NZ. eexists. split.
      + unfold all_decls. cbn [oa_rettype oa_retfields]. rewrite NZ. apply in_or_app. right. left. reflexivity.
      + rewrite !map_map. cbn [fst snd ret_field out_field fd_name fd_type]. split.
        * rewrite <- (map_map fst (fun p => title (pa_name p))), combine_fst; auto.
        * rewrite <- (map_map snd expose_type), combine_snd, (map_ext _ _ exposed_shown); auto.
  Qed.
  Theorem operation_declared ma mr d p op ds : gen_operation ma mr d p op = Some ds ->
    exists input output ts us m, lookup (op_input op) (df_messages d) = Some input /\ lookup (op_output op) (df_messages d) = Some output /\
      Forall2 go_type (ms_parts input) ts /\ Forall2 go_type (ms_parts output) us /\ declared title ma mr (df_tns d) input ts output us ds m /\
      method_name m = public (op_name op) /\ method_call m = Some (po_method p, po_address p, op_action op) /\
      method_about m = Some (op_name op, ms_name input, ms_name output, op_doc op).
  Proof.
    unfold WsdlModel.gen_operation. destruct (lookup (op_input op) _) as [i|] eqn:I1; [|discriminate]. destruct (lookup (op_output op) _) as [o|] eqn:O1; [|discriminate].
    destruct (op_args ma mr (df_tns d) i o) as [a|] eqn:A; [|discriminate]. intros H. apply mapo_if_parses in H as [-> _].
    destruct (args_declared _ _ _ _ _ _ p op A) as (ts & us & F1 & F2 & D). exists i, o, ts, us, (method_decl public p op a). split; [reflexivity|]. split; [reflexivity|]. split; [exact F1|]. split; [exact F2|]. split; [exact D|]. split; [reflexivity|]. split; [reflexivity|].
    unfold WsdlModel.op_args in A. destruct (mapo part_type (ms_parts i)); [|discriminate]. destruct (mapo part_type (ms_parts o)); [|discriminate]. injection A as <-. reflexivity.
  Qed.
  (* the last value of the return statement is the error; before it come all the parts *)
  Theorem over_returns ma mr d p op ds output : gen_operation ma mr d p op = Some ds -> lookup (op_output op) (df_messages d) = Some output ->
    (mr < Z.of_nat (List.length (ms_parts output)))%Z -> ms_parts output <> [] ->
    exists m, In m ds /\ is_method m /\ List.length (method_results m) = 2 /\ method_returns m = S (List.length (ms_parts output)).
  Proof.
    unfold WsdlModel.gen_operation. destruct (lookup (op_input op) _) as [i|] eqn:I1; [|discriminate]. intros H O. rewrite O in H. intros LT NE.
    destruct (op_args ma mr (df_tns d) i output) as [a|] eqn:A; [|discriminate]. apply mapo_if_parses in H as [-> _].
    exists (method_decl public p op a). split; [apply in_or_app; right; apply in_or_app; right; left; reflexivity|]. split; [exact I|].
    unfold WsdlModel.op_args in A. destruct (mapo part_type (ms_parts i)) as [ts|] eqn:TS; [|discriminate].
    destruct (mapo part_type (ms_parts output)) as [us|] eqn:US; [|discriminate]. injection A as <-. apply types_spec in US. pose proof (F2_len _ _ _ US) as L2.
    cbn [method_decl method_results method_returns oa_output oa_outfields]. rewrite map_length, combine_length, <- L2, Nat.min_id.
    apply Z.ltb_lt in LT. rewrite LT. split; [reflexivity|]. destruct (map _ (combine (ms_parts output) us)) as [|f l] eqn:M.
    - exfalso. apply (f_equal (@List.length _)) in M. rewrite map_length, combine_length, <- L2, Nat.min_id in M. destruct (ms_parts output); [congruence|discriminate].
    - rewrite <- M, map_length, combine_length, <- L2, Nat.min_id. reflexivity.
  Qed.

  (* failure *)
  Lemma mapo_none {A B} (f : A -> option B) l : mapo f l = None <-> exists a, In a l /\ f a = None.
  Proof.
    induction l as [|a l IH]; cbn [mapo]; [split; [discriminate|intros (x & [] & _)]|]. destruct (f a) as [b|] eqn:E.
    - destruct (mapo f l) as [m|]; split; try discriminate.
      + intros (x & [<-|HI] & F); [congruence|]. destruct IH as [_ IH]. discriminate (IH (ex_intro _ x (conj HI F))).
      + intros _. destruct IH as [IH _]. destruct (IH eq_refl) as (x & HI & F). exists x. split; [right; auto|auto].
      + auto.
    - split; [intros _; exists a; split; [left; auto|auto]|auto].
  Qed.
  Definition untyped (m : message) : Prop := exists p, In p (ms_parts m) /\ forall t, ~ go_type p t.
  Lemma untyped_none m : mapo part_type (ms_parts m) = None <-> untyped m.
  Proof.
    rewrite mapo_none. split; intros (q & HI & E); exists q; (split; [exact HI|]).
    - intros t G. apply part_type_spec in G. congruence.
    - destruct (part_type q) as [t|] eqn:P; [|reflexivity]. exfalso. apply (E t), part_type_spec. exact P.
  Qed.
  Theorem operation_fails ma mr d p op : gen_operation ma mr d p op = None <->
    lookup (op_input op) (df_messages d) = None \/ lookup (op_output op) (df_messages d) = None \/
    exists input output, lookup (op_input op) (df_messages d) = Some input /\ lookup (op_output op) (df_messages d) = Some output /\
      (untyped input \/ untyped output \/
       exists a d', op_args ma mr (df_tns d) input output = Some a /\ In d' (all_decls p op a) /\ parses d' = false).
  Proof.
    unfold WsdlModel.gen_operation. destruct (lookup (op_input op) _) as [i|] eqn:I1; [|split; auto].
    destruct (lookup (op_output op) _) as [o|] eqn:O1; [|split; auto].
    destruct (op_args ma mr (df_tns d) i o) as [a|] eqn:A.
    - split.
      + intros H. right. right. exists i, o. split; [reflexivity|]. split; [reflexivity|]. right. right.
        apply (if_parses_none (all_decls p op a)) in H as (x & HI & F). exists a, x. auto.
      + intros [H|[H|(i' & o' & E1 & E2 & H)]]; [discriminate|discriminate|]. injection E1 as <-. injection E2 as <-.
        apply (if_parses_none (all_decls p op a)). destruct H as [H|[H|(a' & x & EA & HI & F)]].
        * apply untyped_none in H. unfold WsdlModel.op_args in A. rewrite H in A. discriminate.
        * apply untyped_none in H. unfold WsdlModel.op_args in A. rewrite H in A. destruct (mapo part_type (ms_parts i)); discriminate.
        * rewrite A in EA. injection EA as <-. exists x. auto.
    - split; [|auto]. intros _. right. right. exists i, o. split; [reflexivity|]. split; [reflexivity|]. unfold WsdlModel.op_args in A.
      destruct (mapo part_type (ms_parts i)) eqn:M1; [|left; apply untyped_none; exact M1].
      destruct (mapo part_type (ms_parts o)) eqn:M2; [discriminate|right; left; apply untyped_none; exact M2].
  Qed.
  Lemma option_map_none {A B} (f : A -> B) o : option_map f o = None <-> o = None.
  Proof. destruct o; cbn; split; congruence. Qed.
  Theorem ports_fail {Log} (c : wconf Log) d : gen_ports c d = None <->
    exists p op, In p (df_ports d) /\ In op (po_ops p) /\ gen_operation (w_args _ c) (w_returns _ c) d p op = None.
  Proof.
    unfold WsdlModel.gen_ports. rewrite option_map_none, mapo_none. split.
    - intros (p & HI & E). unfold WsdlModel.gen_port in E. rewrite option_map_none, mapo_none in E. destruct E as (op & HO & E). exists p, op. auto.
    - intros (p & op & HI & HO & E). exists p. split; [exact HI|]. unfold WsdlModel.gen_port. rewrite option_map_none, mapo_none. exists op. auto.
  Qed.
  Definition methods (ds : list wdecl) : list string := flat_map (fun d => match d with WMethod n _ _ _ _ _ _ _ _ _ _ _ _ _ => [n] | WType _ _ => [] end) ds.
  Lemma methods_app a b : methods (a ++ b) = (methods a ++ methods b)%list.
  Proof. apply flat_map_app. Qed.
  Lemma methods_concat l : methods (concat l) = flat_map methods l.
  Proof. induction l as [|a l IH]; [reflexivity|]. cbn [concat flat_map]. rewrite methods_app, IH. reflexivity. Qed.
  Lemma no_methods l : Forall (fun d => ~ is_method d) l -> methods l = [].
  Proof. induction 1 as [|d l N _ IH]; [reflexivity|]. destruct d; [exact IH|]. exfalso. apply N. exact I. Qed.
  Theorem ports_methods {Log} (c : wconf Log) d ds : gen_ports c d = Some ds ->
    methods ds = map (fun op => public (op_name op)) (flat_map po_ops (df_ports d)).
  Proof.
    unfold WsdlModel.gen_ports. destruct (mapo _ (df_ports d)) as [l|] eqn:M; [|discriminate]. intros H. injection H as <-. apply mapo_forall2 in M.
    rewrite methods_concat. induction M as [|p x ps xs E F IH]; [reflexivity|]. cbn [flat_map]. rewrite map_app, IH. f_equal. clear IH F.
    unfold WsdlModel.gen_port in E. destruct (mapo _ (po_ops p)) as [k|] eqn:M; [|discriminate]. injection E as <-. apply mapo_forall2 in M.
    rewrite methods_concat. induction M as [|op y ops ys E F IH]; [reflexivity|]. cbn [flat_map map]. rewrite IH.
    destruct (operation_declared _ _ _ _ _ _ E) as (i & o & ts & us & m & _ & _ & _ & _ & D & N & _). destruct (dc_method _ _ _ _ _ _ _ _ _ _ D) as (l & EY & IM & NM).
    rewrite EY, methods_app, (no_methods l NM). destruct m; [destruct IM|]. cbn in N |- *. rewrite N. reflexivity.
  Qed.
  Theorem filter_ignored {Log} (c : wconf Log) f d : gen_ports (mkW _ (w_pkg _ c) (w_header _ c) (w_logger _ c) (w_level _ c) (w_x _ c) f (w_args _ c) (w_returns _ c)) d = gen_ports c d.
  Proof. reflexivity. Qed.
  (* one-way operations *)
  Theorem one_way_fails {Log} (c : wconf Log) upper root p op b e : let d := parse_definition upper root in attr root "" "targetNamespace" <> "" ->
    (forall q m, descendant root q m -> called wsdlNS "message" m -> s_in colon (attr m "" "name") = false) ->
    In p (df_ports d) -> In op (po_ops p) -> reads_operation (df_tns d) b e op -> in_order e (called wsdlNS "output") [] -> gen_ports c d = None.
  Proof.
    intros d NZ NC HP HO R NO. apply ports_fail. exists p, op. split; [exact HP|]. split; [exact HO|]. apply operation_fails. right. left.
    destruct (ro_output _ _ _ _ R) as (es & O & V). rewrite (in_order_det _ _ _ _ O NO) in V. rewrite (last_value_det _ _ _ _ _ V (lv_none _ _)).
    destruct (lookup (mkName "" "") (df_messages d)) as [m|] eqn:L; [|reflexivity]. exfalso.
    apply messages_spec in L as (l1 & x & l2 & (ps & _ & IP & F) & D & _).
    apply Forall2_app_inv_r in F as (p1 & p2 & F1 & F2 & ->). inversion F2 as [|q ? ps' ? E F3]; subst.
    destruct (IP q) as [IP1 _]. destruct IP1 as (x' & D1 & C1); [apply in_or_app; right; left; reflexivity|].
    assert (x' = x) as -> by (destruct D1 as [_ D1]; congruence).
    unfold declares, resolve_default in D. rewrite (NC q x D1 C1) in D. apply String.eqb_neq in NZ. rewrite NZ in D. cbn [orb] in D.
    injection D as D _. rewrite <- D in NZ. discriminate.
  Qed.
End Gen.
