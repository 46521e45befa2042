(* The client of a set of documents: its types are those of the code. *)
From Coq Require Import Permutation.
From Verif Require Import Base SortLib ScopeModel TreeModel TreeSpec EqualModel BuiltinModel BuiltinProofs CodecModel XsdModel XsdSpec XsdProofs OptModel WsdlModel WsdlSpec WsdlProofs WsdlGen TypesModel TypesSpec TypesProofs TypesMixed TypesParse TypesFinal TypesOrder TypesRead BindProofs GenModel SgModel SgStruct SgDecl SgFlatSpec SgExpandSpec SliceModel SgGen SgGenSpec SgGenClosed SgGenName PipeModel PipeSpec PipeProofs PipeParse PartModel PartSpec PartFrame PartProofs LinkModel LinkSpec.
Local Open Scope string_scope.

Section Agree.
  Variable public : xname -> string.
  Variable fa : option (attribute -> bool).
  Variable fe : option (element -> bool).
  Variable helpers : list Z.
  Variables (all : types) (c : code).
  Notation named := (WsdlModel.name_of (co_names c) (found_name public fa fe helpers all c)).
  Notation part_type := (WsdlModel.part_type (co_names c) (found_name public fa fe helpers all c) (doc_elements all c)).
  Lemma name_agrees n c' s : SgGen.name_of public fa fe helpers all c n = Ret (c', s) -> named n = s.
  Proof.
    intros E. unfold WsdlModel.name_of, found_name. rewrite E. unfold SgGen.name_of in E. destruct (lookup n (co_names c)) as [id|]; [congruence|]. destruct (parse_builtin n) as [b|]; [|reflexivity].
    unfold builtin_id in E. destruct (builtin_expr b) as [|[g|]]; cbn [andthen] in E; congruence.
  Qed.
  Lemma elements_agree p els : lookup p (map (fun e => (el_name e, match type_name (co_store c) (el_type e) with Some n => n | None => mkName "" "" end)) els) =
    option_map (fun e => match type_name (co_store c) (el_type e) with Some n => n | None => mkName "" "" end) (find (fun e => xname_eqb (el_name e) p) els).
  Proof. induction els as [|e els IH]; [reflexivity|]. cbn [map lookup find]. destruct (xname_eqb (el_name e) p); [reflexivity|exact IH]. Qed.
  Theorem part_agrees p r : get_part_type public fa fe helpers all c p = Ret r -> part_type p = option_map snd r.
  Proof.
    unfold get_part_type, WsdlModel.part_type, doc_elements. destruct (negb (String.eqb (nlocal (pa_type p)) "")).
    - destruct (SgGen.name_of public fa fe helpers all c (pa_type p)) as [[c' s]| | |] eqn:E; cbn [andthen]; try discriminate. intros H. injection H as <-. cbn [option_map snd]. f_equal. exact (name_agrees _ _ _ E).
    - destruct (negb (String.eqb (nlocal (pa_elem p)) "")); [|intros H; injection H as <-; reflexivity]. destruct (doc_type all c (nspace (pa_elem p))) as [d|]; cbn [option_map]; [|intros H; injection H as <-; reflexivity].
      rewrite elements_agree. destruct (find _ (ct_elems d)) as [e|]; cbn [option_map]; [|intros H; injection H as <-; reflexivity]. destruct (type_name (co_store c) (el_type e)) as [n|]; [|discriminate].
      destruct (SgGen.name_of public fa fe helpers all c n) as [[c' s]| | |] eqn:E; cbn [andthen]; try discriminate. intros H. injection H as <-. cbn [option_map snd]. f_equal. exact (name_agrees _ _ _ E).
  Qed.
End Agree.

Section Whole.
  Variable annot : elem -> option string.
  Variables (F T : Type) (f0 : F) (t0 : T).
  Variables (pf : string -> option F) (pd pr : string -> option T) (comp : string -> bool) (msg : string -> string).
  Variables (public : xname -> string) (fa : option (attribute -> bool)) (fe : option (element -> bool)) (ft : option (xname -> bool)) (allow : option (list xname)) (helpers : list Z) (slices : bool).
  Variables (h : xname -> nat) (roots : list elem) (l : list rd) (namespaces targets ns : list string).
  Hypothesis Hn : forall b, non_trivial b = true -> memb b helpers = true.
  Hypothesis Hfa : forall a t, filtered fa (retype_at a t) = filtered fa a.
  Hypothesis Rd : Forall2 (fun root r => read annot F T f0 t0 pf pd pr comp msg root = Some r) roots l.
  Hypothesis Pt : forall root, In root roots -> plain_tops root.
  Hypothesis Nt : forall root, In root roots -> attr root "" "targetNamespace" <> "".
  Hypothesis D : documents h l.
  Hypothesis Us : unused_self l.
  Hypothesis Hh : forall n, h n <= N.to_nat 1000.
  Hypothesis Im : imports_first l.
  Hypothesis Ens : namespaces = [] /\ ns = targets \/ namespaces <> [] /\ ns = namespaces.
  Hypothesis Nn : NoDup ns.
  Hypothesis Hns : forall s, In s ns -> exists root, In root roots /\ attr root "" "targetNamespace" = s.
  Variables (ord : nat -> list (xname * ty) -> list (xname * ty)) (ord' : string -> list (xname * ty) -> list (xname * ty)).
  Hypothesis O : any_order ord.
  Hypothesis O' : forall s m, Permutation m (ord' s m).
  Notation usable := (usable fa ft allow ns l).
  Notation go_for c := (go_for public (map fst (co_decls c))).
  Lemma code_names st parsed c : parse_rds ord l = Ok (st, parsed) -> gen_code public fa fe ft allow helpers slices ord ord' namespaces targets l = Ret (Coded c) ->
    (forall n id, lookup n (co_names c) = Some id -> id = public n /\ In id (map fst (co_decls c))) /\
    forall all t d, In (nspace t) ns -> PipeSpec.declares l t d -> picked ft allow t -> own_declaration fa l d -> SgGen.name_of public fa fe helpers all c t = Ret (c, public t) /\ In (public t) (map fst (co_decls c)).
  Proof.
    intros E Gc. pose proof (used_is namespaces targets ns Ens) as U. assert (Hns' : forall s, In s ns -> exists r, In r l /\ rd_tns r = s).
    { intros s H. destruct (Hns s H) as (root & Hr & <-). destruct (forall2_in_l _ _ _ Rd root Hr) as (r & H1 & R). exists r. split; [exact H1|exact (tns_read _ _ _ _ _ _ _ _ _ _ _ _ R)]. }
    pose proof (ns_incl l ns Hns') as I. pose proof Nn as N. rewrite <- U in I, N.
    pose proof (chosen_known h l D ord O st parsed E ord' namespaces targets O' I) as K.
    destruct (gen_main public fa fe ft allow helpers Hn (rank h l) slices st _ Hfa (st_generable h l D ord O st parsed E Hh) (rank_bound h l Hh) K) as (c' & Ec & _ & _ & _ & Nm & _).
    unfold gen_code in Gc. rewrite E, (enough h l D ord O st parsed E namespaces targets N I), Ec in Gc. cbn [andthen] in Gc. injection Gc as <-. split; [exact Nm|].
    intros all t d Hi (r & Hr' & Hd) Pk Od.
    destruct (name_stays public fa fe ft allow helpers Hn (rank h l) slices st _ Hfa (st_generable h l D ord O st parsed E Hh) (rank_bound h l Hh) K) as (c & Ec' & P). assert (c' = c) as -> by congruence.
    destruct (own_map h l D ord O st parsed E r Hr') as (own & Eo & M & _). destruct (M _ _ Hd) as (i & Io & Di). pose proof (proj2 (dc_keyed _ _ D r t d Hr' Hd)) as Sp. destruct (decl_nth h l D ord O st parsed E i _ _ Di) as (d' & Hd' & Nd' & _).
    apply (P all (map snd (ord' (rd_tns r) own)) (TPtr i) t).
    - apply (chosen_has l parsed ord' namespaces targets r own Hr'); [rewrite U, <- Sp; exact Hi|exact Eo].
    - apply in_map_iff. exists (t, TPtr i). split; [reflexivity|]. exact (Permutation_in _ (O' _ _) Io).
    - cbn [type_name]. rewrite Hd'. cbn [option_map]. rewrite Nd'. reflexivity.
    - exact Pk.
    - exact (own_stays h l D ord O st parsed E fa Hfa t d i Di Od).
  Qed.
  Theorem client_types : exists st parsed c, parse_rds ord l = Ok (st, parsed) /\ gen_code public fa fe ft allow helpers slices ord ord' namespaces targets l = Ret (Coded c) /\
    let all := all_types (chosen_schemas namespaces targets l parsed) (deps l parsed) in
    (forall p t, xml_type roots p t -> usable t -> exists s, get_part_type public fa fe helpers all c p = Ret (Some (c, s)) /\ go_for c t s) /\
    forall (title : string -> string) (parses : wdecl -> bool) (Log : Type) (w : wconf Log) (d : definition), (forall p op, In p (df_ports d) -> In op (po_ops p) -> fit roots usable d op) ->
      (client public fa fe helpers all c title parses w d = None -> exists x, parses x = false) /\
      (forall ds, client public fa fe helpers all c title parses w d = Some ds -> methods ds = map (fun op => public (op_name op)) (flat_map po_ops (df_ports d))) /\
      forall p op ds, In p (df_ports d) -> In op (po_ops p) -> client_operation public fa fe helpers all c title parses (w_args _ w) (w_returns _ w) d p op = Some ds ->
        exists input output ts us m, lookup (op_input op) (df_messages d) = Some input /\ lookup (op_output op) (df_messages d) = Some output /\
          Forall2 (fun p s => exists t, xml_type roots p t /\ go_for c t s) (ms_parts input) ts /\ Forall2 (fun p s => exists t, xml_type roots p t /\ go_for c t s) (ms_parts output) us /\
          declared title (w_args _ w) (w_returns _ w) (df_tns d) input ts output us ds m /\ method_name m = public (op_name op).
  Proof.
    destruct (part_types annot F T f0 t0 pf pd pr comp msg public fa fe ft allow helpers slices h roots l namespaces targets ns Hn Hfa Rd Pt Nt D Us Hh Im Ens Nn Hns ord ord' O O') as (st & parsed & c & E & Gc & P).
    exists st, parsed, c. split; [exact E|]. split; [exact Gc|]. intros all. destruct (code_names st parsed c E Gc) as [Nm Own].
    assert (Nb : forall t b g, parse_builtin t = Some b -> builtin_expr b = Returns (Some g) -> exists s, SgGen.name_of public fa fe helpers all c t = Ret (c, s) /\ go_for c t s).
    { intros t b g Pb Eg. unfold SgGen.name_of. destruct (lookup t (co_names c)) as [id|] eqn:L; [exists id; split; [reflexivity|]; right; exact (Nm _ _ L)|]. rewrite Pb. unfold builtin_id. rewrite Eg. cbn [andthen]. eexists. split; [reflexivity|]. left. eauto. }
    assert (Q : forall p t, xml_type roots p t -> usable t -> exists s, get_part_type public fa fe helpers all c p = Ret (Some (c, s)) /\ go_for c t s).
    { intros p t X U. assert (Nt' : exists s, SgGen.name_of public fa fe helpers all c t = Ret (c, s) /\ go_for c t s).
      { destruct U as [(b & g & Pb & Eg)|(d & H1 & H2 & H3 & H4)]; [exact (Nb t b g Pb Eg)|]. destruct (Own all t d H1 H2 H3 H4) as [H5 H6]. exists (public t). split; [exact H5|right; auto]. }
      destruct Nt' as (s & E1 & G). exists s. split; [|exact G]. destruct X as [X|root t X1 X2 X3 X4 X5 X6].
      - unfold get_part_type. apply String.eqb_neq in X. rewrite X. cbn [negb]. rewrite E1. reflexivity.
      - destruct (P p X1 X2) as [P1 _]. destruct (P1 root t X3 X4 X5 X6) as [P2 _]. fold all in P2. rewrite P2, E1. reflexivity. }
    split; [exact Q|]. intros title parses Log w d Fit.
    assert (Ty : forall p t, xml_type roots p t -> usable t -> exists s, WsdlModel.part_type (co_names c) (found_name public fa fe helpers all c) (doc_elements all c) p = Some s /\ go_for c t s).
    { intros p t X U. destruct (Q p t X U) as (s & E1 & G). exists s. split; [exact (part_agrees public fa fe helpers all c p _ E1)|exact G]. }
    assert (Ty' : forall m, (forall p, In p (ms_parts m) -> exists t, xml_type roots p t /\ usable t) -> forall ts, Forall2 (go_type (co_names c) (found_name public fa fe helpers all c) (doc_elements all c)) (ms_parts m) ts -> Forall2 (fun p s => exists t, xml_type roots p t /\ go_for c t s) (ms_parts m) ts).
    { intros m Hm ts Ft. revert Hm. induction Ft as [|p s ps ss G Ft IH]; intros Hm; constructor; [|apply IH; intros q Hq; apply Hm; right; exact Hq]. destruct (Hm p (or_introl eq_refl)) as (t & X & U). destruct (Ty p t X U) as (s' & E1 & E2). apply part_type_spec in G. assert (s' = s) as -> by congruence. exists t. auto. }
    split; [|split].
    - intros H. unfold client in H. apply ports_fail in H as (p & op & Hp & Ho & H). apply operation_fails in H. specialize (Fit p op Hp Ho). destruct (Fit _ (or_introl eq_refl)) as (i & I1 & I2). destruct (Fit _ (or_intror eq_refl)) as (o & O1 & O2).
      assert (N : forall m, (forall p, In p (ms_parts m) -> exists t, xml_type roots p t /\ usable t) -> ~ untyped (co_names c) (found_name public fa fe helpers all c) (doc_elements all c) m).
      { intros m Hm (q & Hq & Nq). destruct (Hm q Hq) as (t & X & U). destruct (Ty q t X U) as (s & E1 & _). apply (Nq s). apply part_type_spec. exact E1. }
      destruct H as [H|[H|(i' & o' & H1 & H2 & [H|[H|(a & x & _ & _ & H)]])]]; try congruence; [destruct (N i I2); congruence|destruct (N o O2); congruence|eauto].
    - intros ds H. exact (ports_methods _ _ _ _ _ _ _ _ _ H).
    - intros p op ds Hp Ho H. specialize (Fit p op Hp Ho). destruct (Fit _ (or_introl eq_refl)) as (i & I1 & I2). destruct (Fit _ (or_intror eq_refl)) as (o & O1 & O2).
      destruct (operation_declared _ _ _ _ _ _ _ _ _ _ _ _ H) as (i' & o' & ts & us & m & E1 & E2 & F1 & F2 & De & Mn & _). assert (i' = i) as -> by congruence. assert (o' = o) as -> by congruence. exists i, o, ts, us, m. split; [exact I1|]. split; [exact O1|]. split; [exact (Ty' i I2 ts F1)|]. split; [exact (Ty' o O2 us F2)|]. split; [exact De|exact Mn].
  Qed.
  Theorem client_missing : exists st parsed c, parse_rds ord l = Ok (st, parsed) /\ gen_code public fa fe ft allow helpers slices ord ord' namespaces targets l = Ret (Coded c) /\
    let all := all_types (chosen_schemas namespaces targets l parsed) (deps l parsed) in
    forall (title : string -> string) (parses : wdecl -> bool) (Log : Type) (w : wconf Log) (d : definition) p op n m q, In p (df_ports d) -> In op (po_ops p) -> n = op_input op \/ n = op_output op -> lookup n (df_messages d) = Some m -> In q (ms_parts m) ->
      nlocal (pa_type q) = "" -> nlocal (pa_elem q) <> "" -> (forall t, ~ xml_type roots q t) -> client public fa fe helpers all c title parses w d = None.
  Proof.
    destruct (part_types annot F T f0 t0 pf pd pr comp msg public fa fe ft allow helpers slices h roots l namespaces targets ns Hn Hfa Rd Pt Nt D Us Hh Im Ens Nn Hns ord ord' O O') as (st & parsed & c & E & Gc & P).
    exists st, parsed, c. split; [exact E|]. split; [exact Gc|]. intros all title parses Log w d p op n m q Hp Ho Hm Em Hq X1 X2 X. destruct (P q X1 X2) as [_ P2].
    assert (G : get_part_type public fa fe helpers all c q = Ret None) by (apply P2; intros root t H1 H2 H3 H4; apply (X t); econstructor 2; eauto). apply part_agrees in G. cbn [option_map] in G.
    assert (U : untyped (co_names c) (found_name public fa fe helpers all c) (doc_elements all c) m) by (exists q; split; [exact Hq|]; intros t Gt; apply part_type_spec in Gt; congruence).
    unfold client. apply ports_fail. exists p, op. split; [exact Hp|]. split; [exact Ho|]. apply operation_fails. destruct (lookup (op_input op) (df_messages d)) as [i|] eqn:I; [|left; reflexivity]. destruct (lookup (op_output op) (df_messages d)) as [o|] eqn:Oo; [|right; left; reflexivity].
    right. right. exists i, o. split; [reflexivity|]. split; [reflexivity|]. destruct Hm as [->| ->]; [left|right; left]; congruence.
  Qed.
End Whole.
