(* Code.NameOf: what it answers for the types code was generated from. *)
From Verif Require Import Base SortLib ScopeModel TreeModel EqualModel Utf8 Decimal BuiltinModel BuiltinProofs CodecModel XsdModel XsdProofs TypesModel TypesSpec TypesProofs GraphModel GenModel SgModel SgStruct SgProofs SgNames SgTags SgDecl SgExamples SgFlat SgClosed SgFlatSpec SgFlatten SgExpandSpec SgExpand SgExpandFields SliceModel SliceExamples SgGen SgGenSpec SgGenProofs SgGenCode SgGenClosed.
Local Open Scope string_scope.

Section Name.
  Variable public : xname -> string.
  Variable fa : option (attribute -> bool).
  Variable fe : option (element -> bool).
  Variable ft : option (xname -> bool).
  Variable allow : option (list xname).
  Variable helpers : list Z.
  Hypothesis Hh : forall b, non_trivial b = true -> memb b helpers = true.
  Variable h : nat -> nat.
  Lemma name_declared all c n id : lookup n (co_names c) = Some id -> name_of public fa fe helpers all c n = Ret (c, id).
  Proof. intros H. unfold name_of. rewrite H. reflexivity. Qed.
  Theorem name_stays slices st schemas : (forall a t, filtered fa (retype_at a t) = filtered fa a) -> generable h st -> (forall i, h i <= N.to_nat 1000) -> (forall types t, In types schemas -> In t types -> known st t) ->
    exists c, gen public fa fe ft allow helpers slices st schemas = Ret (inr c) /\
      forall all types t n, In types schemas -> In t types -> type_name st t = Some n -> picked ft allow n -> stays fa st t ->
        name_of public fa fe helpers all c n = Ret (c, public n) /\ In (public n) (map fst (co_decls c)).
  Proof.
    intros Hfa G Hb K. destruct (gen_main public fa fe ft allow helpers Hh h slices st schemas Hfa G Hb K) as (c & E & _ & P & _). exists c. split; [exact E|]. intros all types t n H1 H2 H3 H4 H5.
    destruct (P types t n H1 H2 H3 (proj2 (selected_picked ft allow n) H4)) as (v & _ & V & D). specialize (V H5). subst v. destruct t as [| | |j]; try contradiction. destruct (D j eq_refl n H3) as [L I]. split; [exact (name_declared all c n _ L)|exact I].
  Qed.
  Theorem name_plain slices st schemas : (forall a t, filtered fa (retype_at a t) = filtered fa a) -> generable h st -> (forall i, h i <= N.to_nat 1000) -> (forall types t, In types schemas -> In t types -> known st t) ->
    exists c, gen public fa fe ft allow helpers slices st schemas = Ret (inr c) /\
      forall all i s n b g, nth_error st i = Some (DS s) -> sd_name s = n -> lookup n all = Some (TPtr i) -> ancestor st (TPtr i) (TB b) -> plain s b -> builtin_expr b = Returns (Some g) ->
        exists c' id, name_of public fa fe helpers all c n = Ret (c', id) /\ co_decls c' = co_decls c /\ (In id (map fst (co_decls c)) \/ id = expr_text (of_gotype g)).
  Proof.
    intros Hfa G Hb K. destruct (gen_main public fa fe ft allow helpers Hh h slices st schemas Hfa G Hb K) as (c & E & _ & _ & _ & N & F & G'). exists c. split; [exact E|]. intros all i s n b g Hi Hn Ha Ab Pb Eg. subst n.
    unfold name_of. destruct (lookup (sd_name s) (co_names c)) as [id|] eqn:L; [exists c, id; split; [reflexivity|]; split; [reflexivity|]; left; exact (proj2 (N _ _ L))|].
    destruct (parse_builtin (sd_name s)) as [z|] eqn:Pz. { exfalso. apply parse_builtin_spec in Pz as [_ Pz]. exact (gn_apart _ _ G i _ (TB z) Hi (f_equal Some Pz)). }
    rewrite Ha. destruct (fo_plain _ _ _ F i s Hi) as (s' & Es' & Ps'). destruct (proj1 (gn_complete _ _ G' i _ Es')) as [b' Ab'].
    assert (b' = b) as ->. { apply (root_unique st (TPtr i)); [|exact Ab]. apply (fo_anc _ _ _ F); [exact (nth_lt _ _ _ Hi)|exact Ab']. }
    assert (Md : max_depth = Datatypes.S (N.to_nat 1000)) by (unfold max_depth; lia). rewrite Md. destruct (flatten_simple_type fa (N.to_nat 1000) (co_store c) i s' b (gn_complete _ _ G') Es' Ab') as (st2 & p & v & s2 & E2 & V & _).
    specialize (V (proj2 (Ps' b) Pb)). subst v. rewrite E2. cbn [andthen].
    destruct (lookup (b_name b) (co_names c)) as [id|] eqn:Lb; [eexists; eexists; split; [reflexivity|]; split; [reflexivity|]; left; exact (proj2 (N _ _ Lb))|].
    assert (T : translated b). { inversion Ab as [|t w Hn Hw Et Ew]. cbn [base_of] in Hw. rewrite Hi in Hw. apply (gn_translated _ _ G i _ _ b Hi (or_introl eq_refl) Hw). }
    rewrite (parse_name b (proj1 T)). unfold builtin_id. rewrite Eg. cbn [andthen]. eexists. eexists. split; [reflexivity|]. split; [reflexivity|]. right. reflexivity.
  Qed.
End Name.

Lemma gen_closed public fa fe ft allow helpers h slices st schemas : (forall b, non_trivial b = true -> memb b helpers = true) ->
  (forall a t, filtered fa (retype_at a t) = filtered fa a) -> generable h st -> (forall i, h i <= N.to_nat 1000) -> (forall types t, In types schemas -> In t types -> known st t) ->
  exists c, gen public fa fe ft allow helpers slices st schemas = Ret (inr c) /\ closed_code (co_decls c).
Proof. intros Hh Hfa G Hb K. destruct (gen_main public fa fe ft allow helpers Hh h slices st schemas Hfa G Hb K) as (c & E & C & _). exists c. auto. Qed.
Lemma gen_present public fa fe ft allow helpers h slices st schemas : (forall b, non_trivial b = true -> memb b helpers = true) ->
  (forall a t, filtered fa (retype_at a t) = filtered fa a) -> generable h st -> (forall i, h i <= N.to_nat 1000) -> (forall types t, In types schemas -> In t types -> known st t) ->
  exists c, gen public fa fe ft allow helpers slices st schemas = Ret (inr c) /\
    (forall types t n, In types schemas -> In t types -> type_name st t = Some n -> picked ft allow n ->
       present fa st (fun j => forall m, type_name st (TPtr j) = Some m -> In (public m) (map fst (co_decls c))) t) /\
    (forall x, In x (map fst (co_decls c)) -> (exists j n, type_name st (TPtr j) = Some n /\ x = public n) \/ exists b, non_trivial b = true /\ x = helper_name b).
Proof.
  intros Hh Hfa G Hb K. destruct (gen_main public fa fe ft allow helpers Hh h slices st schemas Hfa G Hb K) as (c & E & _ & P & Q & _). exists c. split; [exact E|]. split; [|exact Q].
  intros types t n H1 H2 H3 H4. destruct (P types t n H1 H2 H3 (proj2 (selected_picked ft allow n) H4)) as (v & V1 & V2 & V3). exists v. split; [exact V1|]. split; [exact V2|]. intros j J m M. exact (proj2 (V3 j J m M)).
Qed.
