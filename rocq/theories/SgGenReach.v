(* Nothing is declared but the types that code is generated from, and helper types. *)
From Verif Require Import Base SortLib ScopeModel TreeModel EqualModel Utf8 Decimal BuiltinModel CodecModel XsdModel XsdProofs TypesModel TypesSpec TypesProofs NormAttr GraphModel GenModel SgModel SgStruct SgProofs SgNames SgDecl SgExamples SgFlat SgClosed SgFlatSpec SgFlatten SgExpandSpec SgExpand SgExpandFields SgExpandExamples SliceModel SgGen SgGenSpec SgGenProofs SgGenCode SgGenClosed SgGenName SgOrderSpec SgOrderReach SgOrderCode.
Local Open Scope string_scope.

Section Only.
  Variable public : xname -> string.
  Variable fa : option (attribute -> bool).
  Variable fe : option (element -> bool).
  Variable ft : option (xname -> bool).
  Variable allow : option (list xname).
  Variable helpers : list Z.
  Hypothesis Hh : forall b, non_trivial b = true -> memb b helpers = true.
  Variable h : nat -> nat.
  Hypothesis Hfa : forall a t, filtered fa (retype_at a t) = filtered fa a.
  Hypothesis Hb : forall i, h i <= N.to_nat 1000.
  Variable P : ty -> Prop.
  Hypothesis PN : P TNil.
  Hypothesis PB : forall b, P (TB b).
  Variable names : list xname.
  Definition fine (s : spec) : Prop := exists j n, sp_type s = TPtr j /\ P (TPtr j) /\ nth_error names j = Some n /\ sp_name s = public n /\ forall b, In b (sp_helpers s) -> non_trivial b = true.
  Lemma steps_only l : (forall t, In t l -> P t) -> forall m st acc, incl m l -> generable h st -> shut st l -> all_uses P names st ->
    exists st' sps, foldr (gen_step public fa fe helpers) (st, [], acc) m = Ret (st', [], (acc ++ sps)%list) /\ generable h st' /\ all_uses P names st' /\ (forall t, type_name st' t = type_name st t) /\ List.length st' = List.length st /\ forall s, In s sps -> fine s.
  Proof.
    intros Pl. induction m as [|t m IH]; intros st acc Hm G S U.
    - exists st, []. rewrite app_nil_r. cbn [foldr]. split; [reflexivity|]. split; [exact G|]. split; [exact U|]. split; [reflexivity|]. split; [reflexivity|intros s []].
    - destruct (type_ok public fa fe helpers Hh h st l t G S (Hm t (or_introl eq_refl))) as (st1 & s1 & E1 & Gr & La & F1). cbn [foldr gen_step]. rewrite E1. cbn [andthen].
      assert (G1 : generable h st1) by exact (moved_generable st st1 (gn_complete _ _ G) (grown_moved _ _ Gr) h G).
      destruct (IH st1 (acc ++ s1)%list (fun x Hx => Hm x (or_intror Hx)) G1 (grown_shut _ _ _ Gr S) (grown_uses P PN names _ _ Gr U)) as (st2 & s2 & E2 & G2 & U2 & N2 & L2 & F2). exists st2, (s1 ++ s2)%list. rewrite app_assoc. split; [exact E2|].
      split; [exact G2|]. split; [exact U2|]. split; [intros u; rewrite N2; exact (grown_name _ _ u Gr)|]. split; [rewrite L2; exact (gr_len _ _ Gr)|]. intros s Hs. apply in_app_or in Hs as [Hs|Hs]; [|exact (F2 s Hs)].
      destruct (forall2_back _ _ _ _ F1 Hs) as (t' & Ht & O). apply filter_In in Ht as [[<-|[]] Hp]. destruct t as [| | |j]; try discriminate. pose proof (sh_known _ _ S _ (Hm _ (or_introl eq_refl))) as Kj. cbn [known] in Kj.
      destruct (nth_error st j) as [d|] eqn:Ed; [|apply nth_error_None in Ed; lia]. exists j, (def_name d). assert (Q : type_name st (TPtr j) = Some (def_name d)) by (cbn [type_name]; rewrite Ed; reflexivity).
      split; [exact (so_type _ _ _ _ _ O)|]. split; [apply Pl, Hm; left; reflexivity|]. split; [rewrite <- (names_type names st (TPtr j) (proj1 U)); exact Q|]. split; [exact (so_name _ _ _ _ _ O _ Q)|exact (so_help _ _ _ _ _ O)].
  Qed.
  Lemma schemas_only : forall schemas st acc, generable h st -> all_uses P names st -> (forall types t n, In types schemas -> In t types -> type_name st t = Some n -> selected ft allow n = true -> P t) -> (forall types t, In types schemas -> In t types -> known st t) ->
    exists st' sps, foldr (gen_schema public fa fe ft allow helpers) (st, [], acc) schemas = Ret (st', [], (acc ++ sps)%list) /\ forall s, In s sps -> fine s.
  Proof.
    induction schemas as [|types m IH]; intros st acc G U Hs K; [exists st, []; rewrite app_nil_r; cbn [foldr]; split; [reflexivity|intros s []]|].
    pose proof (fun t => K types t (or_introl eq_refl)) as K0.
    destruct (flatten_all fa ft allow st types Hfa (gn_complete _ _ G) K0) as [st1 [l [E1 [F1 [L1 [R1 [C1 [K1 [P1 N1]]]]]]]]].
    destruct (flatten_closed fa ft allow h st types Hfa (gn_complete _ _ G) (gn_ranked _ _ G) Hb K0) as [st1' [l' [E1' Rd]]]. assert (st1' = st1) as -> by congruence. assert (l' = l) as -> by congruence. clear E1'.
    pose proof (flat_moved fa st st1 (gn_complete _ _ G) L1 F1 R1) as M1. pose proof (moved_generable st st1 (gn_complete _ _ G) M1 h G) as G1. pose proof (names_nodup st1 l N1) as Nd. pose proof (complete_rooted _ C1) as Rt.
    destruct (expand_main st1 l Rt (gn_apart _ _ G1) Nd K1) as [st2 [E2 _]]. pose proof (expand_grown st1 l st2 Rt (gn_apart _ _ G1) Nd K1 E2) as Gr.
    pose proof (moved_generable st1 st2 C1 (grown_moved _ _ Gr) h G1) as G2. pose proof (grown_shut _ _ _ Gr (ready_shut st1 l K1 Rd)) as S2.
    destruct (flatten_reach P PN PB names fa ft allow st types st1 l U (fun t n => Hs types t n (or_introl eq_refl)) E1) as [U1 Pl].
    destruct (steps_only l Pl l st2 acc (incl_refl l) G2 S2 (grown_uses P PN names _ _ Gr U1)) as (st3 & sps & E3 & G3 & U3 & N3 & L3 & Fi).
    assert (Nm : forall t, type_name st3 t = type_name st t) by (intros t; rewrite N3, (grown_name _ _ t Gr); exact (moved_type_name st st1 M1 t)).
    destruct (IH st3 (acc ++ sps)%list G3 U3) as (st4 & sps4 & E4 & F4).
    { intros ty t n H1 H2 H3. rewrite Nm in H3. exact (Hs ty t n (or_intror H1) H2 H3). }
    { intros ty t H1 H2. specialize (K ty t (or_intror H1) H2). destruct t; cbn [known] in *; auto. rewrite L3, (gr_len _ _ Gr), L1. exact K. }
    exists st4, (sps ++ sps4)%list. cbn [foldr]. unfold gen_schema at 1. rewrite E1. cbn [andthen fst snd]. rewrite E2. cbn [andthen]. rewrite E3. cbn [andthen]. rewrite E4, app_assoc. split; [reflexivity|].
    intros s Hsp. apply in_app_or in Hsp as [Hsp|Hsp]; auto.
  Qed.
End Only.
Theorem gen_only public fa fe ft allow helpers h slices st schemas : (forall b, non_trivial b = true -> memb b helpers = true) ->
  (forall a t, filtered fa (retype_at a t) = filtered fa a) -> generable h st -> (forall i, h i <= N.to_nat 1000) -> (forall types t, In types schemas -> In t types -> known st t) ->
  exists c, gen public fa fe ft allow helpers slices st schemas = Ret (inr c) /\
    forall x, In x (map fst (co_decls c)) -> (exists j n, reached ft allow st schemas (TPtr j) /\ type_name st (TPtr j) = Some n /\ x = public n) \/ exists b, non_trivial b = true /\ x = helper_name b.
Proof.
  intros Hh Hfa G Hb K. set (P := fun t => match t with TPtr _ => reached ft allow st schemas t | _ => True end).
  destruct (schemas_only public fa fe ft allow helpers Hh h Hfa Hb P I (fun b => I) (map def_name st) schemas st [] G) as (st' & sps & E & F); auto.
  { split; [reflexivity|]. intros i d u Hi E Hu. destruct u as [| | |j]; cbn [P]; auto. exact (rc_used _ _ _ _ i d _ Hi E Hu). }
  { intros types t n H1 H2 H3 H4. destruct t as [| | |j]; cbn [P]; auto. exact (rc_listed _ _ _ _ types _ n H1 H2 H3 (proj1 (selected_picked ft allow n) H4)). }
  destruct (gen_closed public fa fe ft allow helpers h slices st schemas Hh Hfa G Hb K) as (c & Ec & _). exists c. split; [exact Ec|]. intros x Hx.
  unfold gen in Ec. cbn [app] in E. rewrite E in Ec. cbn [andthen] in Ec. destruct (foldr _ [] sps) as [nms| | |]; cbn [andthen] in Ec; try discriminate.
  set (ds := declare [] (map (fun s => (sp_name s, s)) sps)) in Ec. destruct (foldr _ [] ds) as [out| | |] eqn:Eo; cbn [andthen] in Ec; try discriminate. injection Ec as <-. cbn [co_decls] in *.
  destruct (posts_get slices st' ds out Eo) as [M1 Q1]. destruct (helpers_ok helpers out) as [H1 _]. cbv zeta in H1. apply H1 in Hx as [Hx|(b & p & P1 & P2 & P3 & ->)].
  - left. rewrite M1 in Hx. unfold ds in Hx. rewrite declare_keys in Hx. cbn [map In] in Hx. destruct Hx as [[]|Hx]. rewrite map_map in Hx. cbn [fst] in Hx. apply in_map_iff in Hx as (s & <- & Hs). destruct (F s Hs) as (j & n & _ & Hj & Hn & -> & _). exists j, n.
    split; [exact Hj|]. split; [cbn [type_name]; rewrite <- nth_error_map; exact Hn|reflexivity].
  - right. exists b. split; [|reflexivity]. destruct p as [k s]. cbn [snd] in P2. assert (Nd : NoDup (map fst ds)) by (apply declare_nodup; constructor). assert (No : NoDup (map fst out)) by (rewrite M1; exact Nd).
    apply sget_nodup_in in P1; [|exact No]. specialize (Q1 k). destruct (sget k ds) as [s0|] eqn:Es; [|congruence]. destruct Q1 as (s' & A1 & A2). assert (s' = s) as -> by congruence.
    apply sget_in in Es. unfold ds in Es. apply declare_in in Es as [[]|Es]. apply in_map_iff in Es as (s1 & [= <- ->] & Hs1). destruct (F s0 Hs1) as (_ & _ & _ & _ & _ & _ & Hn). apply Hn. unfold SgGen.post in A1. destruct slices; [|congruence].
    unfold sliced in A1. destruct (to_slice st' s0) as [[sl|]| | |]; cbn [andthen] in A1; try discriminate; injection A1 as <-; exact P2.
Qed.
