(* The declarations that gen makes are such that values can be written and read back. *)
From Verif Require Import Base SortLib ScopeModel TreeModel EqualModel BuiltinModel XsdModel XsdProofs TypesModel TypesSpec TypesProofs GraphModel GenModel SgModel SgStruct SgProofs SgNames SgTags SgDecl SgFlat SgFlatSpec SgFlatten SgExpandSpec SgExpand SgGen SgGenSpec SgGenProofs SgGenCode SgOrderSpec SgOrderCode SgShapeSpec SgShape BindModel BindSpec BindProofs BindGen BindGenSpec BindStruct WholeSpec.
Local Open Scope string_scope.

(* ---------- the names of fields ---------- *)
Section Names.
  Variable public : xname -> string.
  Variable helpers : list Z.
  Definition el_id (e : element) : string := if el_wild e then item_name e else public (el_name e).
  Lemma element_ids st els : forall g g', foldr (element_field public helpers st) g els = Ret g' -> NoDup (map (fun e => public (el_name e)) els) ->
    (forall x, In x (map (fun e => public (el_name e)) els) -> ~ In x (g_taken g)) ->
    exists fs, g_fields g' = (g_fields g ++ fs)%list /\ map sf_name fs = map el_id els /\ forall x, In x (g_taken g') -> In x (g_taken g) \/ In x (map (fun e => public (el_name e)) els).
  Proof.
    induction els as [|e els IH]; intros g g' H N D; cbn [foldr] in H; [injection H as <-; exists []; rewrite app_nil_r; auto|].
    destruct (element_field public helpers st g e) as [g1| | |] eqn:E1; try discriminate H. cbn [map] in N, D. apply NoDup_cons_iff in N as [Ne N].
    unfold element_field in E1. destruct (expr_of public st (el_type e)) as [y| | |]; cbn [andthen] in E1; try discriminate. unfold element_name in E1.
    assert (M : mem_str (public (el_name e)) (g_taken g) = false) by (apply mem_str_out; apply D; left; reflexivity). rewrite M in E1. cbv zeta in E1.
    destruct (override_for _ _ _ _ _ _ _) as [oh| | |]; cbn [andthen] in E1; try discriminate. injection E1 as <-. destruct (IH _ _ H N) as (fs & F1 & F2 & F3).
    { intros x Hx [<-|Hx']; [exact (Ne Hx)|]. exact (D x (or_intror Hx) Hx'). }
    cbn [g_fields g_taken] in F1, F3. rewrite <- app_assoc in F1. cbn [app] in F1. eexists. split; [exact F1|]. split; [cbn [map sf_name]; rewrite F2; reflexivity|]. intros x Hx. cbn [map In]. destruct (F3 x Hx) as [[<-|Q]|Q]; auto.
  Qed.
  Lemma attribute_ids st ats : forall g g', foldr (attribute_field public helpers st) g ats = Ret g' -> NoDup (map (fun a => public (at_name a)) ats) ->
    (forall x, In x (map (fun a => public (at_name a)) ats) -> ~ In x (g_taken g)) ->
    exists fs, g_fields g' = (g_fields g ++ fs)%list /\ map sf_name fs = map (fun a => public (at_name a)) ats.
  Proof.
    induction ats as [|e els IH]; intros g g' H N D; cbn [foldr] in H; [injection H as <-; exists []; rewrite app_nil_r; auto|].
    destruct (attribute_field public helpers st g e) as [g1| | |] eqn:E1; try discriminate H. cbn [map] in N, D. apply NoDup_cons_iff in N as [Ne N].
    unfold attribute_field in E1. destruct (expr_of public st (at_type e)) as [y| | |]; cbn [andthen] in E1; try discriminate. unfold attribute_name in E1.
    assert (M : mem_str (public (at_name e)) (g_taken g) = false) by (apply mem_str_out; apply D; left; reflexivity). rewrite M in E1. cbv zeta in E1.
    destruct (override_for _ _ _ _ _ _ _) as [oh| | |]; cbn [andthen] in E1; try discriminate. injection E1 as <-. destruct (IH _ _ H N) as (fs & F1 & F2).
    { intros x Hx [<-|Hx']; [exact (Ne Hx)|]. exact (D x (or_intror Hx) Hx'). }
    cbn [g_fields g_taken] in F1. rewrite <- app_assoc in F1. cbn [app] in F1. eexists. split; [exact F1|]. cbn [map sf_name]. rewrite F2. reflexivity.
  Qed.
End Names.

Lemma nodup_parts {A} (l m : list A) : NoDup (l ++ m) -> NoDup l /\ NoDup m /\ forall x, In x l -> ~ In x m.
Proof.
  induction l as [|a l IH]; cbn [app]; intros N; [split; [constructor|]; split; [exact N|intros x []]|]. apply NoDup_cons_iff in N as [Na N]. destruct (IH N) as (N1 & N2 & N3). split; [constructor; [intros H; apply Na, in_or_app; auto|exact N1]|]. split; [exact N2|].
  intros x [<-|Hx]; [intros H; apply Na, in_or_app; auto|exact (N3 x Hx)].
Qed.
Lemma forall2_map {A B C} (R : A -> B -> Prop) (f : A -> C) (g : B -> C) l m : (forall x y, R x y -> f x = g y) -> Forall2 R l m -> map f l = map g m.
Proof. intros H F. induction F as [|x y l m Hx F IH]; [reflexivity|]. cbn [map]. rewrite IH, (H x y Hx). reflexivity. Qed.
Lemma go_builtin b g : builtin_expr b = Returns (Some g) -> In (expr_id (of_gotype g)) go_types /\ match of_gotype g with EArr (EArr _) => False | _ => True end.
Proof.
  unfold builtin_expr. destruct (_ || _)%bool; [discriminate|]. destruct (nth_error tbl (Z.to_nat b)) as [t|] eqn:E; [|discriminate]. intros [= ->]. apply nth_error_In in E.
  assert (F : forallb (fun t => match t with Some g => mem_str (expr_id (of_gotype g)) go_types | None => true end) tbl = true) by (vm_compute; reflexivity).
  rewrite forallb_forall in F. specialize (F _ E). cbv beta iota in F. split; [apply mem_str_in; exact F|]. destruct g; exact I.
Qed.
Lemma text_anc st i v : text_of st i v -> known st v -> ancestor st (TPtr i) v.
Proof.
  intros H K. induction H as [i c E Cb|i j v (c & E & Eb & _) H IH].
  - apply an_base; cbn [base_of]; rewrite E; cbn [def_base]; [|constructor]. intros Z. rewrite Z in K. exact K.
  - apply an_base; cbn [base_of]; rewrite E; cbn [def_base]; rewrite Eb; [discriminate|exact (IH K)].
Qed.
Lemma apart_nodup l : all_apart l -> NoDup l.
Proof.
  intros H. apply NoDup_nth_error. intros i j Hi E. destruct (Nat.eq_dec i j) as [|N]; [assumption|]. exfalso. destruct (nth_error l i) as [n|] eqn:Ei; [|apply nth_error_Some in Hi; congruence].
  destruct (H i j n n Ei (eq_sym E) N) as [Q|(_ & _ & Q)]; congruence.
Qed.
Section Clear.
  Variable public : xname -> string.
  Variable exported : string -> bool.
  Variable declares : xattr -> bool.
  Variable fa : option (attribute -> bool).
  Variable fe : option (element -> bool).
  Variable helpers : list Z.
  Hypothesis Hfa : forall a t, filtered fa (retype_at a t) = filtered fa a.
  Hypothesis Hfe : forall e t, filtered fe (retype_el e t) = filtered fe e.
  Variable st0 : store.
  Hypothesis C0 : complete st0.
  Hypothesis Fm : firm fa st0.
  Variable structs : string -> option spec.
  Hypothesis Hgo : forall x, In x go_types -> structs x = None.
  Hypothesis Hsim : forall j s, nth_error st0 j = Some (DS s) -> structs (public (sd_name s)) = None.
  Variables (D : nat -> Prop) (st : store).
  Hypothesis T : tracks fa st0 D st.

  Lemma leaf_go n : In n go_types -> leaf structs (EId n) = true.
  Proof. intros H. cbn [leaf]. rewrite (Hgo n H). reflexivity. Qed.
  Lemma leaf_simple t g : is_complex st0 t = false -> known st0 t -> go_type public st0 t g -> (exists b x, t = TB b /\ builtin_expr b = Returns (Some x) /\ g = of_gotype x) \/ exists j s, nth_error st0 j = Some (DS s) /\ t = TPtr j /\ g = EId (public (sd_name s)) /\ leaf structs g = true.
  Proof.
    intros Ct K G. destruct t as [|b|n|j]; cbn [known go_type] in *; try contradiction; [left; destruct G as (x & E & ->); exists b, x; auto|right]. destruct G as (n & E & ->). cbn [type_name] in E. cbn [is_complex] in Ct.
    destruct (nth_error st0 j) as [[c|s]|] eqn:Ej; try discriminate. cbn [option_map def_name] in E. injection E as <-. exists j, s. split; [exact Ej|]. split; [reflexivity|]. split; [reflexivity|]. cbn [leaf]. rewrite (Hsim j s Ej). reflexivity.
  Qed.
  (* the field for text *)
  Lemma chardata_ids i c0 c g : nth_error st0 i = Some (DC c0) -> nth_error st i = Some (DC c) -> ct_mixed c = ct_mixed c0 -> chardata public helpers st c = Ret g ->
    (ct_mixed c0 = true -> forall b x, ancestor st0 (TPtr i) (TB b) -> builtin_expr b = Returns (Some (GArray x)) -> x = "byte") ->
    g_fields g = [] /\ g_taken g = [] \/ exists f, g_fields g = [f] /\ ct_mixed c0 = true /\ text_name public st0 i (sf_name f) /\ leaf structs (sf_expr f) = true /\ shallow structs (sf_expr f) /\ (g_taken g = [] \/ g_taken g = [sf_name f]).
  Proof.
    intros E0 Ec Em H Hl. unfold chardata in H. rewrite Em in H. destruct (ct_mixed c0); [|injection H as <-; left; auto].
    destruct (drill (Datatypes.S (List.length st)) st (ct_base c)) as [u| | |] eqn:Dr; cbn [andthen] in H; try discriminate. destruct (expr_of public st u) as [x| | |] eqn:Ex; cbn [andthen] in H; try discriminate.
    destruct (text_exists st0 C0 i c0 E0) as (v & Hv). destruct (text_shape fa st0 C0 Fm D st T i v Hv _ c u Ec Dr) as (Kv & Ka & Kc & _).
    pose proof (ancestor_trans _ _ _ _ (text_anc st0 i v Hv Kv) Ka) as An. pose proof (ancestor_known st0 v u C0 Kv Ka) as Ku. pose proof (expr_go public fa st0 D st T u x Ex Ku) as Gx.
    destruct (leaf_simple u x Kc Ku Gx) as [(b & y & -> & Eb & ->)|(j & s & Ej & -> & -> & Lf)].
    - destruct (Z.eqb_spec b 0) as [->|Nb]; [injection H as <-; left; auto|right]. destruct (if non_trivial b then _ else _) as [oh| | |]; cbn [andthen] in H; try discriminate. unfold unique in H. cbn [mem_str existsb] in H. injection H as <-.
      eexists. split; [reflexivity|]. split; [reflexivity|]. cbn [sf_name sf_expr g_taken]. split; [left; split; [reflexivity|exists b; auto]|]. destruct (go_builtin b y Eb) as [Gi _].
      split; [destruct y as [n|n]; cbn [of_gotype expr_id] in *; [apply leaf_go; exact Gi|cbn [leaf]; rewrite (Hl eq_refl b n An Eb); reflexivity]|]. split; [destruct y; exact I|auto].
    - destruct (is_simple st (TPtr j)); [|discriminate]. injection H as <-. right. eexists. split; [reflexivity|]. split; [reflexivity|]. cbn [sf_name sf_expr g_taken expr_text]. split; [right; exists j, s; auto|]. split; [exact Lf|]. split; [exact I|auto].
  Qed.
  Lemma not_text_e e f : sf_tag f = (if el_wild e then quoted ",any" else element_tag e) -> (el_wild e = true -> sf_name f = item_name e) -> sf_name f <> "XMLName" -> (el_wild e = false -> tag_ok (el_name e)) -> sf_tag f <> quoted ",chardata".
  Proof.
    intros H1 H2 H3 H4 Z. destruct (element_says e f H1 H2 H3 H4) as (x & X1 & X2 & _). destruct (text_says f Z H3) as (y & Y1 & Y2). unfold says in *. assert (y = x) as -> by congruence. unfold is_elem in X2. rewrite Y2 in X2. discriminate.
  Qed.
  Lemma not_text_a a f : sf_tag f = attribute_tag a -> sf_name f <> "XMLName" -> tag_ok (at_name a) -> sf_tag f <> quoted ",chardata".
  Proof.
    intros H1 H3 H4 Z. destruct (attribute_says a f H1 H3 H4) as (x & X1 & X2 & _). destruct (text_says f Z H3) as (y & Y1 & Y2). unfold says in *. assert (y = x) as -> by congruence. congruence.
  Qed.
  Lemma needs_kept e e' : re fa st0 e e' -> needs (el_type e') (el_default e') = true -> el_default e <> "" \/ exists b, kept fa st0 (el_type e) (TB b) /\ non_trivial b = true.
  Proof.
    intros (_ & Q & E) H. assert (Ed : el_default e' = el_default e) by (rewrite E; reflexivity). unfold needs in H. rewrite Ed in H. apply Bool.orb_true_iff in H as [H|H]; [left; apply Bool.negb_true_iff, String.eqb_neq in H; exact H|right].
    destruct (el_type e') as [|b|n|j]; try discriminate H. exists b. auto.
  Qed.
  Lemma elem_shallow e f : elem_field public fa st0 e f -> (forall b g, el_plural e = true -> kept fa st0 (el_type e) (TB b) -> builtin_expr b = Returns (Some (GArray g)) -> g = "byte") -> shallow structs (sf_expr f).
  Proof.
    intros (u & g & Ku & Gu & _ & g' & Hg & ->) H. destruct (el_plural e).
    - destruct Hg as [(_ & _ & ->)|[_ ->]]; [exact I|]. destruct u as [|b|n|j]; cbn [go_type] in Gu; try contradiction.
      + destruct Gu as (x & Eb & ->). destruct x as [n|n]; [exact I|]. cbn [of_gotype shallow leaf]. rewrite (H b n eq_refl Ku Eb). right. reflexivity.
      + destruct Gu as (n & _ & ->). exact I.
    - destruct Hg as [(_ & _ & ->)|[_ ->]]; [exact I|]. destruct u as [|b|n|j]; cbn [go_type] in Gu; try contradiction; [destruct Gu as (x & Eb & ->); destruct x; exact I|]. destruct Gu as (n & _ & ->). exact I.
  Qed.
  Lemma clear_made i c0 c s : nth_error st0 i = Some (DC c0) -> nth_error st i = Some (DC c) -> full fa st0 i c -> inherit st c = c -> gen_complex public fa fe helpers st i c = Ret (st, [s]) ->
    (forall es ats, inherits st0 i es ats -> clear_type public exported declares fa st0 i c0 (filter (fun e => negb (filtered fe e)) es) (filter (fun a => negb (filtered fa a)) ats)) ->
    generated_from public exported structs declares fa fe helpers s st i c.
  Proof.
    intros E0 Ec (es & ats & J & Fe & Fa') Ii H Cl. specialize (Cl es ats J). exists st. split; [exact H|]. rewrite Ii. pose proof H as H0. destruct (tr_complex _ _ _ _ T i c0 E0) as (c' & E' & N1 & N2 & N3 & _). assert (c' = c) as -> by congruence. clear E'.
    unfold gen_complex in H. destruct (chardata public helpers st c) as [g0| | |] eqn:Ch; cbn [andthen] in H; try discriminate. cbv zeta in H. rewrite Ii, (put_same st i c Ec) in H.
    unfold filter_fields in H |- *. rewrite !fold_filter in H |- *. cbn [app] in H |- *.
    assert (Ge : Forall2 (re fa st0) (filter (fun e => negb (filtered fe e)) es) (filter (fun e => negb (filtered fe e)) (ct_elems c))) by (apply forall2_filter; [|exact Fe]; intros x y (_ & _ & ->); rewrite Hfe; reflexivity).
    assert (Ga : Forall2 (ra fa st0) (filter (fun a => negb (filtered fa a)) ats) (filter (fun a => negb (filtered fa a)) (ct_attrs c))) by (apply forall2_filter; [|exact Fa']; intros x y (_ & _ & ->); rewrite Hfa; reflexivity).
    set (es' := filter (fun e => negb (filtered fe e)) (ct_elems c)) in *. set (ats' := filter (fun a => negb (filtered fa a)) (ct_attrs c)) in *. set (es1 := filter (fun e => negb (filtered fe e)) es) in *. set (ats1 := filter (fun a => negb (filtered fa a)) ats) in *.
    destruct (foldr (element_field public helpers st) g0 es') as [g1| | |] eqn:E1; cbn [andthen] in H; try discriminate. destruct (foldr (attribute_field public helpers st) g1 ats') as [g2| | |] eqn:E2; cbn [andthen] in H; try discriminate. injection H as Hs.
    assert (Pe : map (fun e => public (el_name e)) es1 = map (fun e => public (el_name e)) es') by (apply (forall2_map (re fa st0)); [intros x y R; rewrite (re_name _ _ _ _ R); reflexivity|exact Ge]).
    assert (Pa : map (fun a => public (at_name a)) ats1 = map (fun a => public (at_name a)) ats') by (apply (forall2_map (ra fa st0)); [intros x y R; rewrite (ra_name _ _ _ _ R); reflexivity|exact Ga]).
    assert (Pi : map (el_id public) es1 = map (el_id public) es') by (apply (forall2_map (re fa st0)); [intros x y (_ & _ & ->); reflexivity|exact Ge]).
    pose proof (ct_given _ _ _ _ _ _ _ _ _ Cl) as Nd. unfold given in Nd. rewrite Pe, Pa in Nd. destruct (nodup_parts _ _ Nd) as (Nd1 & Nd2 & Nd3).
    pose proof (chardata_ids i c0 c g0 E0 Ec N3 Ch (ct_chars _ _ _ _ _ _ _ _ _ Cl)) as Ct.
    assert (Gv : forall x, In x (given public es1 ats1) <-> In x (map (fun e => public (el_name e)) es') \/ In x (map (fun a => public (at_name a)) ats')) by (intros x; unfold given; rewrite in_app_iff, Pe, Pa; tauto).
    assert (Tk : forall x, In x (given public es1 ats1) -> ~ In x (g_taken g0)).
    { intros x Hx Hx'. destruct Ct as [[_ Q]|(f & _ & Mx & Tn & _ & _ & [Q|Q])]; rewrite Q in Hx'; try exact Hx'. destruct Hx' as [<-|[]]. exact (proj1 (proj2 (ct_text _ _ _ _ _ _ _ _ _ Cl Mx _ Tn)) Hx). }
    destruct (element_ids public helpers st es' g0 g1 E1 Nd1) as (efs & G1 & I1 & K1). { intros x Hx. apply Tk. apply Gv. auto. }
    destruct (attribute_ids public helpers st ats' g1 g2 E2 Nd2) as (afs & G2 & I2). { intros x Hx Hx'. destruct (K1 x Hx') as [Q|Q]; [exact (Tk x (proj2 (Gv x) (or_intror Hx)) Q)|exact (Nd3 x Q Hx)]. }
    destruct (element_fields _ _ _ _ _ _ E1) as (efs' & G1' & S1). assert (efs' = efs) as -> by (rewrite G1 in G1'; symmetry; exact (app_inv_head _ _ _ G1')).
    destruct (attribute_fields _ _ _ _ _ _ E2) as (afs' & G2' & S2). assert (afs' = afs) as -> by (rewrite G2 in G2'; symmetry; exact (app_inv_head _ _ _ G2')).
    assert (Fs : g_fields g2 = (g_fields g0 ++ efs ++ afs)%list) by (rewrite G2, G1, app_assoc; reflexivity).
    assert (Ue : forall f, In f efs -> exists e e', In e es1 /\ In e' es' /\ re fa st0 e e' /\ sf_name f = el_id public e).
    { intros f Hf. apply (in_map sf_name) in Hf. rewrite I1 in Hf. apply in_map_iff in Hf as (e' & Q1 & Q2). destruct (forall2_back _ _ _ _ Ge Q2) as (e & Q3 & Q4). exists e, e'. do 3 (split; [assumption|]). rewrite <- Q1. destruct Q4 as (_ & _ & ->). reflexivity. }
    assert (Ua : forall f, In f afs -> exists a, In a ats1 /\ sf_name f = public (at_name a)).
    { intros f Hf. apply (in_map sf_name) in Hf. rewrite I2, <- Pa in Hf. apply in_map_iff in Hf as (a & Q1 & Q2). exists a. auto. }
    assert (Use : forall f, In f efs -> usable exported (sf_name f)).
    { intros f Hf. destruct (Ue f Hf) as (e & e' & Q1 & _ & _ & ->). pose proof (ct_elements _ _ _ _ _ _ _ _ _ Cl e Q1) as Q. unfold el_id. destruct (el_wild e); [apply Q|exact Q]. }
    assert (Usa : forall f, In f afs -> usable exported (sf_name f)) by (intros f Hf; destruct (Ua f Hf) as (a & Q1 & ->); exact (ct_attributes _ _ _ _ _ _ _ _ _ Cl a Q1)).
    assert (Idn : NoDup (map (el_id public) es' ++ map (fun a => public (at_name a)) ats')).
    { rewrite <- Pi, <- Pa. rewrite <- Pe, <- Pa in Nd. pose proof (ct_elements _ _ _ _ _ _ _ _ _ Cl) as Q. unfold given in Q. pose proof (apart_nodup _ (ct_apart _ _ _ _ _ _ _ _ _ Cl)) as Nk. clear - Nd Q Nk.
      assert (X : forall l, incl l es1 -> NoDup (map el_key l) -> NoDup (map (fun e => public (el_name e)) l ++ map (fun a => public (at_name a)) ats1) -> NoDup (map (el_id public) l ++ map (fun a => public (at_name a)) ats1)).
      { induction l as [|e l IH]; intros Hl Nke Nl; [exact Nl|]. cbn [map app] in Nke, Nl |- *. apply NoDup_cons_iff in Nke as [Ke Nke]. apply NoDup_cons_iff in Nl as [Ne Nl]. constructor; [|apply IH; [intros x Hx; apply Hl; right; exact Hx|exact Nke|exact Nl]].
        intros Hi. apply in_app_or in Hi. pose proof (Q e (Hl e (or_introl eq_refl))) as Qe. destruct Hi as [Hi|Hi].
        - apply in_map_iff in Hi as (e2 & Y1 & Y2). assert (He2 : In e2 es1) by (apply Hl; right; exact Y2). pose proof (Q e2 He2) as Q2. unfold el_id in Y1. destruct (el_wild e2) eqn:W2.
          + destruct Q2 as [_ Q2]. destruct (el_wild e) eqn:W1; [|apply Q2; rewrite Y1; apply in_or_app; left; apply in_map_iff; exists e; split; [reflexivity|apply Hl; left; reflexivity]].
            apply Ke. apply in_map_iff. exists e2. split; [|exact Y2]. unfold el_key. rewrite W1, W2. unfold item_name in Y1. rewrite Y1. reflexivity.
          + destruct (el_wild e) eqn:W1.
            * destruct Qe as [_ Qe]. apply Qe. rewrite <- Y1. apply in_or_app. left. apply in_map_iff. exists e2. auto.
            * apply Ne, in_or_app. left. apply in_map_iff. exists e2. auto.
        - unfold el_id in Hi. destruct (el_wild e) eqn:W1; [destruct Qe as [_ Qe]; apply Qe, in_or_app; right; exact Hi|]. apply Ne, in_or_app. right. exact Hi. }
      apply X; [apply incl_refl|exact Nk|exact Nd]. }
    intros fs Hf. rewrite <- Hs in Hf. cbn [sp_struct] in Hf. injection Hf as <-. rewrite Fs.
    assert (Tx : forall f, In f (g_fields g0) -> g_fields g0 = [f] /\ ct_mixed c0 = true /\ text_name public st0 i (sf_name f) /\ leaf structs (sf_expr f) = true /\ shallow structs (sf_expr f)).
    { intros f Hf. destruct Ct as [[Q _]|(f1 & Q & Q1 & Q2 & Q3 & Q4 & _)]; rewrite Q in Hf; [destruct Hf|]. destruct Hf as [<-|[]]. auto. }
    constructor.
    - intros f Hf. apply in_app_or in Hf as [Hf|Hf]; [|apply in_app_or in Hf as [Hf|Hf]; [exact (Use f Hf)|exact (Usa f Hf)]]. destruct (Tx f Hf) as (_ & Mx & Tn & _). exact (proj1 (ct_text _ _ _ _ _ _ _ _ _ Cl Mx _ Tn)).
    - assert (Nr : NoDup (map sf_name (efs ++ afs))) by (rewrite map_app, I1, I2; exact Idn). destruct Ct as [[Q _]|(f & Q & Mx & Tn & _)]; rewrite Q; [exact Nr|]. cbn [app map]. constructor; [|exact Nr].
      destruct (ct_text _ _ _ _ _ _ _ _ _ Cl Mx _ Tn) as (_ & T1 & T2). rewrite map_app, I1, I2. intros Hx. apply in_app_or in Hx as [Hx|Hx]; [|apply T1, Gv; auto]. rewrite <- Pi in Hx. apply in_map_iff in Hx as (e & X1 & X2). unfold el_id in X1.
      destruct (el_wild e) eqn:W; [exact (T2 e X2 W (eq_sym X1))|]. apply T1. unfold given. apply in_or_app. left. apply in_map_iff. exists e. auto.
    - intros e' He' W. destruct (forall2_back _ _ _ _ Ge He') as (e & He & R). rewrite (re_name _ _ _ _ R). apply (ct_etags _ _ _ _ _ _ _ _ _ Cl e He). destruct R as (_ & _ & R). rewrite R in W. exact W.
    - intros a' Ha'. destruct (forall2_back _ _ _ _ Ga Ha') as (a & Ha & R). rewrite (ra_name _ _ _ _ R). exact (ct_atags _ _ _ _ _ _ _ _ _ Cl a Ha).
    - rewrite <- (forall2_map (re fa st0) el_key el_key es1 es' ltac:(intros x y (_ & _ & ->); reflexivity) Ge). exact (ct_apart _ _ _ _ _ _ _ _ _ Cl).
    - rewrite <- (forall2_map (ra fa st0) at_key at_key ats1 ats' ltac:(intros x y (_ & _ & ->); reflexivity) Ga). exact (ct_aapart _ _ _ _ _ _ _ _ _ Cl).
    - intros e' He' Hn. destruct (forall2_back _ _ _ _ Ge He') as (e & He & R). destruct (ct_over _ _ _ _ _ _ _ _ _ Cl e He (needs_kept e e' R Hn)) as [O1 O2]. destruct R as (_ & _ & ->). auto.
    - intros f Hf. apply in_app_or in Hf as [Hf|Hf]; [apply (Tx f Hf)|]. apply in_app_or in Hf as [Hf|Hf].
      + destruct (forall2_back _ _ _ _ S1 Hf) as (e' & He' & Se). destruct (forall2_back _ _ _ _ Ge He') as (e & He & R). apply (elem_shallow e); [exact (elem_shape public fa st0 C0 D st T e e' f R Se)|]. intros b g. exact (ct_lists _ _ _ _ _ _ _ _ _ Cl e b g He).
      + destruct (forall2_back _ _ _ _ S2 Hf) as (a' & Ha' & _ & Ea). destruct (at_type a') as [|b|n|j]; cbn [expr_of] in Ea; try (destruct (type_name st _); [injection Ea as <-; exact I|discriminate]).
        destruct (builtin_expr b) as [|[x|]]; try discriminate. injection Ea as <-. destruct x; exact I.
    - intros a' x Ha' Ex. destruct (forall2_back _ _ _ _ Ga Ha') as (a & Ha & K & Q & _). pose proof (ct_simple _ _ _ _ _ _ _ _ _ Cl a Ha) as Cx.
      assert (Cx' : is_complex st0 (at_type a') = false) by (destruct Q as [->|(_ & Q & _)]; assumption). pose proof (kept_known fa st0 C0 _ _ K Q) as K'.
      destruct (leaf_simple _ x Cx' K' (expr_go public fa st0 D st T _ x Ex K')) as [(b & y & _ & Eb & ->)|(j & sd & _ & _ & _ & Lf)]; [|left; exact Lf].
      destruct (go_builtin b y Eb) as [Gi _]. destruct y as [n|n]; cbn [of_gotype expr_id] in *; [left; apply leaf_go; exact Gi|right]. exists (EId n). split; [reflexivity|apply leaf_go; exact Gi].
    - intros f Hf Ht. apply in_app_or in Hf as [Hf|Hf]; [apply (Tx f Hf)|]. exfalso. apply in_app_or in Hf as [Hf|Hf].
      + destruct (In_nth_error _ _ Hf) as [k Hk]. assert (Hk' : nth_error (map sf_name efs) k = Some (sf_name f)) by (rewrite nth_error_map, Hk; reflexivity). rewrite I1, nth_error_map in Hk'.
        destruct (Forall2_nth _ _ _ S1 k f Hk) as (e' & He' & St & _). rewrite He' in Hk'. cbn [option_map] in Hk'. injection Hk' as Hn. pose proof (nth_error_In _ _ He') as He''. destruct (forall2_back _ _ _ _ Ge He'') as (e & He & R).
        apply (not_text_e e' f St); [intros W; rewrite <- Hn; unfold el_id; rewrite W; reflexivity|exact (proj2 (Use f Hf))| |exact Ht]. intros W. rewrite (re_name _ _ _ _ R). apply (ct_etags _ _ _ _ _ _ _ _ _ Cl e He). destruct R as (_ & _ & R). rewrite R in W. exact W.
      + destruct (forall2_back _ _ _ _ S2 Hf) as (a' & Ha' & St & _). destruct (forall2_back _ _ _ _ Ga Ha') as (a & Ha & R). apply (not_text_a a' f St (proj2 (Usa f Hf))); [|exact Ht]. rewrite (ra_name _ _ _ _ R). exact (ct_atags _ _ _ _ _ _ _ _ _ Cl a Ha).
    - intros a' x Ha' Dx Ex. destruct (forall2_back _ _ _ _ Ga Ha') as (a & Ha & R). destruct R as (_ & _ & R). rewrite R in Ex |- *. exact (ct_decl _ _ _ _ _ _ _ _ _ Cl a x Ha Dx Ex).
  Qed.
End Clear.

(* ---------- all of them ---------- *)
Section Top.
  Variable public : xname -> string.
  Variable exported : string -> bool.
  Variable declares : xattr -> bool.
  Variable fa : option (attribute -> bool).
  Variable fe : option (element -> bool).
  Variable ft : option (xname -> bool).
  Variable allow : option (list xname).
  Variable helpers : list Z.
  Variable h : nat -> nat.
  Variable st : store.
  Variable schemas : list (list ty).
  Hypothesis Hh : forall b, non_trivial b = true -> memb b helpers = true.
  Hypothesis Hfa : forall a t, filtered fa (retype_at a t) = filtered fa a.
  Hypothesis Hfe : forall e t, filtered fe (retype_el e t) = filtered fe e.
  Hypothesis G : generable h st.
  Hypothesis W : wild_named st.
  Hypothesis Fm : firm fa st.
  Hypothesis Hb : forall i, h i <= N.to_nat 1000.
  Hypothesis K : forall types t, In types schemas -> In t types -> known st t.
  Definition origin (structs : string -> option spec) (s : spec) : Prop := exists i c0 es ats st2 c, sp_type s = TPtr i /\ nth_error st i = Some (DC c0) /\ inherits st i es ats /\
    generated_from public exported structs declares fa fe helpers s st2 i c /\ ct_mixed c = ct_mixed c0 /\
    let (ats', els') := filter_fields fa fe (inherit st2 c) in Forall2 (el_for fa st) (filter (fun e => negb (filtered fe e)) es) els' /\ Forall2 (at_for fa st) (filter (fun a => negb (filtered fa a)) ats) ats'.
  Theorem gen_bound : exists c, gen public fa fe ft allow helpers false st schemas = Ret (inr c) /\
    (go_names public -> clear_code public exported declares fa fe st (co_decls c) -> names_free public (structs_of (co_decls c)) /\ forall n s, structs_of (co_decls c) n = Some s -> origin (structs_of (co_decls c)) s).
  Proof.
    destruct (gen_shaped public fa fe ft allow helpers h st schemas Hh Hfa Hfe G W Fm Hb K) as (c & Ec & F). exists c. split; [exact Ec|]. intros Gn [Ka Cl].
    set (structs := structs_of (co_decls c)) in *.
    assert (Sd : forall n s, structs n = Some s -> sp_struct s <> None /\ made public fa fe helpers st s /\ n = sp_name s).
    { intros n s E. unfold structs, structs_of in E. destruct (sget n (co_decls c)) as [s'|] eqn:Es; [|discriminate]. destruct (sp_struct s') as [l|] eqn:El; [|discriminate]. injection E as ->. apply sget_in in Es. split; [congruence|].
      destruct (F n s Es) as [(_ & M & E)|(b & _ & _ & ->)]; [auto|discriminate El]. }
    assert (Or : forall n s, structs n = Some s -> exists D st2 i c0 ck, tracks fa st D st2 /\ nth_error st i = Some (DC c0) /\ nth_error st2 i = Some (DC ck) /\ full fa st i ck /\ inherit st2 ck = ck /\ gen_complex public fa fe helpers st2 i ck = Ret (st2, [s]) /\
      sp_type s = TPtr i /\ n = public (ct_name c0)).
    { intros n s E. destruct (Sd n s E) as (N & M & ->). destruct (M N) as (D & st2 & i & c0 & ck & T & E0 & E2 & Fu & Ii & Eg). exists D, st2, i, c0, ck. do 6 (split; [assumption|]).
      destruct (tr_complex _ _ _ _ T i c0 E0) as (c' & E' & N1 & _). assert (c' = ck) as -> by congruence. rewrite <- N1. clear - Eg Ii. unfold gen_complex in Eg. destruct (chardata public helpers st2 ck) as [g0| | |]; cbn [andthen] in Eg; try discriminate. cbv zeta in Eg.
      rewrite Ii in Eg. destruct (filter_fields fa fe ck) as [ats els]. destruct (foldr _ g0 els) as [g1| | |]; cbn [andthen] in Eg; try discriminate. destruct (foldr _ g1 ats) as [g2| | |]; cbn [andthen] in Eg; try discriminate. injection Eg as _ <-. auto. }
    assert (Hgo : forall x, In x go_types -> structs x = None). { intros x Hx. destruct (structs x) as [s|] eqn:E; [|reflexivity]. exfalso. destruct (Or x s E) as (_ & _ & _ & c0 & _ & _ & _ & _ & _ & _ & _ & _ & ->). exact (proj1 (proj2 (Gn (ct_name c0))) Hx). }
    assert (Hsim : forall j sd, nth_error st j = Some (DS sd) -> structs (public (sd_name sd)) = None).
    { intros j sd Ej. destruct (structs (public (sd_name sd))) as [s|] eqn:E; [|reflexivity]. exfalso. destruct (Or _ s E) as (D & st2 & i & c0 & ck & _ & E0 & _ & _ & _ & _ & Et & En). apply (Ka i j c0 sd); [exists (public (sd_name sd)), s; auto|exact E0|exact Ej|congruence]. }
    split.
    - split; [intros n; apply Gn|]. split; [apply Hgo; cbn; tauto|]. intros b Hnb. destruct (structs (helper_name b)) as [s|] eqn:E; [|reflexivity]. exfalso. destruct (Or _ s E) as (_ & _ & _ & c0 & _ & _ & _ & _ & _ & _ & _ & _ & En). exact (proj2 (proj2 (Gn (ct_name c0))) b Hnb (eq_sym En)).
    - intros n s E. destruct (Or n s E) as (D & st2 & i & c0 & ck & T & E0 & E2 & Fu & Ii & Eg & Et & En). pose proof Fu as (es & ats & J & Fe & Fa). exists i, c0, es, ats, st2, ck. split; [exact Et|]. split; [exact E0|]. split; [exact J|]. split; [|split].
      + apply (clear_made public exported declares fa fe helpers Hfa Hfe st (gn_complete _ _ G) Fm structs Hgo Hsim D st2 T i c0 ck s E0 E2 Fu Ii Eg). intros es1 ats1 J1. apply Cl; [exists n, s; auto|exact E0|exact J1].
      + destruct (tr_complex _ _ _ _ T i c0 E0) as (c' & E' & _ & _ & N3 & _). assert (c' = ck) as -> by congruence. exact N3.
      + rewrite Ii. unfold filter_fields. rewrite !fold_filter. cbn [app]. split; apply forall2_filter; try (intros x y (_ & ->); rewrite ?Hfa, ?Hfe; reflexivity).
        * refine (forall2_comp eq _ _ _ _ _ _ _ Fe). { intros x y z -> (_ & Q1 & Q2). split; assumption. } clear. induction es; constructor; auto.
        * refine (forall2_comp eq _ _ _ _ _ _ _ Fa). { intros x y z -> (_ & Q1 & Q2). split; assumption. } clear. induction ats; constructor; auto.
  Qed.
End Top.
