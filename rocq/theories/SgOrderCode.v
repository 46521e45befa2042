(* The generated code does not depend on the order of the types. *)
From Coq Require Import Permutation.
From Verif Require Import Base SortLib ScopeModel TreeModel EqualModel Utf8 Decimal BuiltinModel CodecModel XsdModel XsdProofs TypesModel TypesSpec TypesProofs NormAttr GraphModel GenModel SgModel SgStruct SgProofs SgNames SgDecl SgExamples SgFlat SgClosed SgFlatSpec SgFlatten SgExpandSpec SgExpand SgExpandFields SliceModel SgGen SgGenSpec SgGenProofs SgGenCode SgGenClosed SgOrder SgOrderReach SgOrderSpec SgOrderGen BindProofs.
Local Open Scope string_scope.

(* ---------- what is kept from schema to schema ---------- *)
Lemma forall2_back {A B} (R : A -> B -> Prop) l m y : Forall2 R l m -> In y m -> exists x, In x l /\ R x y.
Proof. induction 1 as [|a b l m H F IH]; intros Hy; [destruct Hy|]; destruct Hy as [->|Hy]; [exists a; split; [left; reflexivity|exact H]|]. destruct (IH Hy) as (x & X1 & X2). exists x. split; [right; exact X1|exact X2]. Qed.
Lemma forall2_forth {A B} (R : A -> B -> Prop) l m x : Forall2 R l m -> In x l -> exists y, In y m /\ R x y.
Proof. induction 1 as [|a b l m H F IH]; intros Hx; [destruct Hx|]; destruct Hx as [->|Hx]; [exists b; split; [left; reflexivity|exact H]|]. destruct (IH Hx) as (y & Y1 & Y2). exists y. split; [right; exact Y1|exact Y2]. Qed.
Section Keep.
  Variable fa : option (attribute -> bool).
  Hypothesis Hfa : forall a t, filtered fa (retype_at a t) = filtered fa a.
  Lemma flat_simple st st1 t : (forall i d, nth_error st i = Some d -> exists d', nth_error st1 i = Some d' /\ flattened fa st d d') -> is_simple st t = true -> is_simple st1 t = true.
  Proof.
    intros F S. destruct t as [|b|n|i]; cbn [is_simple] in *; try discriminate. destruct (nth_error st i) as [[c|s]|] eqn:E; try discriminate. destruct (F i _ E) as ([c'|s'] & E' & D); cbn [flattened] in D; [contradiction|]. rewrite E'. reflexivity.
  Qed.
  Lemma flat_back st st1 : List.length st1 = List.length st -> (forall i d, nth_error st i = Some d -> exists d', nth_error st1 i = Some d' /\ flattened fa st d d') ->
    forall i d', nth_error st1 i = Some d' -> exists d, nth_error st i = Some d /\ flattened fa st d d'.
  Proof.
    intros L F i d' E. destruct (nth_error st i) as [d|] eqn:E0; [|apply nth_error_None in E0; rewrite <- L in E0; apply nth_error_None in E0; congruence]. destruct (F i d E0) as (d1 & E1 & D1). exists d. split; [reflexivity|]. congruence.
  Qed.
  Lemma flat_none st c c1 : flattened fa st (DC c) (DC c1) -> no_attributes fa c1 -> no_attributes fa c.
  Proof. intros (_ & _ & F & _) N a Ha. destruct (forall2_forth _ _ _ _ F Ha) as (a' & Ha' & _ & E). pose proof (N a' Ha') as Q. rewrite E, Hfa in Q. exact Q. Qed.
  Lemma flat_steady h st st1 : generable h st -> steady fa st -> List.length st1 = List.length st -> (forall i d, nth_error st i = Some d -> exists d', nth_error st1 i = Some d' /\ flattened fa st d d') ->
    moved st st1 -> between fa st st1 -> steady fa st1.
  Proof.
    intros G Sy L F M Bt. pose proof (flat_back st st1 L F) as Bk. split.
    - intros i s' j E Eb. destruct (Bk i _ E) as ([c|s] & E0 & D); cbn [flattened] in D; [contradiction|]. destruct D as [D _]. apply (flat_simple st st1 _ F). destruct D as [D|[b D]]; [|congruence]. apply (sy_simple _ _ Sy i s j E0). congruence.
    - intros i s' E P A. destruct (Bk i _ E) as ([c|s] & E0 & D); cbn [flattened] in D; [contradiction|]. destruct D as [_ D]. apply (sy_any _ _ Sy i s E0); [rewrite D in P; exact P|]. apply (moved_ancestor st st1 (gn_complete _ _ G) M); [exact (nth_lt _ _ _ E0)|exact A].
    - intros i c1 j b1 E Nc Eb Ej Nb T. destruct (Bk i _ E) as ([c|s] & E0 & D); [|cbn [flattened] in D; contradiction]. destruct (Bk j _ Ej) as ([b|s] & Ej0 & Db); [|cbn [flattened] in Db; contradiction].
      assert (U : unpacks fa st1 b1 = true) by (apply text_unpacks; auto). rewrite (flatten_unpacks fa Hfa h st G Sy st1 j b1 b Bt Ej Ej0) in U. apply text_unpacks in U as [U1 U2].
      apply (sy_text _ _ Sy i c j b E0 (flat_none _ _ _ D Nc)); auto. destruct D as [[D|(_ & D & _)] _]; [congruence|]. rewrite Eb in D. cbn [is_complex] in D. rewrite Ej0 in D. discriminate.
  Qed.
  Lemma flat_wild st st1 : List.length st1 = List.length st -> (forall i d, nth_error st i = Some d -> exists d', nth_error st1 i = Some d' /\ flattened fa st d d') -> wild_named st -> wild_named st1.
  Proof.
    intros L F W i c1 e E He. destruct (flat_back st st1 L F i _ E) as ([c|s] & E0 & D); cbn [flattened] in D; [|contradiction]. destruct D as (_ & Fe & _). destruct (forall2_back _ _ _ _ Fe He) as (x & Hx & _ & Ex). rewrite Ex. exact (W i c x E0 Hx).
  Qed.
  Section Expand.
    Variables (st : store) (l : list ty) (st' : store).
    Hypothesis R : rooted st.
    Hypothesis A : apart st.
    Hypothesis N : NoDup l.
    Hypothesis K : forall t, In t l -> known st t.
    Hypothesis E : expand_types st l = Ret st'.
    Lemma expand_c i c' : nth_error st' i = Some (DC c') -> exists c, nth_error st i = Some (DC c) /\ ct_base c' = ct_base c /\ incl (ct_attrs c) (ct_attrs c') /\ (ct_elems c' = ct_elems c \/ exists ats, inherits st i (ct_elems c') ats).
    Proof.
      intros H. destruct (expand_back st l st' R A N K E i _ H) as [d Hd]. destruct (expand_each st l st' R A N K E i d Hd) as [X|(c & j & es & ats & -> & D & _ & Ih & X)].
      - assert (d = DC c') as -> by congruence. exists c'. split; [exact Hd|]. split; [reflexivity|]. split; [apply incl_refl|left; reflexivity].
      - exists c. assert (c' = with_fields c es ats) as -> by congruence. split; [exact Hd|]. split; [reflexivity|]. split; [|right; exists ats; exact Ih]. cbn [with_fields ct_attrs].
        assert (Q : exists m, ats = (ct_attrs c ++ m)%list). { inversion Ih as [i2 c2 H1 D1|i2 j2 c2 es2 ats2 H1 D1 Hj]; [exists []; rewrite app_nil_r; congruence|]. exists (others at_name (ct_attrs c2) ats2). congruence. }
        destruct Q as [m ->]. intros a Ha. apply in_or_app. left. exact Ha.
    Qed.
    Lemma expand_s i s' : nth_error st' i = Some (DS s') <-> nth_error st i = Some (DS s').
    Proof.
      split; intros H.
      - destruct (expand_back st l st' R A N K E i _ H) as [d Hd]. destruct (expand_each st l st' R A N K E i d Hd) as [X|(c & j & es & ats & -> & D & _ & Ih & X)]; congruence.
      - destruct (expand_each st l st' R A N K E i _ H) as [X|(c & j & es & ats & Z & _)]; [exact X|discriminate].
    Qed.
    Lemma expand_simple_same t : is_simple st' t = is_simple st t.
    Proof.
      destruct t as [| | |i]; try reflexivity. cbn [is_simple]. destruct (nth_error st i) as [[c|s]|] eqn:X.
      - destruct (expand_each st l st' R A N K E i _ X) as [Y|(? & ? & ? & ? & _ & _ & _ & _ & Y)]; rewrite Y; reflexivity.
      - rewrite (proj2 (expand_s i s) X). reflexivity.
      - apply nth_error_None in X. rewrite <- (expand_len st l st' R A N K E) in X. apply nth_error_None in X. rewrite X. reflexivity.
    Qed.
    Lemma expand_steady : steady fa st -> steady fa st'.
    Proof.
      intros Sy. split.
      - intros i s j H Eb. rewrite expand_simple_same. apply expand_s in H. exact (sy_simple _ _ Sy i s j H Eb).
      - intros i s H P Q. apply expand_s in H. apply (sy_any _ _ Sy i s H P). apply (expand_ancestor st l st' R A N K E). exact Q.
      - intros i c' j b' H Nc Eb Hj Nb T. destruct (expand_c i c' H) as (c & Hc & B1 & I1 & _). destruct (expand_c j b' Hj) as (b & Hb & B2 & I2 & _). apply (sy_text _ _ Sy i c j b Hc); auto; try congruence; try (intros a Ha; auto).
        rewrite <- B2. unfold is_text in *. destruct (ct_base b'); try rewrite <- expand_simple_same; exact T.
    Qed.
    Lemma expand_wild : wild_named st -> wild_named st'.
    Proof.
      intros W i c' e H He. destruct (expand_c i c' H) as (c & Hc & _ & _ & [Q|[ats Ih]]); [rewrite Q in He; exact (W i c e Hc He)|].
      apply (proj1 (inherits_nearest st i _ ats R Ih)) in He as (m & _ & (cm & Hm & Ho) & _). exact (W m cm e Hm Ho).
    Qed.
  End Expand.
End Keep.

(* ---------- declarations ---------- *)
Lemma find_last_perm {V} (l l' : list (string * V)) n : NoDup (map fst l) -> Permutation l l' -> find_last (fun p => String.eqb (fst p) n) l = find_last (fun p => String.eqb (fst p) n) l'.
Proof.
  intros N P. assert (N' : NoDup (map fst l')) by (apply (Permutation_NoDup (Permutation_map fst P)); exact N).
  assert (G : forall l : list (string * V), NoDup (map fst l) -> forall p, find_last (fun p => String.eqb (fst p) n) l = Some p <-> In p l /\ fst p = n).
  { clear. intros l N p. split.
    - intros E. apply find_last_some in E as (l1 & l2 & -> & Hp & _). apply String.eqb_eq in Hp. split; [apply in_or_app; right; left; reflexivity|exact Hp].
    - intros [Hi Hn]. apply in_split in Hi as (l1 & l2 & ->). rewrite find_last_app. cbn [find_last]. rewrite Hn, String.eqb_refl. rewrite map_app in N. apply NoDup_remove_2 in N.
      destruct (find_last _ l2) as [q|] eqn:E; [|reflexivity]. exfalso. apply find_last_some in E as (a & b & -> & Hp & _). apply String.eqb_eq in Hp. apply N. apply in_or_app. right. rewrite Hn, <- Hp. apply in_map. apply in_or_app. right. left. reflexivity. }
  destruct (find_last _ l) as [p|] eqn:E.
  - symmetry. apply (G l' N'). apply (G l N) in E as [E1 E2]. split; [exact (Permutation_in _ P E1)|exact E2].
  - destruct (find_last _ l') as [p|] eqn:E'; [|reflexivity]. apply (G l' N') in E' as [E1 E2]. rewrite <- E. apply (G l N). split; [exact (Permutation_in _ (Permutation_sym P) E1)|exact E2].
Qed.
Lemma gen_ast_same {V} sort sort' (d d' : list (string * V)) : sorts_strings sort -> sorts_strings sort' -> NoDup (map fst d) -> NoDup (map fst d') -> (forall n, sget n d' = sget n d) -> gen_ast sort' d' = gen_ast sort d.
Proof.
  intros Hs Hs' N N' E. assert (K : Permutation (map fst d') (map fst d)).
  { apply NoDup_Permutation; auto. intros n. rewrite !in_map_iff. split; intros [[k s] [Hk Hi]]; cbn [fst] in Hk; subst k; apply sget_nodup_in in Hi; auto; [rewrite E in Hi|rewrite <- E in Hi]; apply sget_in in Hi; exists (n, s); auto. }
  unfold gen_ast. rewrite (sort_same sort' sort _ _ Hs' Hs K). apply flat_map_ext_in. intros n _. rewrite E. reflexivity.
Qed.
Lemma helper_names_differ b b' : non_trivial b = true -> non_trivial b' = true -> helper_name b = helper_name b' -> b = b'.
Proof.
  unfold non_trivial, memb. rewrite !existsb_exists. intros [x [Hx Ex]] [y [Hy Ey]] E. apply Z.eqb_eq in Ex, Ey. subst x y.
  cbn [In] in Hx, Hy. repeat (destruct Hx as [<-|Hx]; [repeat (destruct Hy as [<-|Hy]; [first [reflexivity|exfalso; vm_compute in E; discriminate]|]); destruct Hy|]). destruct Hx.
Qed.

(* ---------- one schema ---------- *)
Section Code.
  Variable public : xname -> string.
  Variable fa : option (attribute -> bool).
  Variable fe : option (element -> bool).
  Variable ft : option (xname -> bool).
  Variable allow : option (list xname).
  Variable helpers : list Z.
  Hypothesis Hh : forall b, non_trivial b = true -> memb b helpers = true.
  Variable h : nat -> nat.
  Hypothesis Hfa : forall a t, filtered fa (retype_at a t) = filtered fa a.
  Hypothesis Hb : forall i, h i <= N.to_nat 1000.
  Definition specs_of (st : store) (t : ty) : list spec := match gen_type public fa fe helpers st t with Ret (_, l) => l | _ => [] end.
  Lemma put_same st i c : nth_error st i = Some (DC c) -> put_c st i c = st.
  Proof. intros E. apply nth_ext_eq. intros j. unfold put_c. rewrite nth_error_set_nth by exact (nth_lt _ _ _ E). destruct (Nat.eqb j i) eqn:Q; [apply Nat.eqb_eq in Q; subst; symmetry; exact E|reflexivity]. Qed.
  Lemma type_inert st l t : generable h st -> shut st l -> In t l -> inert st t ->
    gen_type public fa fe helpers st t = Ret (st, specs_of st t) /\ Forall2 (spec_ok public st l) (filter is_ptr [t]) (specs_of st t).
  Proof.
    intros G S Ht I. destruct (type_ok public fa fe helpers Hh h st l t G S Ht) as (st' & sps & E & _ & _ & F). unfold specs_of. rewrite E. split; [|exact F]. f_equal. f_equal.
    destruct t as [|b|n|i]; cbn [gen_type] in E; try congruence. destruct (nth_error st i) as [[c|s]|] eqn:X; [| |discriminate].
    - unfold gen_complex in E. rewrite (I i c eq_refl X), (put_same st i c X) in E. destruct (chardata public helpers st c) as [g| | |]; cbn [andthen] in E; try discriminate. destruct (filter_fields fa fe c) as [ats els].
      destruct (foldr (element_field public helpers st) g els) as [g1| | |]; cbn [andthen] in E; try discriminate. destruct (foldr (attribute_field public helpers st) g1 ats) as [g2| | |]; cbn [andthen] in E; congruence.
    - destruct (if sd_list s then _ else _) as [q| | |]; cbn [andthen] in E; congruence.
  Qed.
  Lemma steps_inert st l : generable h st -> shut st l -> forall m acc, incl m l -> (forall t, In t m -> inert st t) ->
    foldr (gen_step public fa fe helpers) (st, [], acc) m = Ret (st, [], (acc ++ flat_map (specs_of st) m)%list) /\ Forall2 (spec_ok public st l) (filter is_ptr m) (flat_map (specs_of st) m).
  Proof.
    intros G S. induction m as [|t m IH]; intros acc Hm I; [cbn [foldr flat_map filter]; rewrite app_nil_r; split; [reflexivity|constructor]|]. destruct (type_inert st l t G S (Hm t (or_introl eq_refl)) (I t (or_introl eq_refl))) as [E F].
    destruct (IH (acc ++ specs_of st t)%list (fun x Hx => Hm x (or_intror Hx)) (fun x Hx => I x (or_intror Hx))) as [E' F']. cbn [foldr gen_step flat_map]. rewrite E. cbn [andthen]. rewrite E', app_assoc. split; [reflexivity|].
    change (t :: m) with ([t] ++ m)%list. rewrite filter_app. apply Forall2_app; [exact F|exact F'].
  Qed.
  Lemma forall2_types st l m sps : Forall2 (spec_ok public st l) m sps -> map sp_type sps = m.
  Proof. induction 1 as [|t s m sps H F IH]; [reflexivity|]. cbn [map]. rewrite IH, (so_type _ _ _ _ _ H). reflexivity. Qed.
  (* P holds of everything that is come upon, and there the names are apart *)
  Variable P : ty -> Prop.
  Hypothesis PN : P TNil.
  Hypothesis PB : forall b, P (TB b).
  Variable names : list xname.
  Hypothesis Na : forall i j n m, P (TPtr i) -> P (TPtr j) -> nth_error names i = Some n -> nth_error names j = Some m -> public n = public m -> i = j.
  Lemma one_schema st acc acc' types types' : generable h st -> steady fa st -> wild_named st -> all_uses P names st -> (forall t n, In t types -> type_name st t = Some n -> selected ft allow n = true -> P t) -> (forall t, In t types -> known st t) -> (forall b, In (TB b) types -> translated b) -> (forall t, In t types <-> In t types') ->
    exists st' sps sps', gen_schema public fa fe ft allow helpers (st, [], acc) types = Ret (st', [], (acc ++ sps)%list) /\ gen_schema public fa fe ft allow helpers (st, [], acc') types' = Ret (st', [], (acc' ++ sps')%list) /\
      Permutation sps sps' /\ NoDup (map sp_name sps) /\ generable h st' /\ steady fa st' /\ wild_named st' /\ all_uses P names st' /\ (forall t, type_name st' t = type_name st t) /\ List.length st' = List.length st /\
      (forall s, In s sps -> (exists n, type_name st (sp_type s) = Some n /\ sp_name s = public n) /\ forall b, In b (sp_helpers s) -> non_trivial b = true).
  Proof.
    intros G Sy W U Hs K Tb I. assert (K' : forall t, In t types' -> known st t) by (intros t Ht; apply K, I, Ht).
    destruct (flatten_all fa ft allow st types Hfa (gn_complete _ _ G) K) as (st1 & l & E1 & F1 & L1 & R1 & C1 & K1 & _ & N1).
    destruct (flatten_closed fa ft allow h st types Hfa (gn_complete _ _ G) (gn_ranked _ _ G) Hb K) as (st1' & l0 & E1' & Rd). assert (st1' = st1) as -> by congruence. assert (l0 = l) as -> by congruence. clear E1'.
    destruct (flatten_all fa ft allow st types' Hfa (gn_complete _ _ G) K') as (st1' & l' & E1' & _ & _ & _ & _ & K1' & _ & N1').
    destruct (flatten_closed fa ft allow h st types' Hfa (gn_complete _ _ G) (gn_ranked _ _ G) Hb K') as (st1'' & l0 & E1'' & Rd'). assert (st1'' = st1') as -> by congruence. assert (l0 = l') as -> by congruence. clear E1''.
    destruct (flatten_any_order fa Hfa ft allow h Hb st G Sy types types' st1 l st1' l' K Tb I E1 E1') as [-> Il].
    pose proof (flat_moved fa st st1 (gn_complete _ _ G) L1 F1 R1) as M1. pose proof (moved_generable st st1 (gn_complete _ _ G) M1 h G) as G1.
    pose proof (names_nodup st1 l N1) as Nd. pose proof (names_nodup st1 l' N1') as Nd'. pose proof (complete_rooted _ C1) as Rt.
    destruct (expand_main st1 l Rt (gn_apart _ _ G1) Nd K1) as (st2 & E2 & _). destruct (expand_main st1 l' Rt (gn_apart _ _ G1) Nd' K1') as (st2' & E2' & _).
    pose proof (expand_any_order st1 l l' st2 st2' Rt (gn_apart _ _ G1) Nd Nd' K1 Il E2 E2') as ->.
    pose proof (expand_grown st1 l st2 Rt (gn_apart _ _ G1) Nd K1 E2) as Gr. pose proof (moved_generable st1 st2 C1 (grown_moved _ _ Gr) h G1) as G2.
    pose proof (grown_shut _ _ _ Gr (ready_shut st1 l K1 Rd)) as S2. pose proof (grown_shut _ _ _ Gr (ready_shut st1 l' K1' Rd')) as S2'.
    assert (W1 : wild_named st1) by exact (flat_wild fa st st1 L1 F1 W). assert (Sy1 : steady fa st1) by exact (flat_steady fa Hfa h st st1 G Sy L1 F1 M1 (flatten_still fa Hfa ft allow h Hb st G Sy types st1 l K E1)).
    pose proof (expand_inert st1 l st2 Rt (gn_apart _ _ G1) Nd K1 E2 W1) as In2. assert (In2' : forall t, In t l' -> inert st2 t) by (intros t Ht; apply In2, Il, Ht).
    destruct (steps_inert st2 l G2 S2 l acc (incl_refl l) In2) as [E3 Sp]. destruct (steps_inert st2 l' G2 S2' l' acc' (incl_refl l') In2') as [E3' Sp'].
    assert (Nm : forall t, type_name st2 t = type_name st t) by (intros t; rewrite (grown_name _ _ t Gr); exact (moved_type_name st st1 M1 t)).
    assert (Pl : Permutation l l') by (apply NoDup_Permutation; auto; intros x; symmetry; apply Il).
    exists st2, (flat_map (specs_of st2) l), (flat_map (specs_of st2) l'). unfold gen_schema. rewrite E1, E1'. cbn [andthen fst snd]. rewrite E2, E2'. cbn [andthen]. split; [exact E3|]. split; [exact E3'|]. split; [apply Permutation_flat_map; exact Pl|].
    pose proof (forall2_types _ _ _ _ Sp) as Ty.
    pose proof (flatten_reach P PN PB names fa ft allow st types st1 l U Hs E1) as Rc.
    destruct Rc as [U1 Rc].
    assert (Sps : forall s, In s (flat_map (specs_of st2) l) -> exists j n, sp_type s = TPtr j /\ In (TPtr j) l /\ type_name st (TPtr j) = Some n /\ sp_name s = public n /\ forall b, In b (sp_helpers s) -> non_trivial b = true).
    { intros s Hsp. destruct (forall2_back _ _ _ _ Sp Hsp) as (t & Ht & O). apply filter_In in Ht as [Ht Hp]. destruct t as [| | |j]; try discriminate. pose proof (sh_known _ _ S2 _ Ht) as Kj. cbn [known] in Kj. destruct (nth_error st2 j) as [d|] eqn:Ed; [|apply nth_error_None in Ed; lia].
      exists j, (def_name d). assert (Q : type_name st2 (TPtr j) = Some (def_name d)) by (cbn [type_name]; rewrite Ed; reflexivity). split; [exact (so_type _ _ _ _ _ O)|]. split; [exact Ht|]. split; [rewrite <- Nm; exact Q|]. split; [exact (so_name _ _ _ _ _ O _ Q)|exact (so_help _ _ _ _ _ O)]. }
    split; [|split; [exact G2|split; [exact (expand_steady fa st1 l st2 Rt (gn_apart _ _ G1) Nd K1 E2 Sy1)|split; [exact (expand_wild st1 l st2 Rt (gn_apart _ _ G1) Nd K1 E2 W1)|]]]].
    - assert (Nt : NoDup (map sp_type (flat_map (specs_of st2) l))) by (rewrite Ty; apply NoDup_filter; exact Nd). clear - Na Nt Sps Rc U. set (sps := flat_map (specs_of st2) l) in *. clearbody sps. induction sps as [|s sps IH]; [constructor|]. cbn [map] in *.
      inversion Nt as [|x y N1 N2]. constructor; [|apply IH; auto; intros s' Hs'; apply Sps; right; exact Hs']. intros Hs. apply in_map_iff in Hs as (s' & Es & Hs'). destruct (Sps s (or_introl eq_refl)) as (j & n & T1 & Tl & T2 & T3 & _). destruct (Sps s' (or_intror Hs')) as (j' & n' & T1' & Tl' & T2' & T3' & _).
      assert (j' = j) by (apply (Na j' j n' n (Rc _ Tl') (Rc _ Tl)); [rewrite <- (names_type names st (TPtr j') (proj1 U)); exact T2'|rewrite <- (names_type names st (TPtr j) (proj1 U)); exact T2|congruence]). apply N1. rewrite T1. apply in_map_iff. exists s'. split; [congruence|exact Hs'].
    - split; [exact (grown_uses P PN names _ _ Gr U1)|split; [exact Nm|split; [rewrite (gr_len _ _ Gr); exact L1|]]].
      + intros s Hsp. destruct (Sps s Hsp) as (j & n & T1 & _ & T2 & T3 & T4). split; [exists n; rewrite T1; auto|exact T4].
  Qed.
  Definition last_named (l : list spec) (n : string) : option spec := find_last (fun s => String.eqb (sp_name s) n) l.
  Lemma last_map l n : find_last (fun p : string * spec => String.eqb (fst p) n) (map (fun s => (sp_name s, s)) l) = option_map (fun s => (sp_name s, s)) (last_named l n).
  Proof. unfold last_named. induction l as [|s l IH]; [reflexivity|]. cbn [map find_last fst]. rewrite IH. destruct (find_last _ l); [reflexivity|]. cbn [option_map]. destruct (String.eqb (sp_name s) n); reflexivity. Qed.
  Lemma all_schemas : forall schemas schemas' st acc acc', generable h st -> steady fa st -> wild_named st -> all_uses P names st -> (forall types t n, In types schemas -> In t types -> type_name st t = Some n -> selected ft allow n = true -> P t) -> (forall types t, In types schemas -> In t types -> known st t) -> (forall types b, In types schemas -> In (TB b) types -> translated b) ->
    Forall2 (fun types types' => forall t, In t types <-> In t types') schemas schemas' ->
    exists st' sps sps', foldr (gen_schema public fa fe ft allow helpers) (st, [], acc) schemas = Ret (st', [], (acc ++ sps)%list) /\ foldr (gen_schema public fa fe ft allow helpers) (st, [], acc') schemas' = Ret (st', [], (acc' ++ sps')%list) /\
      (forall s, In s sps <-> In s sps') /\ (forall n, last_named sps n = last_named sps' n) /\ generable h st' /\ (forall t, type_name st' t = type_name st t) /\
      (forall s, In s sps -> (exists n, type_name st (sp_type s) = Some n /\ sp_name s = public n) /\ forall b, In b (sp_helpers s) -> non_trivial b = true).
  Proof.
    induction schemas as [|types schemas IH]; intros [|types' schemas'] st acc acc' G Sy W U Hs K Tb F; inversion F as [|x y l l' I F']; subst.
    - exists st, [], []. cbn [foldr]. rewrite !app_nil_r. split; [reflexivity|]. split; [reflexivity|]. split; [tauto|]. split; [reflexivity|]. split; [exact G|]. split; [reflexivity|intros s []].
    - destruct (one_schema st acc acc' types types' G Sy W U (fun t n => Hs types t n (or_introl eq_refl)) (fun t => K types t (or_introl eq_refl)) (fun b => Tb types b (or_introl eq_refl)) I) as (st1 & s1 & s1' & E1 & E1' & P1 & N1 & G1 & Sy1 & W1 & U1 & Nm1 & L1 & S1).
      destruct (IH schemas' st1 (acc ++ s1)%list (acc' ++ s1')%list G1 Sy1 W1 U1) as (st2 & s2 & s2' & E2 & E2' & P2 & N2 & G2 & Nm2 & S2).
      { intros ty t n H1 H2 H3. rewrite Nm1 in H3. exact (Hs ty t n (or_intror H1) H2 H3). }
      { intros ty t H1 H2. specialize (K ty t (or_intror H1) H2). destruct t; cbn [known] in *; auto. rewrite L1. exact K. }
      { intros ty b H1 H2. exact (Tb ty b (or_intror H1) H2). }
      { exact F'. }
      exists st2, (s1 ++ s2)%list, (s1' ++ s2')%list. cbn [foldr]. rewrite E1, E1'. cbn [andthen]. rewrite E2, E2', !app_assoc. split; [reflexivity|]. split; [reflexivity|]. split; [|split; [|split; [exact G2|split]]].
      + intros s. rewrite !in_app_iff, P2. split; (intros [H|H]; [left|right; exact H]); [exact (Permutation_in _ P1 H)|exact (Permutation_in _ (Permutation_sym P1) H)].
      + intros n. unfold last_named in *. rewrite !find_last_app, N2. destruct (find_last _ s2'); [reflexivity|].
        pose proof (find_last_perm (map (fun s => (sp_name s, s)) s1) (map (fun s => (sp_name s, s)) s1') n) as Q. rewrite !last_map in Q. rewrite map_map in Q. cbn [fst] in Q. specialize (Q N1 (Permutation_map _ P1)). unfold last_named in Q.
        destruct (find_last _ s1), (find_last _ s1'); cbn [option_map] in Q; congruence.
      + intros t. rewrite Nm2. apply Nm1.
      + intros s Hsp. apply in_app_or in Hsp as [Hsp|Hsp]; [exact (S1 s Hsp)|]. destruct (S2 s Hsp) as [(n & Q1 & Q2) Q3]. split; [exists n; rewrite Nm1 in Q1; auto|exact Q3].
  Qed.
  (* ---------- all together ---------- *)
  Lemma posts_get slices st (l out : list (string * spec)) : foldr (fun m p => andthen (SgGen.post slices st (snd p)) (fun s => Ret (m ++ [(fst p, s)])%list)) [] l = Ret out ->
    map fst out = map fst l /\ (forall n, match sget n l with Some s => exists s', SgGen.post slices st s = Ret s' /\ sget n out = Some s' | None => sget n out = None end).
  Proof.
    assert (Q : forall l acc out, foldr (fun m p => andthen (SgGen.post slices st (snd p)) (fun s => Ret (m ++ [(fst p, s)])%list)) acc l = Ret out -> exists o, out = (acc ++ o)%list /\ map fst o = map fst l /\ forall n, match sget n l with Some s => exists s', SgGen.post slices st s = Ret s' /\ sget n o = Some s' | None => sget n o = None end).
    { clear. induction l as [|[k s] l IH]; intros acc out; cbn [foldr fst snd].
      - intros [= <-]. exists []. rewrite app_nil_r. split; [reflexivity|]. split; [reflexivity|]. intros n. reflexivity.
      - destruct (SgGen.post slices st s) as [s'| | |] eqn:E; cbn [andthen]; try discriminate. intros H. destruct (IH _ _ H) as (o & -> & M & Q). exists ((k, s') :: o). rewrite <- app_assoc. split; [reflexivity|]. cbn [map fst]. rewrite M. split; [reflexivity|]. intros n. cbn [sget]. destruct (String.eqb k n); [eauto|apply Q]. }
    intros H. destruct (Q l [] out H) as (o & -> & M & G). auto.
  Qed.
  Lemma add_get : forall bs m n, (forall b, In b bs -> non_trivial b = true) ->
    let r := fold_left (fun m b => if memb b helpers then sset (helper_name b) (helper_spec b) m else m) bs m in
    (forall b, In b bs -> memb b helpers = true -> helper_name b = n -> sget n r = Some (helper_spec b)) /\ ((forall b, In b bs -> memb b helpers = true -> helper_name b <> n) -> sget n r = sget n m).
  Proof.
    induction bs as [|b bs IH] using rev_ind; intros m n Nt; cbv zeta; [split; [intros b []|reflexivity]|]. rewrite fold_left_app. cbn [fold_left]. destruct (IH m n (fun x Hx => Nt x (in_or_app _ _ _ (or_introl Hx)))) as [I1 I2]. cbv zeta in I1, I2. split.
    - intros x Hx Mx Ex. apply in_app_or in Hx as [Hx|[<-|[]]].
      + destruct (memb b helpers); [|exact (I1 x Hx Mx Ex)]. rewrite sget_sset. destruct (String.eqb (helper_name b) n) eqn:Q; [|exact (I1 x Hx Mx Ex)]. apply String.eqb_eq in Q.
        rewrite (helper_names_differ b x); [reflexivity|apply Nt, in_or_app; right; left; reflexivity|apply Nt, in_or_app; left; exact Hx|congruence].
      + rewrite Mx, sget_sset, Ex, String.eqb_refl. reflexivity.
    - intros H. destruct (memb b helpers) eqn:Mb; [|apply I2; intros x Hx; apply H, in_or_app; left; exact Hx]. rewrite sget_sset. destruct (String.eqb (helper_name b) n) eqn:Q; [|apply I2; intros x Hx; apply H, in_or_app; left; exact Hx].
      apply String.eqb_eq in Q. exfalso. apply (H b); auto. apply in_or_app. right. left. reflexivity.
  Qed.
  Lemma add_nodup bs : forall m, NoDup (map fst m) -> NoDup (map fst (fold_left (fun m b => if memb b helpers then sset (helper_name b) (helper_spec b) m else m) bs m)).
  Proof. induction bs as [|b bs IH]; intros m H; [exact H|]. cbn [fold_left]. apply IH. destruct (memb b helpers); [apply sset_nodup|]; exact H. Qed.
  Lemma helpers_get d d' n : NoDup (map fst d) -> NoDup (map fst d') -> (forall n, sget n d' = sget n d) -> (forall p b, In p d -> In b (sp_helpers (snd p)) -> non_trivial b = true) ->
    sget n (add_helpers helpers d') = sget n (add_helpers helpers d).
  Proof.
    intros N N' E Nt. assert (I : forall p, In p d' <-> In p d). { intros [k s]. split; intros H; apply sget_nodup_in in H; auto; [rewrite E in H|rewrite <- E in H]; apply sget_in; exact H. }
    unfold add_helpers. set (bs := flat_map _ d). set (bs' := flat_map _ d').
    assert (B : forall b, In b bs' <-> In b bs). { intros b. unfold bs, bs'. rewrite !in_flat_map. split; intros (p & H1 & H2); exists p; (split; [apply I; exact H1|exact H2]). }
    assert (T : forall b, In b bs -> non_trivial b = true). { intros b Hb0. unfold bs in Hb0. apply in_flat_map in Hb0 as (p & H1 & H2). exact (Nt p b H1 H2). }
    destruct (add_get bs d n T) as [A1 A2]. destruct (add_get bs' d' n (fun b Hb0 => T b (proj1 (B b) Hb0))) as [A1' A2']. cbv zeta in *.
    destruct (find (fun b => (memb b helpers && String.eqb (helper_name b) n)%bool) bs) as [b|] eqn:Q.
    - apply find_some in Q as [Q1 Q2]. apply andb_prop in Q2 as [Q2 Q3]. apply String.eqb_eq in Q3. rewrite (A1 b Q1 Q2 Q3), (A1' b (proj2 (B b) Q1) Q2 Q3). reflexivity.
    - assert (X : forall b, In b bs -> memb b helpers = true -> helper_name b <> n). { intros b H1 H2 H3. pose proof (find_none _ _ Q b H1) as Z. cbn beta in Z. rewrite H2, H3, String.eqb_refl in Z. discriminate. }
      rewrite (A2 X), A2'; [apply E|]. intros b H1. apply X, B, H1.
  Qed.
  Theorem code_reached slices st schemas schemas' : generable h st -> steady fa st -> wild_named st -> all_uses P names st -> (forall types t n, In types schemas -> In t types -> type_name st t = Some n -> selected ft allow n = true -> P t) -> (forall types t, In types schemas -> In t types -> known st t) -> (forall types b, In types schemas -> In (TB b) types -> translated b) ->
    Forall2 (fun types types' => forall t, In t types <-> In t types') schemas schemas' ->
    exists c c', gen public fa fe ft allow helpers slices st schemas = Ret (inr c) /\ gen public fa fe ft allow helpers slices st schemas' = Ret (inr c') /\
      co_store c' = co_store c /\ (forall n, lookup n (co_names c') = lookup n (co_names c)) /\
      forall sort sort', sorts_strings sort -> sorts_strings sort' -> gen_ast sort' (co_decls c') = gen_ast sort (co_decls c).
  Proof.
    intros G Sy W U Hst K Tb F. destruct (all_schemas schemas schemas' st [] [] G Sy W U Hst K Tb F) as (st' & sps & sps' & E & E' & I & La & G' & Nm & S). cbn [app] in E, E'. unfold gen. rewrite E, E'. cbn [andthen].
    assert (S0 : forall s, In s sps -> exists n, type_name st' (sp_type s) = Some n /\ sp_name s = public n). { intros s Hs. destruct (S s Hs) as [(n & H1 & H2) _]. exists n. rewrite Nm. auto. }
    destruct (names_ok public st' sps [] S0) as (nms & En & N1 & N2); [discriminate|]. destruct (names_ok public st' sps' [] (fun s Hs => S0 s (proj2 (I s) Hs))) as (names' & En' & N1' & N2'); [discriminate|].
    rewrite En, En'. cbn [andthen]. set (ds := declare [] (map (fun s => (sp_name s, s)) sps)). set (ds' := declare [] (map (fun s => (sp_name s, s)) sps')).
    destruct (posts_ok h slices st' (gn_complete _ _ G') ds []) as (out & Eo & _). destruct (posts_ok h slices st' (gn_complete _ _ G') ds' []) as (out' & Eo' & _). cbn [app] in Eo, Eo'. rewrite Eo, Eo'. cbn [andthen].
    eexists. eexists. split; [reflexivity|]. split; [reflexivity|]. cbn [co_store co_names co_decls]. split; [reflexivity|].
    destruct (posts_get slices st' ds out Eo) as [M1 Q1]. destruct (posts_get slices st' ds' out' Eo') as [M2 Q2].
    assert (Nd : NoDup (map fst ds)) by (apply declare_nodup; constructor). assert (Nd' : NoDup (map fst ds')) by (apply declare_nodup; constructor).
    assert (Gd : forall n, sget n ds' = sget n ds). { intros n. unfold ds, ds'. rewrite !declare_get, !last_map, La. reflexivity. }
    assert (Go : forall n, sget n out' = sget n out). { intros n. specialize (Q1 n). specialize (Q2 n). rewrite Gd in Q2. destruct (sget n ds) as [s|]; [|congruence]. destruct Q1 as (a & A1 & A2). destruct Q2 as (b & B1 & B2). congruence. }
    split.
    - intros n. assert (X : lookup n names' <> None <-> lookup n nms <> None). { rewrite N2, N2'. split; (intros [H|(s & H1 & H2)]; [left; exact H|right; exists s; split; [apply I; exact H1|exact H2]]). }
      destruct (lookup n nms) as [a|] eqn:Ea; destruct (lookup n names') as [b|] eqn:Eb; auto.
      + pose proof (N1 n a Ea). pose proof (N1' n b Eb). congruence.
      + exfalso. apply (proj2 X); [discriminate|reflexivity].
      + exfalso. apply (proj1 X); [discriminate|reflexivity].
    - intros sort sort' Hs Hs'. assert (No : NoDup (map fst out)) by (rewrite M1; exact Nd). assert (No' : NoDup (map fst out')) by (rewrite M2; exact Nd').
      apply gen_ast_same; auto; [apply add_nodup; exact No|apply add_nodup; exact No'|]. intros n. apply helpers_get; auto. intros [k s] b Hp Hbp. cbn [snd] in Hbp.
      apply sget_nodup_in in Hp; [|exact No]. specialize (Q1 k). destruct (sget k ds) as [s0|] eqn:Es; [|congruence]. destruct Q1 as (s' & A1 & A2). assert (s' = s) as -> by congruence.
      apply sget_in in Es. unfold ds in Es. apply declare_in in Es as [[]|Es]. apply in_map_iff in Es as (s1 & [= <- ->] & Hs1). apply (proj2 (S s0 Hs1)). destruct (post_ok h slices st' s0 (gn_complete _ _ G')) as (s2 & B1 & (_ & _ & _ & B2 & _)). assert (s2 = s) as -> by congruence. rewrite <- B2. exact Hbp.
  Qed.
End Code.
Theorem code_any_order public fa fe ft allow helpers h slices st schemas schemas' : (forall b, non_trivial b = true -> memb b helpers = true) -> (forall a t, filtered fa (retype_at a t) = filtered fa a) -> (forall i, h i <= N.to_nat 1000) ->
  generable h st -> steady fa st -> wild_named st -> names_apart public ft allow st schemas -> (forall types t, In types schemas -> In t types -> known st t) -> (forall types b, In types schemas -> In (TB b) types -> translated b) ->
  Forall2 (fun types types' => forall t, In t types <-> In t types') schemas schemas' ->
  exists c c', gen public fa fe ft allow helpers slices st schemas = Ret (inr c) /\ gen public fa fe ft allow helpers slices st schemas' = Ret (inr c') /\
    co_store c' = co_store c /\ (forall n, lookup n (co_names c') = lookup n (co_names c)) /\
    forall sort sort', sorts_strings sort -> sorts_strings sort' -> gen_ast sort' (co_decls c') = gen_ast sort (co_decls c).
Proof.
  intros Hh Hfa Hb G Sy W Na K Tb F. apply (code_reached public fa fe ft allow helpers Hh h Hfa Hb (fun t => match t with TPtr _ => reached ft allow st schemas t | _ => True end) I (fun b => I) (map def_name st)); auto.
  - intros i j n m Hi Hj En Em. rewrite nth_error_map in En, Em. exact (Na i j n m Hi Hj En Em).
  - split; [reflexivity|]. intros i d u Hi E Hu. destruct u as [| | |j]; auto. exact (rc_used _ _ _ _ i d _ Hi E Hu).
  - intros types t n H1 H2 H3 H4. destruct t as [| | |j]; auto. exact (rc_listed _ _ _ _ types _ n H1 H2 H3 (proj1 (selected_picked ft allow n) H4)).
Qed.
