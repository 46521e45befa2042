(* The order in which the elements of a struct are written, and how often each is. *)
From Verif Require Import Base ScopeModel TreeModel EqualModel BuiltinModel XsdModel XsdProofs TypesModel GenModel SgModel SgStruct SgProofs SgNames SgTags BindModel BindSpec BindProofs BindGen BindGenSpec BindStruct.
Local Open Scope string_scope.

(* the overlay of each field *)
Definition own_over (ftd : sfield * (ty * string)) (l : list override) : Prop :=
  let '(f, (t, d)) := ftd in
  (needs t d = false /\ l = []) \/ (needs t d = true /\ exists o, l = [o] /\ ov_field o = sf_name f /\ ov_type o = t).
Definition overs (fs : list sfield) (ts : list (ty * string)) (os : list override) : Prop :=
  List.length fs = List.length ts /\ exists ls, os = concat ls /\ Forall2 own_over (combine fs ts) ls.
Lemma combine_snoc {A B} (l : list A) (m : list B) a b : List.length l = List.length m -> combine (l ++ [a]) (m ++ [b]) = (combine l m ++ [(a, b)])%list.
Proof. revert m. induction l as [|x l IH]; intros [|y m] H; try discriminate; [reflexivity|]. cbn [app combine]. f_equal. apply IH. cbn in H. lia. Qed.

Section Order.
  Variable public : xname -> string.
  Variable fa : option (attribute -> bool).
  Variable fe : option (element -> bool).
  Variable helpers : list Z.

  Lemma override_own st t d f l hs : override_for public helpers st t d (sf_name f) (sf_tag f) = Ret (l, hs) -> own_over (f, (t, d)) l.
  Proof.
    intros O. destruct (override_list _ _ _ _ _ _ _ _ _ O) as [K _]. destruct (override_spec _ _ _ _ _ _ _ _ _ O) as [S _]. unfold own_over. destruct (needs t d).
    - right. split; [reflexivity|]. destruct l as [|o [|o' l]]; try discriminate. exists o. destruct (S o (or_introl eq_refl)) as (S1 & _ & S3 & _). auto.
    - left. split; [reflexivity|]. destruct l; [reflexivity|discriminate].
  Qed.
  Lemma overs_snoc fs ts os f t d l : overs fs ts os -> own_over (f, (t, d)) l -> overs (fs ++ [f]) (ts ++ [(t, d)]) (os ++ l).
  Proof.
    intros (L & ls & -> & F) O. split; [rewrite !app_length, L; reflexivity|]. exists (ls ++ [l])%list. split; [rewrite concat_app; cbn [concat]; rewrite app_nil_r; reflexivity|].
    rewrite combine_snoc by exact L. apply Forall2_app; [exact F|]. constructor; [exact O|constructor].
  Qed.
  Definition el_td (e : element) : ty * string := (el_type e, el_default e).
  Definition at_td (a : attribute) : ty * string := (at_type a, at_default a).
  Lemma elements_overs st els : forall g g' ts, overs (g_fields g) ts (g_over g) -> foldr (element_field public helpers st) g els = Ret g' -> overs (g_fields g') (ts ++ map el_td els) (g_over g').
  Proof.
    induction els as [|e els IH]; intros g g' ts H; cbn [foldr map]; [intros [= <-]; rewrite app_nil_r; exact H|].
    destruct (element_field public helpers st g e) as [x| | |] eqn:E; cbn [andthen]; try discriminate. intros Hx.
    replace (ts ++ el_td e :: map el_td els)%list with ((ts ++ [el_td e]) ++ map el_td els)%list by (rewrite <- app_assoc; reflexivity). apply (IH x g' _); [|exact Hx].
    unfold element_field in E. destruct (expr_of public st (el_type e)) as [y| | |]; cbn [andthen] in E; try discriminate. destruct (element_name public (g_taken g) (el_name e)) as [taken name]. cbv zeta in E.
    match type of E with context [mkField ?nm ?bs ?tg] => set (f := mkField nm bs tg) in E end.
    destruct (override_for public helpers st (el_type e) (el_default e) _ _) as [[l hs]| | |] eqn:O; cbn [andthen] in E; try discriminate. injection E as <-. cbn [g_fields g_over fst]. apply overs_snoc; [exact H|]. apply (override_own st _ _ f l hs). exact O.
  Qed.
  Lemma attributes_overs st ats : forall g g' ts, overs (g_fields g) ts (g_over g) -> foldr (attribute_field public helpers st) g ats = Ret g' -> overs (g_fields g') (ts ++ map at_td ats) (g_over g').
  Proof.
    induction ats as [|a ats IH]; intros g g' ts H; cbn [foldr map]; [intros [= <-]; rewrite app_nil_r; exact H|].
    destruct (attribute_field public helpers st g a) as [x| | |] eqn:E; cbn [andthen]; try discriminate. intros Hx.
    replace (ts ++ at_td a :: map at_td ats)%list with ((ts ++ [at_td a]) ++ map at_td ats)%list by (rewrite <- app_assoc; reflexivity). apply (IH x g' _); [|exact Hx].
    unfold attribute_field in E. destruct (expr_of public st (at_type a)) as [y| | |]; cbn [andthen] in E; try discriminate. destruct (attribute_name public (g_taken g) (at_name a)) as [taken name]. cbv zeta in E.
    destruct (override_for public helpers st (at_type a) (at_default a) _ _) as [[l hs]| | |] eqn:O; cbn [andthen] in E; try discriminate. injection E as <-. cbn [g_fields g_over fst]. apply overs_snoc; [exact H|].
    apply (override_own st _ _ (mkField name y (attribute_tag a)) l hs). exact O.
  Qed.
  Lemma complex_overs st i c st' sp : gen_complex public fa fe helpers st i c = Ret (st', [sp]) -> ct_mixed c = false ->
    let (ats, els) := filter_fields fa fe (inherit st c) in exists fs, sp_struct sp = Some fs /\ overs fs (map el_td els ++ map at_td ats) (sp_overrides sp).
  Proof.
    unfold gen_complex, chardata. intros H Hm. rewrite Hm in H. cbn [andthen] in H. destruct (filter_fields fa fe (inherit st c)) as [ats els].
    destruct (foldr (element_field public helpers _) _ els) as [g1| | |] eqn:E1; cbn [andthen] in H; try discriminate.
    destruct (foldr (attribute_field public helpers _) g1 ats) as [g2| | |] eqn:E2; cbn [andthen] in H; try discriminate. injection H as <- <-. cbn [sp_struct sp_overrides]. eexists. split; [reflexivity|].
    assert (O0 : overs (g_fields (mkG [] [] [] [])) [] (g_over (mkG [] [] [] []))) by (split; [reflexivity|]; exists []; split; [reflexivity|constructor]).
    exact (attributes_overs _ _ _ _ _ (elements_overs _ _ _ _ _ O0 E1) E2).
  Qed.
End Order.

(* the order is that of the fields, but fields of a date, time or binary type come last *)
Definition td_last (ts : list (ty * string)) (j : nat) : bool := match nth_error ts j with Some (t, _) => non_trivial_ty t | None => false end.
Section Positions.
  Variable fs : list sfield.
  Variable ts : list (ty * string).
  Hypothesis Hname : NoDup (map sf_name fs).
  Notation nt := (fun o => non_trivial_ty (ov_type o)).
  Lemma own_nt f t d l : own_over (f, (t, d)) l -> (non_trivial_ty t = true /\ exists o, filter nt l = [o] /\ ov_field o = sf_name f) \/ (non_trivial_ty t = false /\ filter nt l = []).
  Proof.
    intros [[N ->]|[N (o & -> & O1 & O2)]]; cbn [filter].
    - right. unfold needs in N. apply Bool.orb_false_iff in N as [_ N]. auto.
    - rewrite O2. destruct (non_trivial_ty t); [left|right]; eauto.
  Qed.
  Lemma positions : forall fs2 ts2 ls fs1 ts1, fs = (fs1 ++ fs2)%list -> ts = (ts1 ++ ts2)%list -> List.length fs1 = List.length ts1 -> List.length fs2 = List.length ts2 -> Forall2 own_over (combine fs2 ts2) ls ->
    flat_map (position fs) (filter nt (concat ls)) = filter (td_last ts) (seq (List.length fs1) (List.length fs2)).
  Proof.
    induction fs2 as [|f fs2 IH]; intros [|[t d] ts2] ls fs1 ts1 Ef Et L1 L2 F; try discriminate; [inversion F; subst; reflexivity|].
    cbn [combine] in F. inversion F as [|? l ? ls' O F']; subst ls. cbn [concat List.length seq filter]. rewrite filter_app, flat_map_app.
    assert (J : nth_error fs (List.length fs1) = Some f) by (rewrite Ef, nth_error_app2, Nat.sub_diag by lia; reflexivity).
    assert (T : td_last ts (List.length fs1) = non_trivial_ty t) by (unfold td_last; rewrite Et, L1, nth_error_app2, Nat.sub_diag by lia; reflexivity). rewrite T.
    rewrite (IH ts2 ls' (fs1 ++ [f])%list (ts1 ++ [(t, d)])%list); [|rewrite <- app_assoc; exact Ef|rewrite <- app_assoc; exact Et|rewrite !app_length, L1; reflexivity|cbn in L2; lia|exact F'].
    rewrite app_length. cbn [List.length]. rewrite Nat.add_1_r. destruct (own_nt f t d l O) as [[N (o & -> & Of)]|[N ->]]; rewrite N; [|reflexivity].
    cbn [flat_map]. unfold position at 1. rewrite Of, (find_field_spec (sf_name f) fs 0 _ f Hname J eq_refl). reflexivity.
  Qed.
  Lemma overlaid_last os j : overs fs ts os -> j < List.length fs -> overlaid fs (filter nt os) j = td_last ts j.
  Proof.
    intros (L & ls & -> & F) Lj. unfold overlaid, td_last. destruct (nth_error fs j) as [f|] eqn:J; [|apply nth_error_Some in Lj; congruence]. destruct (nth_error ts j) as [[t d]|] eqn:Tj; [|apply nth_error_None in Tj; lia].
    assert (C : nth_error (combine fs ts) j = Some (f, (t, d))).
    { clear - J Tj. revert ts j J Tj. induction fs as [|g l IH]; intros [|b m] [|j] J Tj; try discriminate; cbn [combine nth_error] in *; [congruence|eauto]. }
    assert (Own : forall l, In l ls -> exists ftd, In ftd (combine fs ts) /\ own_over ftd l).
    { clear - F. intros l Hl. induction F as [|x y xs ys O F IH]; [destruct Hl|]. destruct Hl as [->|Hl]; [exists x; split; [left; reflexivity|exact O]|]. destruct (IH Hl) as (z & Z1 & Z2). exists z. split; [right; exact Z1|exact Z2]. }
    assert (Sel : exists l, In l ls /\ own_over (f, (t, d)) l).
    { clear - F C. revert j C. induction F as [|x y xs ys O F IH]; intros [|j] C; try discriminate; cbn [nth_error] in C; [injection C as ->; exists y; split; [left; reflexivity|exact O]|]. destruct (IH j C) as (l & L1 & L2). exists l. split; [right; exact L1|exact L2]. }
    destruct Sel as (l & Hl & O). destruct (own_nt f t d l O) as [[N (o & Eo & Of)]|[N Eo]]; rewrite N.
    - unfold mem_str. apply existsb_exists. exists (sf_name f). split; [|apply String.eqb_refl]. rewrite <- Of. apply in_map. apply filter_In. assert (I : In o (filter nt l)) by (rewrite Eo; left; reflexivity). apply filter_In in I as [I1 I2]. split; [|exact I2].
      apply in_concat. exists l. auto.
    - apply Bool.not_true_iff_false. unfold mem_str. intros X. apply existsb_exists in X as (m & X & Em). apply String.eqb_eq in Em as <-. apply in_map_iff in X as (o & Of & X). apply filter_In in X as [X1 X2]. apply in_concat in X1 as (l' & L1 & L2).
      destruct (Own l' L1) as ([g [t' d']] & G1 & G2). destruct G2 as [[_ ->]|[_ (o' & -> & O1 & O2)]]; [destruct L2|]. destruct L2 as [->|[]].
      assert (g = f) as ->. { apply (map_nodup_inj sf_name fs g f Hname); [exact (in_combine_l _ _ _ _ G1)|exact (nth_error_In _ _ J)|congruence]. }
      (* the same field, so the same type *)
      assert (Ts : (t', d') = (t, d)).
      { apply In_nth_error in G1 as [k K]. assert (Kf : nth_error fs k = Some f /\ nth_error ts k = Some (t', d')).
        { clear - K. revert ts k K. induction fs as [|h l IH]; intros [|b m] [|k] K; try discriminate; cbn [combine nth_error] in *; [injection K as -> ->; auto|eauto]. }
        destruct Kf as [K1 K2]. assert (k = j); [|congruence].
        pose proof (find_field_spec (sf_name f) fs 0 k f Hname K1 eq_refl) as Q1. pose proof (find_field_spec (sf_name f) fs 0 j f Hname J eq_refl) as Q2. cbn [Nat.add] in Q1, Q2. congruence. }
      injection Ts as -> ->. congruence.
  Qed.
  Lemma order_last os : overs fs ts os -> order fs (filter nt os) = (filter (fun j => negb (td_last ts j)) (seq 0 (List.length fs)) ++ filter (td_last ts) (seq 0 (List.length fs)))%list.
  Proof.
    intros O. unfold order. f_equal.
    - apply filter_ext_in. intros j Hj. apply in_seq in Hj. rewrite (overlaid_last os j O) by lia. reflexivity.
    - destruct O as (L & ls & -> & F). apply (positions fs ts ls [] []); auto.
  Qed.
End Positions.

Lemma filter_nth {A} (p : A -> bool) (L : list A) : Forall2 (fun j x => nth_error L j = Some x) (filter (fun j => match nth_error L j with Some x => p x | None => false end) (seq 0 (List.length L))) (filter p L).
Proof.
  assert (G : forall L2 L1, L = (L1 ++ L2)%list -> Forall2 (fun j x => nth_error L j = Some x) (filter (fun j => match nth_error L j with Some x => p x | None => false end) (seq (List.length L1) (List.length L2))) (filter p L2)).
  { induction L2 as [|x L2 IH]; intros L1 E; [constructor|]. cbn [List.length seq filter]. assert (J : nth_error L (List.length L1) = Some x) by (rewrite E, nth_error_app2, Nat.sub_diag by lia; reflexivity). rewrite J.
    specialize (IH (L1 ++ [x])%list). rewrite app_length in IH. cbn [List.length] in IH. rewrite Nat.add_1_r in IH. assert (E' : L = ((L1 ++ [x]) ++ L2)%list) by (rewrite <- app_assoc; exact E). specialize (IH E').
    destruct (p x); [constructor; [exact J|exact IH]|exact IH]. }
  exact (G L [] eq_refl).
Qed.
Lemma Forall2_compose {A B C} (R : A -> B -> Prop) (S : A -> C -> Prop) (T : B -> C -> Prop) : (forall a b c, R a b -> S a c -> T b c) -> forall l m n, Forall2 R l m -> Forall2 S l n -> Forall2 T m n.
Proof. intros H l m n F. revert n. induction F as [|a b l m X F IH]; intros n G; inversion G; subst; constructor; eauto. Qed.
Lemma concat_filter {A B} (f : A -> list B) (p : A -> bool) l : (forall a, In a l -> p a = false -> f a = []) -> flat_map f l = concat (map f (filter p l)).
Proof.
  induction l as [|a l IH]; intros H; [reflexivity|]. cbn [flat_map filter]. rewrite IH by (intros; apply H; [right|]; assumption). destruct (p a) eqn:E; [reflexivity|]. rewrite (H a (or_introl eq_refl) E). reflexivity.
Qed.
Lemma filter_map {A B} (f : A -> B) (p : B -> bool) l : filter p (map f l) = map f (filter (fun a => p (f a)) l).
Proof. induction l as [|a l IH]; [reflexivity|]. cbn [map filter]. destruct (p (f a)); cbn [map]; rewrite IH; reflexivity. Qed.
Lemma filter_seq_prefix (q : nat -> bool) n m : n <= m -> filter (fun j => Nat.ltb j n) (filter q (seq 0 m)) = filter q (seq 0 n).
Proof.
  intros L. replace m with (n + (m - n)) by lia. rewrite seq_app, !filter_app. cbn [Nat.add].
  assert (A : forall l, (forall j, In j l -> j < n) -> filter (fun j => Nat.ltb j n) (filter q l) = filter q l).
  { induction l as [|j l IH]; intros H; [reflexivity|]. cbn [filter]. destruct (q j); [|apply IH; intros; apply H; right; assumption]. cbn [filter]. assert (Nat.ltb j n = true) as -> by (apply Nat.ltb_lt, H; left; reflexivity). f_equal. apply IH. intros; apply H; right; assumption. }
  assert (B : forall l, (forall j, In j l -> n <= j) -> filter (fun j => Nat.ltb j n) (filter q l) = []).
  { induction l as [|j l IH]; intros H; [reflexivity|]. cbn [filter]. destruct (q j); [|apply IH; intros; apply H; right; assumption]. cbn [filter]. assert (Nat.ltb j n = false) as -> by (apply Nat.ltb_ge, H; left; reflexivity). apply IH. intros; apply H; right; assumption. }
  rewrite A, B by (intros j Hj; apply in_seq in Hj; lia). apply app_nil_r.
Qed.

Section Written.
  Variable public : xname -> string.
  Variable fa : option (attribute -> bool).
  Variable fe : option (element -> bool).
  Variable helpers : list Z.
  Variable exported : string -> bool.
  Variable structs : string -> option spec.
  Variable declares : xattr -> bool.
  Variable Leaf : Type.
  Variable print : string -> Leaf -> string.
  Variable is_empty : string -> Leaf -> bool.
  Variable good : string -> Leaf -> Prop.
  Hypothesis Hpub : forall n, String.prefix "[]" (public n) = false.
  Hypothesis Htime : structs "time.Time" = None.
  Hypothesis Hhelp : forall b, non_trivial b = true -> structs (helper_name b) = None.
  Hypothesis Hgen : all_generated public exported structs declares fa fe helpers.
  Notation has_type := (has_type structs Leaf good).
  Notation marshal := (marshal exported structs Leaf print is_empty).

  Lemma gen_bindable n s : structs n = Some s -> bindable exported structs declares marshaled_as s.
  Proof.
    intros H. destruct (Hgen n s H) as (st & i & c & st' & G & C). exact (generated_bindable public fa fe helpers Hpub exported structs declares Htime Hhelp st i c st' s G C).
  Qed.
  Lemma marshal_one e w name : has_type e w -> (forall e', e = EArr e' -> leaf structs e = true) -> exists a k, marshal w name e = [NElem name a k].
  Proof.
    intros H N. inversion H as [e' x L G|e' l L G|n s fs l G1 G2 G3]; subst.
    - cbn [BindModel.marshal]. eauto.
    - rewrite (N e' eq_refl) in L. discriminate.
    - destruct (gen_bindable n s G1) as (fs' & is & us & K1 & K2 & _). cbn [BindModel.marshal struct_of]. rewrite G1, K2. eauto.
  Qed.

  Notation block_of := (block_of Leaf is_empty).
  Notation times := (times Leaf is_empty).
  Theorem written st i c n s l name : structs n = Some s -> generated_from public exported structs declares fa fe helpers s st i c -> ct_mixed c = false ->
    has_type (EId n) (VStruct Leaf l) ->
    let (ats, els) := filter_fields fa fe (inherit st c) in
    exists fs attrs blocks, sp_struct s = Some fs /\ marshal (VStruct Leaf l) name (EId n) = [NElem name attrs (concat blocks)] /\
      Forall2 block_of (fields_last (combine (combine els fs) l)) blocks.
  Proof.
    intros Hs (st' & G & C) Hm T. pose proof (generated_parts public fa fe helpers Hpub exported structs declares Htime Hhelp st i c st' s G C) as P. pose proof (complex_overs public fa fe helpers st i c st' s G Hm) as O.
    destruct (filter_fields fa fe (inherit st c)) as [ats els]. destruct P as (cs & es & fs' & fs & P1 & P2 & P3 & P4 & P5 & P50 & P51 & P6 & P7 & P8 & P9 & P10 & P11 & P12 & P13).
    rewrite (P4 Hm) in *. cbn [app List.length Nat.add] in *. destruct O as (fs0 & O1 & O2). assert (fs0 = fs) as -> by congruence. clear O1.
    inversion T as [| |n' s' fs1 l' G1 G2 G3]; subst n' l'. assert (s' = s) as -> by congruence. assert (fs1 = fs) as -> by congruence. clear G1 G2.
    set (os := filter (fun o => non_trivial_ty (ov_type o)) (sp_overrides s)) in *.
    destruct (infos_ok exported fs P6 P7 P8 (keys_differ fs P9) os) as (is & d & E1 & N1 & A1 & F1 & Or).
    { intros o Ho. apply filter_In in Ho as [Ho _]. destruct (P10 o Ho) as (f & F1 & F2 & F3 & _). exists f. auto. } { apply nodup_filter_map. exact P11. }
    assert (Mi : marshal_info exported s = Some is) by (unfold marshal_info; rewrite P2; exact E1).
    set (blk := kid_block Leaf print is_empty l (map marshal l)).
    exists fs, (flat_map (attr_block Leaf print is_empty l) is), (map blk (filter (fun i => Nat.ltb (fi_idx i) (List.length els)) is)). split; [exact P2|].
    rewrite Forall_forall in F1. split.
    { cbn [BindModel.marshal struct_of]. rewrite Hs, Mi. cbv zeta. do 2 f_equal. apply concat_filter. intros i0 Hi Hlt. apply Nat.ltb_ge in Hlt. destruct (F1 i0 Hi) as (f & x & X1 & X2 & X3 & _).
      destruct (P51 _ f x X1 X2) as [(Y & _)|[(_ & Y & _)|(_ & Y & _)]]; [cbn in Y; lia|cbn [List.length Nat.add] in Y; lia|]. unfold blk, kid_block. destruct X3 as (X3 & _). rewrite X3, Y. reflexivity. }
    (* the indices, in order *)
    unfold os in Or. rewrite (order_last fs (map el_td els ++ map at_td ats) P8 (sp_overrides s) O2) in Or.
    assert (Lf : List.length els <= List.length fs) by (rewrite P1, app_length, P5; lia).
    assert (Ll : List.length l = List.length fs) by (symmetry; exact (Forall2_len _ _ _ G3)).
    set (L := combine (combine els fs) l). assert (LL : List.length L = List.length els) by (unfold L; rewrite !combine_length; lia).
    assert (LN : forall j e f v, nth_error L j = Some (e, f, v) -> nth_error els j = Some e /\ nth_error fs j = Some f /\ nth_error l j = Some v).
    { unfold L. clear. intros j e f v. revert j fs l. induction els as [|a m IH]; intros [|j] [|b fs] [|w l] H; try discriminate; cbn [combine nth_error] in *; [injection H as -> -> ->; auto|eauto]. }
    assert (Td : forall j, j < List.length els -> td_last (map el_td els ++ map at_td ats) j = match nth_error L j with Some x => replaced (fst (fst x)) | None => false end).
    { intros j Lj. unfold td_last. rewrite nth_error_app1 by (rewrite map_length; exact Lj). rewrite nth_error_map. destruct (nth_error L j) as [[[e f] v]|] eqn:J; [|apply nth_error_None in J; lia]. destruct (LN j e f v J) as (J1 & _). rewrite J1. reflexivity. }
    apply (f_equal (filter (fun j => Nat.ltb j (List.length els)))) in Or. rewrite filter_map, filter_app, !filter_seq_prefix in Or by exact Lf.
    rewrite (filter_ext_in (fun j => negb (td_last (map el_td els ++ map at_td ats) j)) (fun j => match nth_error L j with Some x => negb (replaced (fst (fst x))) | None => false end)) in Or;
      [|intros j Hj; apply in_seq in Hj; rewrite Td by lia; destruct (nth_error L j) eqn:J; [reflexivity|apply nth_error_None in J; lia]].
    rewrite (filter_ext_in (td_last (map el_td els ++ map at_td ats)) (fun j => match nth_error L j with Some x => replaced (fst (fst x)) | None => false end)) in Or; [|intros j Hj; apply in_seq in Hj; apply Td; lia].
    pose proof (Forall2_app (filter_nth (fun x => negb (replaced (fst (fst x)))) L) (filter_nth (fun x => replaced (fst (fst x))) L)) as Nx. rewrite LL in Nx. rewrite <- Or in Nx.
    assert (Bl : Forall2 (fun j b => exists i0, In i0 is /\ fi_idx i0 = j /\ b = blk i0) (map fi_idx (filter (fun i0 => Nat.ltb (fi_idx i0) (List.length els)) is)) (map blk (filter (fun i0 => Nat.ltb (fi_idx i0) (List.length els)) is))).
    { assert (Hin : forall x, In x (filter (fun i0 => Nat.ltb (fi_idx i0) (List.length els)) is) -> In x is) by (intros x Hx; apply filter_In in Hx; apply Hx). revert Hin. generalize (filter (fun i0 => Nat.ltb (fi_idx i0) (List.length els)) is). intros q Hin.
      induction q as [|x q IH]; constructor; [exists x; split; [apply Hin; left; reflexivity|auto]|apply IH; intros; apply Hin; right; assumption]. }
    refine (Forall2_compose _ _ _ _ _ _ _ Nx Bl). clear Nx Bl Or. intros j [[e f] v] b J (i0 & I1 & I2 & ->). destruct (LN j e f v J) as (J1 & J2 & J3).
    destruct (F1 i0 I1) as (g & x & X1 & X2 & X3 & X4 & X5). rewrite I2 in X1. assert (g = f) as -> by congruence. assert (Lj : j < List.length els) by (apply nth_error_Some; congruence).
    destruct (P51 j f x J2 X2) as [(Y & _)|[(_ & Y1 & Y2 & e' & Y3 & Y4 & Y5 & Y6 & Y7)|(Y & _)]]; [cbn in Y; lia| |cbn [List.length Nat.add] in Y; lia]. cbn [List.length] in Y3. rewrite Nat.sub_0_r in Y3. assert (e' = e) as -> by congruence.
    assert (Nm : info_name i0 = el_key e). { unfold info_name. destruct X3 as (_ & X31 & X32). rewrite X31, X32, Y6, Y7. destruct (el_key e); reflexivity. }
    assert (Kb : blk i0 = if omitted Leaf is_empty i0 v then [] else marshal v (info_name i0) (fi_type i0)).
    { unfold blk, kid_block. rewrite I2, J3, nth_error_map, J3. cbn [option_map]. destruct X3 as (X3 & _). unfold is_elem in Y2. rewrite X3. destruct (fi_mode x); try discriminate Y2; reflexivity. }
    (* the type of the value *)
    assert (Tv : has_type (as_type s f) v).
    { clear - G3 J2 J3. revert j J2 J3. induction G3 as [|f0 v0 fs0 vs0 H F IH]; intros [|j] J2 J3; try discriminate; cbn [nth_error] in *; [congruence|eauto]. }
    assert (Ov : overlaid fs os j = replaced e).
    { unfold os. rewrite (overlaid_last fs (map el_td els ++ map at_td ats) P8 (sp_overrides s) j O2) by lia. rewrite (Td j Lj), J. reflexivity. }
    assert (Ty : fi_type i0 = as_type s f /\ fi_ptr i0 = replaced e /\ (replaced e = false -> as_type s f = sf_expr f)).
    { rewrite <- Ov. unfold overlaid. rewrite J2. assert (As : forall o, In o (sp_overrides s) -> ov_field o = sf_name f -> as_type s f = text_expr (ov_to o)).
      { intros o Ho Eo. unfold as_type. rewrite (find_unique (fun o => String.eqb (ov_field o) (sf_name f)) (sp_overrides s) o Ho); [reflexivity|apply String.eqb_eq; exact Eo|]. intros w Hw Ew. apply String.eqb_eq in Ew. apply (map_nodup_inj ov_field (sp_overrides s)); auto. congruence. }
      assert (Self : mem_str (sf_name f) (map ov_field os) = false -> as_type s f = sf_expr f).
      { intros Hn. unfold as_type. destruct (find (fun o => String.eqb (ov_field o) (sf_name f)) (sp_overrides s)) as [o|] eqn:Fo; [|reflexivity]. apply find_some in Fo as [Fo1 Fo2]. apply String.eqb_eq in Fo2. destruct (P10 o Fo1) as (h & H1 & H2 & _ & _ & H3).
        assert (h = f) as -> by (apply (map_nodup_inj sf_name fs); [exact P8|exact H1|exact (nth_error_In _ _ J2)|congruence]). apply H3. destruct (non_trivial_ty (ov_type o)) eqn:Q; [|reflexivity]. exfalso. apply Bool.not_true_iff_false in Hn. apply Hn.
        unfold mem_str. apply existsb_exists. exists (sf_name f). split; [|apply String.eqb_refl]. rewrite <- Fo2. apply in_map. apply filter_In. auto. }
      destruct X5 as [(Z1 & _ & Z2 & Z3)|(Z1 & _ & o & Z2 & Z3 & Z4)].
      - assert (Hn : mem_str (sf_name f) (map ov_field os) = false). { apply Bool.not_true_iff_false. unfold mem_str. intros X. apply existsb_exists in X as (m & X & Em). apply String.eqb_eq in Em as <-. apply in_map_iff in X as (o & Eo & X). exact (Z3 o X Eo). }
        rewrite Hn, Z1, Z2. split; [symmetry; exact (Self Hn)|]. split; [reflexivity|]. intros _. exact (Self Hn).
      - assert (Hy : mem_str (sf_name f) (map ov_field os) = true). { unfold mem_str. apply existsb_exists. exists (sf_name f). split; [|apply String.eqb_refl]. rewrite <- Z3. apply in_map. exact Z2. }
        rewrite Hy, Z1, Z4. split; [|split; [reflexivity|discriminate]]. symmetry. apply As; [|exact Z3]. unfold os in Z2. apply filter_In in Z2. apply Z2. }
    destruct Ty as (Ty1 & Ty2 & Ty3). rewrite <- Ty1 in Tv.
    destruct (P12 f x (nth_error_In _ _ J2) X2) as (Sh & _).
    assert (Om : forall y, v = VLeaf Leaf y -> omitted Leaf is_empty i0 v = (negb (el_wild e) && (el_nillable e || el_optional e) && negb (replaced e) && is_empty (expr_text (sf_expr f)) y)%bool).
    { intros y ->. unfold omitted. cbn [empty]. rewrite X4, Y5, Ty2. destruct (replaced e) eqn:R; cbn [negb andb]; [rewrite !Bool.andb_false_r; reflexivity|]. rewrite Ty1, (Ty3 eq_refl), Bool.andb_true_r. reflexivity. }
    unfold BindGenSpec.block_of. rewrite Kb, Nm. inversion Tv as [e1 y L1 Gd Q1 Q2|e1 ws L1 Gd Q1 Q2|n1 s1 fs1 ws Gd1 Gd2 Gd3 Q1 Q2]; subst v.
    - rewrite (Om y eq_refl). unfold BindGenSpec.times. destruct (_ && is_empty (expr_text (sf_expr f)) y)%bool; [split; [constructor|reflexivity]|]. destruct (marshal_one (fi_type i0) (VLeaf Leaf y) (el_key e) Tv) as (a & k & Mk); [intros; exact L1|]. rewrite Mk. split; [|reflexivity]. constructor; [eauto|constructor].
    - assert (Ws : Forall (fun k => exists a kids, k = NElem (el_key e) a kids) (marshal (VSlice Leaf ws) (el_key e) (EArr e1)) /\ List.length (marshal (VSlice Leaf ws) (el_key e) (EArr e1)) = List.length ws).
      { cbn [BindModel.marshal item]. assert (Ne : forall e', e1 = EArr e' -> leaf structs e1 = true).
        { intros e' ->. assert (Fe : sf_expr f = EArr (EArr e')).
          { assert (Ft : fits structs marshaled_as (sf_expr f) (fi_type i0)).
            { rewrite Ty1. unfold as_type. destruct (find (fun o => String.eqb (ov_field o) (sf_name f)) (sp_overrides s)) as [o|] eqn:Fo; [|apply fits_refl; constructor]. apply find_some in Fo as [Fo1 Fo2]. apply String.eqb_eq in Fo2. destruct (P10 o Fo1) as (h & H1 & H2 & _ & H3 & _).
              assert (h = f) as -> by (apply (map_nodup_inj sf_name fs); [exact P8|exact H1|exact (nth_error_In _ _ J2)|congruence]). exact H3. }
            unfold fits in Ft. rewrite <- Q1 in Ft. destruct (leaf structs (sf_expr f)); [destruct Ft; congruence|congruence]. }
          rewrite Fe in Sh. cbn [shallow] in Sh. destruct Sh as [Sh|Sh]; [discriminate|exact Sh]. }
        clear - Gd Ne Hgen Hpub Htime Hhelp. induction Gd as [|w ws W Gd IH]; [split; [constructor|reflexivity]|]. cbn [flat_map List.length]. destruct (marshal_one e1 w (el_key e) W Ne) as (a & k & ->). destruct IH as [IH1 IH2]. cbn [app List.length]. split; [constructor; [eauto|exact IH1]|congruence]. }
      unfold BindGenSpec.times. destruct (omitted Leaf is_empty i0 (VSlice Leaf ws)) eqn:Oe; [|exact Ws]. unfold omitted in Oe. apply andb_true_iff in Oe as [_ Oe]. destruct ws; [|discriminate]. split; [constructor|reflexivity].
    - assert (Oe : omitted Leaf is_empty i0 (VStruct Leaf ws) = false) by (unfold omitted; cbn [empty]; apply Bool.andb_false_r). rewrite Oe. unfold BindGenSpec.times.
      assert (Tv' : has_type (EId n1) (VStruct Leaf ws)) by (rewrite Q1; exact Tv). destruct (marshal_one (EId n1) (VStruct Leaf ws) (el_key e) Tv') as (a & k & Mk); [discriminate|]. rewrite Mk. split; [constructor; [eauto|constructor]|reflexivity].
  Qed.
End Written.
