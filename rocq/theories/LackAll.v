(* The errors of all types of a schema, and of gen. *)
From Verif Require Import Base ScopeModel TreeModel EqualModel BuiltinModel XsdModel TypesModel GenModel SgModel SgStruct SgTags SgProofs SliceModel SgGen XsdProofs NormAttr MissText LackModel LackSpec LackProofs LackTold.
Local Open Scope string_scope.

Definition mapr {A B} (f : A -> B) (r : run A) : run B := match r with Ret a => Ret (f a) | Fail => Fail | Panic => Panic | Loops => Loops end.
Lemma mapr_foldr {A A' B} (h : A -> A') (f : A -> B -> run A) f' : (forall a b, mapr h (f a b) = f' (h a) b) -> forall l a, mapr h (foldr f a l) = foldr f' (h a) l.
Proof. intros H. induction l as [|b l IH]; intros a; [reflexivity|]. cbn [foldr]. rewrite <- H. destruct (f a b); cbn [andthen mapr]; [apply IH|reflexivity..]. Qed.

Section L.
  Variable public : xname -> string.
  Variable fa : option (attribute -> bool).
  Variable fe : option (element -> bool).
  Variable ft : option (xname -> bool).
  Variable allow : option (list xname).
  Variable helpers : list Z.
  Notation expr_of := (expr_of public).
  Notation lacking := (lacking public fa fe helpers).
  Notation gen_type := (gen_type public fa fe helpers).
  Notation type_lack := (type_lack public fa fe helpers).
  Notation after_error := (after_error public helpers).
  Notation step_told := (step_told public fa fe helpers).

  (* ---------- a type that is generated lacks nothing ---------- *)
  Lemma clash_type b : no_type b -> unknown b = false -> False.
  Proof. intros N U. apply unknown_spec in N. congruence. Qed.
  Lemma clash_help b : no_help helpers b -> unhelped helpers b = false -> False.
  Proof. intros N U. apply unhelped_spec in N. congruence. Qed.
  Lemma at_ret st t r : gen_type st t = Ret r -> (forall c, complex_at st t c -> exists i, t = TPtr i /\ gen_complex public fa fe helpers st i c = Ret r) /\
    (forall s, simple_at st t s -> exists i l, t = TPtr i /\ (if sd_list s then gen_simple_list public st i s else gen_simple public helpers st i s) = Ret l).
  Proof.
    intros H. split; intros x (i & -> & E); cbn [SgGen.gen_type] in H; rewrite E in H; [eauto|]. destruct (if sd_list x then _ else _) as [l| | |] eqn:G; try discriminate. eauto.
  Qed.
  Lemma value_clash st i c r b : gen_complex public fa fe helpers st i c = Ret r -> has_value st (TPtr i) c b -> unknown b = false /\ unhelped helpers b = false.
  Proof.
    unfold gen_complex. intros H (_ & M & Z0 & Ch). destruct (chardata public helpers st c) as [g| | |] eqn:C; try discriminate. unfold chardata in C. rewrite M in C.
    destruct (drill _ st (ct_base c)) as [base| | |] eqn:D; cbn [andthen] in C; try discriminate. rewrite (chain_drill _ _ _ Ch _ _ D) in C.
    destruct (expr_of st (TB b)) as [g0| | |] eqn:X; cbn [andthen] in C; try discriminate. split; [exact (expr_ret _ _ _ _ X)|].
    apply Z.eqb_neq in Z0. rewrite Z0 in C. destruct (non_trivial b) eqn:NT; [|unfold unhelped; rewrite NT; reflexivity].
    destruct (override_for _ _ _ _ _ _ _) as [oh| | |] eqn:O; cbn [andthen] in C; try discriminate. exact (over_ret _ _ _ _ _ _ _ _ O).
  Qed.
  Lemma fields_clash st i c r : gen_complex public fa fe helpers st i c = Ret r ->
    (forall x b, In x (ct_elems c) -> filtered fe x = false -> el_type x = TB b -> unknown b = false /\ unhelped helpers b = false) /\
    (forall x b, In x (ct_attrs c) -> filtered fa x = false -> at_type x = TB b -> unknown b = false /\ unhelped helpers b = false).
  Proof.
    unfold gen_complex. intros H. destruct (chardata public helpers st c) as [g| | |]; cbn [andthen] in H; try discriminate. cbv zeta in H.
    destruct (inherit_keeps st c) as (_ & _ & _ & Ie & Ia). unfold filter_fields in H.
    destruct (foldr (element_field _ _ _) _ _) as [g1| | |] eqn:X; cbn [andthen] in H; try discriminate. destruct (foldr (attribute_field _ _ _) _ _) as [g2| | |] eqn:Y; cbn [andthen] in H; try discriminate.
    split; intros x b Hx F T.
    - destruct (foldr_each _ _ _ _ X x) as (a1 & a2 & Q); [apply fold_filtered; right; split; [apply Ie; exact Hx|exact F]|]. eapply element_ret; eauto.
    - destruct (foldr_each _ _ _ _ Y x) as (a1 & a2 & Q); [apply fold_filtered; right; split; [apply Ia; exact Hx|exact F]|]. eapply attr_ret; eauto.
  Qed.
  Lemma base_clash st i s l b : gen_simple public helpers st i s = Ret l -> sd_union s = [] -> sd_base s = TB b -> unknown b = false /\ unhelped helpers b = false.
  Proof.
    unfold gen_simple. intros H U B. rewrite U, B in H. destruct (expr_of st (TB b)) as [g| | |] eqn:X; cbn [andthen] in H; try discriminate. split; [exact (expr_ret _ _ _ _ X)|].
    unfold unhelped. destruct (non_trivial b); [|reflexivity]. destruct (memb b helpers); [reflexivity|discriminate].
  Qed.
  Lemma items_clash st i s l b : gen_simple_list public st i s = Ret l -> chain_to (fun _ => true) st (sd_base s) (TB b) -> exists c, list_codec b = Some c /\ body_parses c = true.
  Proof.
    unfold gen_simple_list. intros H C. destruct (expr_of st _) as [g| | |]; cbn [andthen] in H; try discriminate. destruct (root_base _ st _) as [r| | |] eqn:R; cbn [andthen] in H; try discriminate.
    rewrite (chain_root _ _ _ C _ _ R) in H. destruct (list_codec b) as [c|]; [|discriminate]. destruct (body_parses c) eqn:Bp; [eauto|discriminate].
  Qed.
  Lemma ret_lacks_none st t r e : gen_type st t = Ret r -> ~ lacking st t e.
  Proof.
    intros G. destruct (at_ret _ _ _ G) as [Gc Gs]. destruct e; cbn [LackSpec.lacking].
    - intros (N & c & V & _). destruct (Gc c (proj1 V)) as (i & -> & X). eapply clash_type; [exact N|exact (proj1 (value_clash _ _ _ _ _ X V))].
    - intros (N & c & V). destruct (Gc c (proj1 V)) as (i & -> & X). eapply clash_help; [exact N|exact (proj2 (value_clash _ _ _ _ _ X V))].
    - intros (N & c & x & C & I0 & F & _ & T). destruct (Gc c C) as (i & -> & X). eapply clash_type; [exact N|exact (proj1 (proj1 (fields_clash _ _ _ _ X) x b I0 F T))].
    - intros (b & N & c & x & C & I0 & F & _ & T). destruct (Gc c C) as (i & -> & X). eapply clash_help; [exact N|exact (proj2 (proj1 (fields_clash _ _ _ _ X) x b I0 F T))].
    - intros (N & c & x & C & I0 & F & _ & T). destruct (Gc c C) as (i & -> & X). eapply clash_type; [exact N|exact (proj1 (proj2 (fields_clash _ _ _ _ X) x b I0 F T))].
    - intros (b & N & c & x & C & I0 & F & _ & T). destruct (Gc c C) as (i & -> & X). eapply clash_help; [exact N|exact (proj2 (proj2 (fields_clash _ _ _ _ X) x b I0 F T))].
    - intros (N & _ & s & S0 & L & U & B). destruct (Gs s S0) as (i & l & -> & X). rewrite L in X. eapply clash_type; [exact N|exact (proj1 (base_clash _ _ _ _ _ X U B))].
    - intros (N & s & S0 & L & U & B). destruct (Gs s S0) as (i & l & -> & X). rewrite L in X. eapply clash_help; [exact N|exact (proj2 (base_clash _ _ _ _ _ X U B))].
    - intros (N & s & S0 & L & B). destruct (Gs s S0) as (i & l & -> & X). rewrite L in X. unfold gen_simple_list in X. rewrite B in X.
      destruct (expr_of st (TB b)) as [g| | |] eqn:Y; cbn [andthen] in X; try discriminate. eapply clash_type; [exact N|exact (expr_ret _ _ _ _ Y)].
    - intros (N & s & S0 & L & C). destruct (Gs s S0) as (i & l & -> & X). rewrite L in X. destruct (items_clash _ _ _ _ _ X C) as (c & K & _). congruence.
    - intros (s & b & c & (S0 & L & C) & K & Bp & _). destruct (Gs s S0) as (i & l & -> & X). rewrite L in X. destruct (items_clash _ _ _ _ _ X C) as (c' & K' & Bp'). congruence.
  Qed.

  (* ---------- the types of a schema ---------- *)
  Theorem types_told l : forall st errs specs st' errs' specs', foldr step_told (st, errs, specs) l = Ret (st', errs', specs') ->
    grown st st' /\ exists new ts, errs' = (errs ++ new)%list /\ subseq ts l /\
      Forall2 (fun t p => type_name st' t = Some (fst p) /\ lacking st' t (snd p)) ts new /\
      (forall t e, In t l -> lacking st t e -> In t ts).
  Proof.
    induction l as [|t l IH]; intros st errs specs st' errs' specs'; cbn [foldr].
    - intros H. injection H as <- <- <-. split; [apply grown_refl|]. exists [], []. split; [rewrite app_nil_r; reflexivity|]. split; [constructor|]. split; [constructor|]. intros t e [].
    - unfold step_told at 1. destruct (gen_type st t) as [[st1 sp]| | |] eqn:G; cbn [andthen]; try discriminate.
      + intros H. destruct (IH _ _ _ _ _ _ H) as (G2 & new & ts & E & S0 & F & A). pose proof (gen_grown _ _ _ _ _ _ _ _ G) as G1. split; [eapply grown_trans; eauto|]. exists new, ts. split; [exact E|].
        split; [constructor; exact S0|]. split; [exact F|]. intros u e [<-|Hu] Le; [exfalso; exact (ret_lacks_none _ _ _ _ G Le)|]. eapply A; [exact Hu|]. eapply lacking_grown; eauto.
      + destruct (fail_told _ _ _ _ _ _ G) as (n & e & N & T & W). rewrite N, T. cbn [andthen]. intros H. destruct (IH _ _ _ _ _ _ H) as (G2 & new & ts & E & S0 & F & A). pose proof (error_grown public helpers st t) as G1.
        split; [eapply grown_trans; eauto|]. exists ((n, e) :: new), (t :: ts). split; [rewrite E, <- app_assoc; reflexivity|]. split; [constructor; exact S0|]. split.
        * constructor; [|exact F]. cbn [fst snd]. split; [rewrite (grown_name _ _ _ G2), (grown_name _ _ _ G1); exact N|]. eapply lacking_grown; eauto.
        * intros u e' [<-|Hu] Le; [left; reflexivity|]. right. eapply A; [exact Hu|]. eapply lacking_grown; eauto.
  Qed.

  Theorem schema_said types st errs specs st' errs' specs' : schema_told public fa fe ft allow helpers (st, errs, specs) types = Ret (st', errs', specs') ->
    exists st0 l st1 new ts, flatten_types fa ft allow st types = Ret (st0, l) /\ expand_types st0 l = Ret st1 /\ grown st1 st' /\
      errs' = (errs ++ new)%list /\ subseq ts l /\
      Forall2 (fun t p => type_name st' t = Some (fst p) /\ lacking st' t (snd p)) ts new /\
      (forall t e, In t l -> lacking st1 t e -> In t ts).
  Proof.
    cbn [schema_told]. destruct (flatten_types fa ft allow st types) as [[st0 l]| | |]; cbn [andthen fst snd]; try discriminate. destruct (expand_types st0 l) as [st1| | |] eqn:X; cbn [andthen]; try discriminate.
    intros H. destruct (types_told _ _ _ _ _ _ _ H) as (G & new & ts & R). exists st0, l, st1, new, ts. auto.
  Qed.

  (* ---------- gen reports them ---------- *)
  Definition strip (g : lstep) : gstep := let '(st, errs, specs) := g in (st, map fst errs, specs).
  Lemma strip_step g t : mapr strip (step_told g t) = gen_step public fa fe helpers (strip g) t.
  Proof.
    destruct g as [[st errs] specs]. cbn [LackModel.step_told SgGen.gen_step strip]. destruct (gen_type st t) as [[st1 sp]| | |] eqn:G; try reflexivity.
    destruct (fail_told _ _ _ _ _ _ G) as (n & e & N & T & _). rewrite N, T. cbn [mapr strip]. rewrite map_app. reflexivity.
  Qed.
  Lemma strip_schema g l : mapr strip (schema_told public fa fe ft allow helpers g l) = gen_schema public fa fe ft allow helpers (strip g) l.
  Proof.
    destruct g as [[st errs] specs]. cbn [schema_told gen_schema strip]. destruct (flatten_types _ _ _ _ _) as [sl| | |]; cbn [andthen]; try reflexivity. destruct (expand_types _ _) as [st1| | |]; cbn [andthen]; try reflexivity.
    apply (mapr_foldr strip _ _ strip_step).
  Qed.
  Theorem gen_told slices st schemas :
    (forall ns, gen public fa fe ft allow helpers slices st schemas = Ret (inl ns) <-> exists errs, errors_told public fa fe ft allow helpers st schemas = Ret errs /\ errs <> [] /\ ns = map fst errs) /\
    (forall c, gen public fa fe ft allow helpers slices st schemas = Ret (inr c) -> errors_told public fa fe ft allow helpers st schemas = Ret []).
  Proof.
    unfold gen, errors_told. change (st, [], []) with (strip (st, [], [])) at 1 3. rewrite <- !(mapr_foldr strip _ _ strip_schema schemas (st, [], [])). destruct (foldr _ _ schemas) as [[[st1 errs] sp]| | |]; cbn [mapr strip andthen fst snd].
    - destruct errs as [|p errs]; cbn [map].
      + split; [|reflexivity]. intros ns. split; [|intros (x & Hx & N & _); injection Hx as <-; congruence].
        destruct (foldr _ _ sp); cbn [andthen]; try discriminate. destruct (foldr _ _ _); cbn [andthen]; discriminate.
      + split; [|discriminate]. intros ns. split; [intros H; injection H as <-; exists (p :: errs); repeat split; discriminate|intros (x & Hx & _ & ->); injection Hx as <-; reflexivity].
    - split; [intros ns; split; [discriminate|intros (x & Hx & _); discriminate]|discriminate].
    - split; [intros ns; split; [discriminate|intros (x & Hx & _); discriminate]|discriminate].
    - split; [intros ns; split; [discriminate|intros (x & Hx & _); discriminate]|discriminate].
  Qed.
End L.

(* ---------- the text: a line for each type ---------- *)
Lemma split_lines (l : list string) : Forall one_line l -> split_at "010" (String.concat "" (map (fun s => s ++ String "010" "") l)) = (l ++ [""])%list.
Proof.
  induction 1 as [|s l H F IH]; [reflexivity|].
  assert (E : String.concat "" (map (fun s => s ++ String "010" "") (s :: l)) = s ++ String "010" (String.concat "" (map (fun s => s ++ String "010" "") l))).
  { cbn [map String.concat]. destruct l; cbn [map String.concat append]; [reflexivity|]. rewrite lit_app. reflexivity. }
  rewrite E, split_app by exact H. rewrite IH. reflexivity.
Qed.
Theorem text_lines is_print parser l : Forall (fun p => one_line (line_text is_print parser p)) l ->
  split_at "010" (list_text is_print parser l) = (map (line_text is_print parser) l ++ [""])%list.
Proof.
  intros F. unfold list_text. rewrite <- (map_map (line_text is_print parser) (fun s => s ++ String "010" "")). apply split_lines. apply Forall_map. exact F.
Qed.
