(* The errors of xsdgen are so, and they are all. *)
From Verif Require Import Base ScopeModel TreeModel EqualModel BuiltinModel XsdModel TypesModel GenModel SgModel SgStruct SgTags SgProofs SliceModel SgGen XsdProofs NormAttr MissText LackModel LackSpec LackProofs.
Local Open Scope string_scope.

(* ---------- types keep what they have ---------- *)
Lemma grown_refl st : grown st st.
Proof. split; [reflexivity|]. intros i d H. destruct d as [c|s]; [|exact H]. exists c. repeat split; auto using incl_refl. Qed.
Lemma grown_trans a b c : grown a b -> grown b c -> grown a c.
Proof.
  intros [L1 H1] [L2 H2]. split; [congruence|]. intros i d Hi. specialize (H1 i d Hi). destruct d as [x|s].
  - destruct H1 as (y & Hy & A1 & A2 & A3 & A4 & A5). destruct (H2 i _ Hy) as (z & Hz & B1 & B2 & B3 & B4 & B5). exists z. repeat split; try congruence; eapply incl_tran; eassumption.
  - exact (H2 i _ H1).
Qed.
Lemma inherit_keeps st c : ct_name (inherit st c) = ct_name c /\ ct_base (inherit st c) = ct_base c /\ ct_mixed (inherit st c) = ct_mixed c /\ incl (ct_elems c) (ct_elems (inherit st c)) /\ incl (ct_attrs c) (ct_attrs (inherit st c)).
Proof.
  unfold inherit. destruct (ct_base c) as [|b|n|j] eqn:B; try (repeat split; auto using incl_refl; fail). destruct (get_c st j) as [b|]; [|repeat split; auto using incl_refl].
  destruct (merge_spec (ct_attrs b) (ct_attrs c)) as (ext & E & _). cbv zeta. unfold set_fields. cbn [ct_name ct_base ct_mixed ct_elems ct_attrs]. rewrite E. repeat split; auto.
  - destruct (existsb _ _); [apply incl_refl|]. destruct (find _ _); [apply incl_appl|]; apply incl_refl.
  - apply incl_appl, incl_refl.
Qed.
Lemma grown_put st i c : nth_error st i = Some (DC c) -> grown st (put_c st i (inherit st c)).
Proof.
  intros Hi. assert (L : i < List.length st) by (apply nth_error_Some; congruence). split; [apply set_nth_length|]. intros j d Hj. unfold put_c. destruct (Nat.eq_dec j i) as [->|N].
  - rewrite set_nth_same by exact L. rewrite Hi in Hj. injection Hj as <-. exists (inherit st c). split; [reflexivity|]. apply inherit_keeps.
  - rewrite set_nth_other by exact N. destruct d as [x|s]; [|exact Hj]. exists x. repeat split; auto using incl_refl.
Qed.
Lemma grown_none st st' i : grown st st' -> nth_error st i = None -> nth_error st' i = None.
Proof. intros [L _] H. apply nth_error_None. rewrite L. apply nth_error_None. exact H. Qed.
Lemma grown_base st st' t : grown st st' -> base_of st' t = base_of st t.
Proof.
  intros G. destruct t as [|b|n|i]; try reflexivity. cbn [base_of]. destruct (nth_error st i) as [d|] eqn:E; [|rewrite (grown_none _ _ _ G E); reflexivity].
  pose proof (proj2 G i d E) as H. destruct d as [c|s]; [destruct H as (c' & -> & _ & B & _)|rewrite H; reflexivity]. exact B.
Qed.
Lemma grown_name st st' t : grown st st' -> type_name st' t = type_name st t.
Proof.
  intros G. destruct t as [|b|n|i]; try reflexivity. cbn [type_name]. destruct (nth_error st i) as [d|] eqn:E; [|rewrite (grown_none _ _ _ G E); reflexivity].
  pose proof (proj2 G i d E) as H. destruct d as [c|s]; [destruct H as (c' & -> & B & _)|rewrite H; reflexivity]. cbn [option_map def_name]. rewrite B. reflexivity.
Qed.
Lemma grown_simple st st' t : grown st st' -> is_simple st' t = is_simple st t.
Proof.
  intros G. destruct t as [|b|n|i]; try reflexivity. cbn [is_simple]. destruct (nth_error st i) as [d|] eqn:E; [|rewrite (grown_none _ _ _ G E); reflexivity].
  pose proof (proj2 G i d E) as H. destruct d as [c|s]; [destruct H as (c' & -> & _)|rewrite H]; reflexivity.
Qed.
Lemma grown_chain st st' ok ok' t v : grown st st' -> (forall u, ok u = true -> ok' u = true) -> chain_to ok st t v -> chain_to ok' st' t v.
Proof.
  intros G K. induction 1 as [t B|t v B O C IH]; [apply chain_end; rewrite (grown_base _ _ _ G); exact B|]. apply chain_more; [rewrite (grown_base _ _ _ G); exact B|apply K; exact O|].
  rewrite (grown_base _ _ _ G). exact IH.
Qed.

Section L.
  Variable public : xname -> string.
  Variable fa : option (attribute -> bool).
  Variable fe : option (element -> bool).
  Variable ft : option (xname -> bool).
  Variable allow : option (list xname).
  Variable helpers : list Z.
  Notation expr_of := (expr_of public).
  Notation override_for := (override_for public helpers).
  Notation lacking := (lacking public fa fe helpers).
  Notation gen_type := (gen_type public fa fe helpers).
  Notation type_lack := (type_lack public fa fe helpers).
  Notation after_error := (after_error public helpers).
  Notation step_told := (step_told public fa fe helpers).

  Lemma complex_grown st st' t c : grown st st' -> complex_at st t c -> exists c', complex_at st' t c' /\ ct_base c' = ct_base c /\ ct_mixed c' = ct_mixed c /\ incl (ct_elems c) (ct_elems c') /\ incl (ct_attrs c) (ct_attrs c').
  Proof. intros G (i & -> & H). destruct (proj2 G i _ H) as (c' & H' & N & B & M & E & A). exists c'. split; [exists i; auto|auto]. Qed.
  Lemma simple_grown st st' t s : grown st st' -> simple_at st t s -> simple_at st' t s.
  Proof. intros G (i & -> & H). exists i. split; [reflexivity|]. exact (proj2 G i _ H). Qed.
  Lemma value_grown st st' t c b : grown st st' -> has_value st t c b -> exists c', has_value st' t c' b /\ ct_base c' = ct_base c.
  Proof.
    intros G (C & M & Z0 & Ch). destruct (complex_grown _ _ _ _ G C) as (c' & C' & B & M' & _). exists c'. split; [|exact B]. split; [exact C'|]. split; [congruence|]. split; [exact Z0|]. rewrite B.
    eapply grown_chain; [exact G| |exact Ch]. intros u. cbn beta. rewrite (grown_simple _ _ _ G). auto.
  Qed.
  Lemma element_grown st st' t n b : grown st st' -> has_element fe st t n b -> has_element fe st' t n b.
  Proof. intros G (c & x & C & I0 & R). destruct (complex_grown _ _ _ _ G C) as (c' & C' & B & M' & E & A). exists c', x. split; [exact C'|]. split; [apply E; exact I0|exact R]. Qed.
  Lemma attr_grown st st' t n b : grown st st' -> has_attr fa st t n b -> has_attr fa st' t n b.
  Proof. intros G (c & x & C & I0 & R). destruct (complex_grown _ _ _ _ G C) as (c' & C' & B & M' & E & A). exists c', x. split; [exact C'|]. split; [apply A; exact I0|exact R]. Qed.
  Lemma items_grown st st' t s b : grown st st' -> has_items st t s b -> has_items st' t s b.
  Proof. intros G (S0 & L & C). split; [eapply simple_grown; eauto|]. split; [exact L|]. eapply grown_chain; [exact G| |exact C]. auto. Qed.
  Lemma lacking_grown st st' t e : grown st st' -> lacking st t e -> lacking st' t e.
  Proof.
    intros G. destruct e; cbn [LackSpec.lacking].
    - intros (N & c & V & T). destruct (value_grown _ _ _ _ _ G V) as (c' & V' & B). split; [exact N|]. exists c'. split; [exact V'|]. rewrite B, (grown_name _ _ _ G). exact T.
    - intros (N & c & V). destruct (value_grown _ _ _ _ _ G V) as (c' & V' & B). eauto.
    - intros (N & E). split; [exact N|eapply element_grown; eauto].
    - intros (b & N & E). exists b. split; [exact N|eapply element_grown; eauto].
    - intros (N & E). split; [exact N|eapply attr_grown; eauto].
    - intros (b & N & E). exists b. split; [exact N|eapply attr_grown; eauto].
    - intros (N & M & s & S0 & R). split; [exact N|]. split; [exact M|]. exists s. split; [eapply simple_grown; eauto|exact R].
    - intros (N & s & S0 & R). split; [exact N|]. exists s. split; [eapply simple_grown; eauto|exact R].
    - intros (N & s & S0 & R). split; [exact N|]. exists s. split; [eapply simple_grown; eauto|exact R].
    - intros (N & s & S0). split; [exact N|]. exists s. eapply items_grown; eauto.
    - intros (s & b & c & S0 & R). exists s, b, c. split; [eapply items_grown; eauto|exact R].
  Qed.

  Lemma error_grown st t : grown st (after_error st t).
  Proof.
    unfold SgGen.after_error. destruct t as [|b|n|i]; try apply grown_refl. unfold get_c. destruct (nth_error st i) as [[c|s]|] eqn:E; try apply grown_refl.
    destruct (chardata _ _ _ _); try apply grown_refl. apply grown_put. exact E.
  Qed.
  Lemma gen_grown st t st' l : gen_type st t = Ret (st', l) -> grown st st'.
  Proof.
    unfold SgGen.gen_type. destruct t as [|b|n|i]; try discriminate; try (intros H; injection H as <- <-; apply grown_refl). destruct (nth_error st i) as [[c|s]|] eqn:E; try discriminate.
    - unfold gen_complex. destruct (chardata _ _ _ _); cbn [andthen]; try discriminate. cbv zeta. destruct (filter_fields _ _ _) as [ats els]. destruct (foldr _ _ els); cbn [andthen]; try discriminate.
      destruct (foldr _ _ ats); cbn [andthen]; try discriminate. intros H. injection H as <- <-. apply grown_put. exact E.
    - destruct (if sd_list s then _ else _); cbn [andthen]; try discriminate. intros H. injection H as <- <-. apply grown_refl.
  Qed.

  (* ---------- what is told is so ---------- *)
  Lemma value_some st i c e : nth_error st i = Some (DC c) -> value_lack helpers st c = Some e -> lacking st (TPtr i) e.
  Proof.
    intros E H. unfold value_lack in H. destruct (ct_mixed c) eqn:M; [|discriminate]. destruct (drill _ st (ct_base c)) as [[|b|n|j]| | |] eqn:D; try discriminate.
    destruct (b =? 0)%Z eqn:B; [discriminate|]. apply Z.eqb_neq in B. apply drill_chain in D; [|reflexivity].
    assert (V : has_value st (TPtr i) c b) by (split; [exists i; auto|auto]).
    apply lacks_some in H as (b' & T & [(-> & N)|(-> & N)]); injection T as <-; cbn [LackSpec.lacking]; (split; [exact N|]); exists c; auto. split; auto.
    unfold local_of. destruct (type_name st (ct_base c)) eqn:T; [reflexivity|]. exfalso. clear - D T. destruct (ct_base c) as [|z|n|j]; try discriminate T.
    - inversion D as [|t v B0]; subst. apply B0. reflexivity.
    - inversion D as [|t v B0]; subst. apply B0. cbn [base_of type_name] in *. destruct (nth_error st j); [discriminate T|reflexivity].
  Qed.
  Lemma value_fail st c : chardata public helpers st c = Fail -> exists e, value_lack helpers st c = Some e.
  Proof.
    unfold chardata, value_lack. destruct (ct_mixed c); [|discriminate]. destruct (drill _ st (ct_base c)) as [base| | |] eqn:D; cbn [andthen]; try discriminate.
    - destruct (expr_of st base) as [g| | |] eqn:X; cbn [andthen]; try discriminate.
      + destruct base as [|b|n|j]; try (destruct (is_simple _ _); discriminate). destruct (b =? 0)%Z; [discriminate|]. destruct (non_trivial b) eqn:NT; [|discriminate].
        destruct (override_for _ _ _ _ _) as [oh| | |] eqn:O; cbn [andthen]; try discriminate. intros _. apply over_fail in O as (b' & T & V). eapply lacks_hit; eauto.
      + intros _. apply expr_fail in X as (b & -> & U). destruct (b =? 0)%Z eqn:B; [apply Z.eqb_eq in B; subst b; vm_compute in U; discriminate|]. eapply lacks_hit; eauto.
    - exfalso. revert D. generalize (ct_base c). generalize (S (List.length st)). induction n as [|n IH]; intros t; cbn [drill]; destruct (base_of st t); try (destruct t; discriminate); destruct (is_simple st t); try discriminate; apply IH.
  Qed.
  Lemma value_ret st c g : chardata public helpers st c = Ret g -> value_lack helpers st c = None.
  Proof.
    unfold chardata, value_lack. destruct (ct_mixed c); [|reflexivity]. destruct (drill _ st (ct_base c)) as [base| | |]; cbn [andthen]; try discriminate.
    destruct (expr_of st base) as [g0| | |] eqn:X; cbn [andthen]; try discriminate. destruct base as [|b|n|j]; try reflexivity. destruct (b =? 0)%Z; [reflexivity|].
    unfold lacks. rewrite (expr_ret _ _ _ _ X). destruct (non_trivial b) eqn:NT; [|unfold unhelped; rewrite NT; reflexivity].
    destruct (override_for _ _ _ _ _) as [oh| | |] eqn:O; cbn [andthen]; try discriminate. rewrite (over_ret _ _ _ _ _ _ _ _ O). reflexivity.
  Qed.
  Lemma complex_fail st i c : nth_error st i = Some (DC c) -> gen_complex public fa fe helpers st i c = Fail -> exists e, complex_lack fa fe helpers st c = Some e /\ lacking (after_error st (TPtr i)) (TPtr i) e.
  Proof.
    intros E. unfold gen_complex, complex_lack. destruct (chardata public helpers st c) as [g| | |] eqn:C; cbn [andthen]; try discriminate.
    - rewrite (value_ret _ _ _ C). cbn [or_else]. cbv zeta. destruct (filter_fields fa fe (inherit st c)) as [ats els] eqn:F. cbn [fst snd].
      assert (P : complex_at (after_error st (TPtr i)) (TPtr i) (inherit st c)).
      { exists i. split; [reflexivity|]. unfold SgGen.after_error, get_c. rewrite E, C. apply set_nth_same. apply nth_error_Some. congruence. }
      assert (Fe : forall x, In x els -> In x (ct_elems (inherit st c)) /\ filtered fe x = false).
      { intros x Hx. unfold filter_fields in F. apply (f_equal snd) in F. cbn [snd] in F. rewrite <- F in Hx. apply fold_filtered in Hx as [[]|Hx]. exact Hx. }
      assert (Fa : forall x, In x ats -> In x (ct_attrs (inherit st c)) /\ filtered fa x = false).
      { intros x Hx. unfold filter_fields in F. apply (f_equal fst) in F. cbn [fst] in F. rewrite <- F in Hx. apply fold_filtered in Hx as [[]|Hx]. exact Hx. }
      set (le := fun e => lacks helpers (el_type e) (LUnknownElement (el_name e)) (fun _ => LElement (el_name e))). set (la := fun a => lacks helpers (at_type a) (LUnknownAttr (at_name a)) (fun _ => LAttr (at_name a))).
      assert (We : forall e, first le els = Some e -> lacking (after_error st (TPtr i)) (TPtr i) e).
      { intros e H. apply first_some in H as (x & Hx & H). destruct (Fe x Hx) as [Ix Nx]. apply lacks_some in H as (b & T & [(-> & N)|(-> & N)]); cbn [LackSpec.lacking];
          [split; [exact N|]|exists b; split; [exact N|]]; exists (inherit st c), x; auto. }
      assert (Wa : forall e, first la ats = Some e -> lacking (after_error st (TPtr i)) (TPtr i) e).
      { intros e H. apply first_some in H as (x & Hx & H). destruct (Fa x Hx) as [Ix Nx]. apply lacks_some in H as (b & T & [(-> & N)|(-> & N)]); cbn [LackSpec.lacking];
          [split; [exact N|]|exists b; split; [exact N|]]; exists (inherit st c), x; auto. }
      destruct (foldr (element_field _ _ _) g els) as [g1| | |] eqn:X; cbn [andthen]; try discriminate.
      + destruct (foldr (attribute_field _ _ _) g1 ats) as [g2| | |] eqn:Y; cbn [andthen]; try discriminate. intros _.
        destruct (first le els) as [e|] eqn:Q; cbn [or_else]; [eauto|]. apply foldr_fail in Y as (l1 & x & l2 & a1 & -> & _ & Y).
        destruct (attr_fail _ _ _ _ _ (LUnknownAttr (at_name x)) (fun _ => LAttr (at_name x)) Y) as (e & He). destruct (first_hit la l1 x l2 e He) as (e' & He'). exists e'. split; [exact He'|]. apply Wa. exact He'.
      + intros _. apply foldr_fail in X as (l1 & x & l2 & a1 & -> & _ & Y).
        destruct (element_fail _ _ _ _ _ (LUnknownElement (el_name x)) (fun _ => LElement (el_name x)) Y) as (e & He). destruct (first_hit le l1 x l2 e He) as (e' & He'). rewrite He'. cbn [or_else]. exists e'. split; [reflexivity|]. apply We. exact He'.
    - intros _. destruct (value_fail _ _ C) as (e & He). rewrite He. cbn [or_else]. exists e. split; [reflexivity|]. eapply lacking_grown; [apply error_grown|]. eapply value_some; eauto.
  Qed.
  Lemma root_not_fail st t : forall fuel, root_base fuel st t <> Fail.
  Proof. intros fuel. revert t. induction fuel as [|f IH]; intros t; cbn [root_base]; destruct (base_of st t); try discriminate; apply IH. Qed.
  Lemma list_fail st i s : nth_error st i = Some (DS s) -> sd_list s = true -> gen_simple_list public st i s = Fail -> exists e, list_lack public st s = Some e /\ lacking st (TPtr i) e.
  Proof.
    intros E L. assert (P : simple_at st (TPtr i) s) by (exists i; auto). unfold gen_simple_list, list_lack. destruct (expr_of st (sd_base s)) as [g| | |] eqn:X; cbn [andthen]; try discriminate.
    - assert (N : match sd_base s with TB b => if unknown b then Some (LUnknownItem b) else None | _ => None end = None).
      { destruct (sd_base s) as [|b|n|j]; try reflexivity. rewrite (expr_ret _ _ _ _ X). reflexivity. }
      rewrite N. cbn [or_else]. pose proof (root_not_fail st (sd_base s) (S (List.length st))) as NF. destruct (root_base _ st (sd_base s)) as [r| | |] eqn:R; cbn [andthen]; try discriminate; [|congruence].
      apply root_chain in R. destruct r as [|b|n|j]; try discriminate. assert (H0 : has_items st (TPtr i) s b) by (split; auto).
      destruct (list_codec b) as [c|] eqn:C.
      + destruct (body_parses c) eqn:Bp; [discriminate|]. intros _. eexists. split; [reflexivity|]. cbn [LackSpec.lacking]. exists s, b, c. auto.
      + intros _. eexists. split; [reflexivity|]. cbn [LackSpec.lacking]. split; [exact C|]. exists s. exact H0.
    - intros _. apply expr_fail in X as (b & T & U). rewrite T, U. cbn [or_else]. eexists. split; [reflexivity|]. cbn [LackSpec.lacking]. split; [apply unknown_spec; exact U|]. exists s. auto.
  Qed.
  Lemma simple_fail st i s : nth_error st i = Some (DS s) -> sd_list s = false -> gen_simple public helpers st i s = Fail -> exists e, simple_lack helpers st s = Some e /\ lacking st (TPtr i) e.
  Proof.
    intros E L. assert (P : simple_at st (TPtr i) s) by (exists i; auto). unfold gen_simple, simple_lack. destruct (sd_union s) as [|u us] eqn:U0; [|discriminate].
    assert (W : forall e, lacks helpers (sd_base s) (LUnknownBase (local_of st (sd_base s))) LBase = Some e -> lacking st (TPtr i) e).
    { intros e H. apply lacks_some in H as (b & T & [(-> & N)|(-> & N)]); cbn [LackSpec.lacking]; (split; [exact N|]); [split; [rewrite T; reflexivity|]|]; exists s; (split; [exact P|auto]). }
    destruct (expr_of st (sd_base s)) as [g| | |] eqn:X; cbn [andthen]; try discriminate.
    - destruct (sd_base s) as [|b|n|j] eqn:B; try discriminate. destruct (non_trivial b) eqn:NT; [|discriminate]. destruct (memb b helpers) eqn:M; [discriminate|]. intros _.
      destruct (lacks_hit helpers (TB b) (LUnknownBase (local_of st (TB b))) LBase b eq_refl) as (e & He); [right; unfold unhelped; rewrite NT, M; reflexivity|]. exists e. auto.
    - intros _. apply expr_fail in X as (b & T & U). destruct (lacks_hit helpers (sd_base s) (LUnknownBase (local_of st (sd_base s))) LBase b T) as (e & He); [left; exact U|]. exists e. auto.
  Qed.
  Lemma fail_told st t : gen_type st t = Fail -> exists n e, type_name st t = Some n /\ type_lack st t = Some e /\ lacking (after_error st t) t e.
  Proof.
    unfold SgGen.gen_type, LackModel.type_lack. destruct t as [|b|n|i]; try discriminate. cbn [type_name]. destruct (nth_error st i) as [[c|s]|] eqn:E; try discriminate; cbn [option_map].
    - intros H. destruct (complex_fail _ _ _ E H) as (e & He & W). eauto.
    - assert (Q : after_error st (TPtr i) = st) by (unfold SgGen.after_error, get_c; rewrite E; reflexivity). rewrite Q. destruct (sd_list s) eqn:L.
      + destruct (gen_simple_list public st i s) eqn:G; cbn [andthen]; try discriminate. intros _. destruct (list_fail _ _ _ E L G) as (e & He & W). eauto.
      + destruct (gen_simple public helpers st i s) eqn:G; cbn [andthen]; try discriminate. intros _. destruct (simple_fail _ _ _ E L G) as (e & He & W). eauto.
  Qed.
End L.
