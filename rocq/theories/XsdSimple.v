(* What parseSimpleType reads (xsd/parse.go:877-903). *)
From Verif Require Import Base ScopeModel TreeModel TreeSpec EqualModel EqualSpec Decimal BuiltinModel CodecModel CodecSpec CodecProofs XsdModel XsdSpec XsdProofs.
Local Open Scope string_scope.

Definition kids (root : elem) : list elem := filter (fun e => String.eqb (nspace (e_name e)) schemaNS) (e_children root).
(* the type an attribute of el names *)
Definition named_type (el : elem) (n : string) : ty := parse_type (resolve (e_scope el) n).
(* the member types of a union *)
Definition member_types (u : elem) (ts : list ty) : Prop := exists ws, words (attr u "" "memberTypes") ws /\ ts = map (named_type u) ws.
(* the children that give the type its base, and that base *)
Definition gives_base (e : elem) (b : ty) : Prop :=
  nlocal (e_name e) = "restriction" /\ b = named_type e (attr e "" "base") \/
  nlocal (e_name e) = "list" /\ b = named_type e (attr e "" "itemType") \/
  nlocal (e_name e) = "union" /\ ~ member_types e [] /\ b = TB 49.
Definition no_base (e : elem) : Prop := nlocal (e_name e) <> "restriction" /\ nlocal (e_name e) <> "list" /\ (nlocal (e_name e) = "union" -> member_types e []).
(* the last of them counts *)
Definition last_base (l : list elem) (b : ty) : Prop :=
  Forall no_base l /\ b = TNil \/ exists l1 e l2, l = (l1 ++ e :: l2)%list /\ gives_base e b /\ Forall no_base l2.

Lemma local_true e s : local_is e s = true -> nlocal (e_name e) = s.
Proof. unfold local_is. apply String.eqb_eq. Qed.
Lemma local_false e s : local_is e s = false -> nlocal (e_name e) <> s.
Proof. unfold local_is. apply String.eqb_neq. Qed.
Lemma last_base_stays l b e : last_base l b -> no_base e -> last_base (l ++ [e])%list b.
Proof.
  intros [[H ->]|[l1 [x [l2 [-> [H1 H2]]]]]] He; [left|right].
  - split; [apply Forall_app; split; [exact H|constructor; [exact He|constructor]]|reflexivity].
  - exists l1, x, (l2 ++ [e])%list. rewrite <- app_assoc. split; [reflexivity|]. split; [exact H1|]. apply Forall_app. split; [exact H2|constructor; [exact He|constructor]].
Qed.
Lemma last_base_new l e b : gives_base e b -> last_base (l ++ [e])%list b.
Proof. intros H. right. exists l, e, []. split; [reflexivity|]. split; [exact H|constructor]. Qed.
Lemma rev_last {A} (l : list A) x : rev (l ++ [x]) = x :: rev l.
Proof. rewrite rev_app_distr. reflexivity. Qed.

Section Simple.
  Variable annot : elem -> option string.
  Variables (F T : Type) (f0 : F) (t0 : T).
  Variables (pf : string -> option F) (pd pr : string -> option T) (comp : string -> bool) (msg : string -> string).
  Definition fac (l : list elem) (s : string) : list elem := filter (fun e => local_is e s) l.
  Lemma fac_snoc l e s : fac (l ++ [e]) s = (fac l s ++ if local_is e s then [e] else [])%list.
  Proof. unfold fac. rewrite filter_app. reflexivity. Qed.
  Definition restr_of (l : list elem) (r : restriction F T) : Prop :=
    match rev (fac l "restriction") with
    | [] => r = empty_restr F T f0 t0
    | e :: _ => parse_restriction annot F T f0 t0 pf pd pr comp msg e (named_type e (attr e "" "base")) = Some r
    end.
  Lemma member_nil_unique e : forall ts ts', member_types e ts -> member_types e ts' -> ts = ts'.
  Proof.
    intros ts ts' [w [Hw ->]] [w' [Hw' ->]]. apply fields_spec in Hw, Hw'. congruence.
  Qed.
  Lemma simple_type_spec tns root s : parse_simple_type annot F T f0 t0 pf pd pr comp msg tns root = Some s ->
    st_name F T s = resolve_default (e_scope root) (attr root "" "name") tns /\
    (st_anon F T s = true <-> attr root "" "_isAnonymous" = "true") /\
    (st_list F T s = true <-> exists e, In e (kids root) /\ nlocal (e_name e) = "list") /\
    (exists ms, Forall2 member_types (facets root "union") ms /\ st_union F T s = concat ms) /\
    last_base (kids root) (st_base F T s) /\
    restr_of (kids root) (st_restr F T s).
  Proof.
    unfold parse_simple_type, walk. cbv zeta.
    match goal with |- context [foldo ?f ?a _] => set (step := f) end.
    assert (G : forall l lst un r b d, foldo step (false, [], empty_restr F T f0 t0, TNil, "") l = Some (lst, un, r, b, d) ->
      (lst = true <-> exists e, In e l /\ nlocal (e_name e) = "list") /\
      (exists ms, Forall2 member_types (fac l "union") ms /\ un = concat ms) /\ last_base l b /\ restr_of l r).
    { induction l as [|e l IH] using rev_ind; intros lst un r b d.
      - cbn [foldo]. intros [= <- <- <- <- <-]. split; [split; [discriminate|intros [e [[] _]]]|]. split; [exists []; split; [constructor|reflexivity]|].
        split; [left; split; [constructor|reflexivity]|reflexivity].
      - rewrite foldo_app. destruct (foldo step _ l) as [[[[[lst0 un0] r0] b0] d0]|]; [|discriminate]. specialize (IH _ _ _ _ _ eq_refl) as [I1 [[ms [I2 I2']] [I3 I4]]].
        cbn [foldo]. unfold step at 1. rewrite !fac_snoc. unfold restr_of. rewrite fac_snoc.
        assert (LS : nlocal (e_name e) <> "list" -> (lst0 = true <-> exists x, In x (l ++ [e])%list /\ nlocal (e_name x) = "list")).
        { intros N. rewrite I1. split; intros [x [Hx Hl]]; [exists x; split; [apply in_or_app; left; exact Hx|exact Hl]|].
          apply in_app_or in Hx as [Hx|[<-|[]]]; [exists x; auto|contradiction]. }
        destruct (local_is e "restriction") eqn:L1.
        { apply local_true in L1. destruct (parse_restriction annot F T f0 t0 pf pd pr comp msg e _) as [r1|] eqn:P; cbn [option_map]; [|discriminate].
          intros [= <- <- <- <- <-]. unfold local_is at 1. rewrite L1. change (String.eqb "restriction" "union") with false. rewrite app_nil_r.
          split; [apply LS; rewrite L1; discriminate|]. split; [exists ms; auto|]. split; [apply last_base_new; left; auto|]. rewrite rev_last. exact P. }
        rewrite app_nil_r. fold (restr_of l r). destruct (local_is e "list") eqn:L2.
        { apply local_true in L2. intros [= <- <- <- <- <-]. unfold local_is at 1. rewrite L2. change (String.eqb "list" "union") with false. rewrite app_nil_r.
          split; [split; [intros _; exists e; split; [apply in_or_app; right; left; reflexivity|exact L2]|reflexivity]|]. split; [exists ms; auto|].
          split; [apply last_base_new; right; left; auto|exact I4]. }
        apply local_false in L1, L2. destruct (local_is e "union") eqn:L3.
        { apply local_true in L3. pose proof (fields_words (attr e "" "memberTypes")) as W.
          destruct (map _ (fields (attr e "" "memberTypes"))) as [|m0 ms0] eqn:M.
          - intros [= <- <- <- <- <-]. split; [apply LS; exact L2|]. assert (N : member_types e []) by (exists (fields (attr e "" "memberTypes")); split; [exact W|symmetry; exact M]).
            split; [exists (ms ++ [[]])%list; split; [apply Forall2_app; [exact I2|constructor; [exact N|constructor]]|rewrite concat_app; cbn [concat app]; rewrite app_nil_r; exact I2']|].
            split; [apply last_base_stays; [exact I3|]; split; [exact L1|]; split; [exact L2|auto]|exact I4].
          - intros [= <- <- <- <- <-]. split; [apply LS; exact L2|]. assert (N : member_types e (m0 :: ms0)) by (exists (fields (attr e "" "memberTypes")); split; [exact W|symmetry; exact M]).
            split; [exists (ms ++ [m0 :: ms0])%list; split; [apply Forall2_app; [exact I2|constructor; [exact N|constructor]]|rewrite concat_app, I2'; cbn [concat]; rewrite app_nil_r; reflexivity]|].
            split; [apply last_base_new; right; right; split; [exact L3|]; split; [|reflexivity]; intros Z; pose proof (member_nil_unique e _ _ N Z); discriminate|exact I4]. }
        rewrite app_nil_r. apply local_false in L3. assert (NB : no_base e) by (split; [exact L1|]; split; [exact L2|intros; contradiction]).
        destruct (local_is e "annotation").
        { destruct (annot e); cbn [option_map]; [|discriminate]. intros [= <- <- <- <- <-]. split; [apply LS; exact L2|]. split; [exists ms; auto|]. split; [apply last_base_stays; assumption|exact I4]. }
        intros [= <- <- <- <- <-]. split; [apply LS; exact L2|]. split; [exists ms; auto|]. split; [apply last_base_stays; assumption|exact I4]. }
    destruct (foldo step _ (filter in_schema (e_children root))) as [[[[[lst un] r] b] d]|] eqn:E; cbn [option_map]; [|discriminate]. intros [= <-].
    cbn [st_name st_anon st_list st_union st_base st_restr]. apply G in E as [G1 [G2 [G3 G4]]]. split; [reflexivity|]. split; [apply String.eqb_eq|]. exact (conj G1 (conj G2 (conj G3 G4))).
  Qed.
End Simple.
