(* Flattening only comes upon types that the given ones or others refer to. *)
From Verif Require Import Base SortLib ScopeModel TreeModel EqualModel Utf8 Decimal BuiltinModel CodecModel XsdModel XsdProofs TypesModel TypesSpec TypesProofs NormAttr GraphModel GenModel SgModel SgStruct SgProofs SgNames SgDecl SgExamples SgFlat SgFlatSpec SgFlatten SgGenProofs BindProofs.
Local Open Scope string_scope.

Section Reach.
  Variable P : ty -> Prop.
  Hypothesis PN : P TNil.
  Hypothesis PB : forall b, P (TB b).
  Variable names : list xname.
  Definition all_uses (st : store) : Prop := map def_name st = names /\ forall i d u, P (TPtr i) -> nth_error st i = Some d -> In u (uses d) -> P u.
  Lemma uses_put st i d0 d : all_uses st -> nth_error st i = Some d0 -> def_name d = def_name d0 -> (P (TPtr i) -> forall u, In u (uses d) -> P u) -> all_uses (set_nth i d st).
  Proof.
    intros [N A] X Nm H. split.
    - rewrite <- N. apply (set_nth_map def_name st i d d0 X Nm).
    - intros k e u Hk E Hu. rewrite (put_nth st i d0 d k X) in E. destruct (Nat.eqb k i) eqn:Q; [injection E as <-; apply Nat.eqb_eq in Q; subst k; exact (H Hk u Hu)|exact (A k e u Hk E Hu)].
  Qed.
  Lemma uses_base st t : all_uses st -> P t -> P (base_of st t).
  Proof.
    intros [_ A] Ht. destruct t as [| | |i]; cbn [base_of]; try exact PN. destruct (nth_error st i) as [d|] eqn:E; [|exact PN]. apply (A i d _ Ht E). destruct d; left; reflexivity.
  Qed.
  Lemma chain_loop_reach st : all_uses st -> forall fuel base bi chain r b, P base -> P bi -> (forall x, In x chain -> P x) -> chain_loop fuel st base bi chain = Ret (r, b) -> P b /\ forall x, In x r -> P x.
  Proof.
    intros A. induction fuel as [|f IH]; intros base bi chain r b Hb Hi Hc E; destruct base; cbn [chain_loop] in E; try discriminate; try (injection E as <- <-; auto).
    - apply IH in E; auto. intros x Hx. apply in_app_or in Hx as [Hx|[<-|[]]]; auto.
    - apply IH in E; auto; [apply uses_base; auto|]. intros x Hx. apply in_app_or in Hx as [Hx|[<-|[]]]; auto.
  Qed.
  Lemma rebase_uses st v b : all_uses st -> P b -> all_uses (rebase st v b).
  Proof.
    intros A Hb. unfold rebase. destruct v as [| | |i]; auto. destruct (get_s st i) as [s|] eqn:G; auto. apply get_s_nth in G. apply (uses_put st i (DS s)); auto. intros _ u [<-|[]]. exact Hb.
  Qed.
  Lemma rebases_uses b : P b -> forall l st, all_uses st -> all_uses (fold_left (fun st v => rebase st v b) l st).
  Proof. intros Hb. induction l as [|v l IH]; intros st A; [exact A|]. cbn [fold_left]. apply IH, rebase_uses; auto. Qed.
  Lemma simple_reach st i st' p v : all_uses st -> P (TPtr i) -> flatten_simple st i = Ret (st', p, v) -> all_uses st' /\ (forall x, In x p -> P x) /\ P v.
  Proof.
    intros A Hi. unfold flatten_simple, chain_of. destruct (chain_loop _ st _ _ []) as [[ch bi]| | |] eqn:C; cbn [andthen]; try discriminate.
    apply chain_loop_reach in C as [Hb Hc]; auto using uses_base; [|intros x []]. set (st1 := fold_left _ ch st). set (st2 := rebase st1 (TPtr i) bi).
    assert (A2 : all_uses st2) by (apply rebase_uses; auto; apply rebases_uses; auto).
    assert (Hp : forall x, In x (filter (is_simple st1) ch) -> P x) by (intros x Hx; apply filter_In in Hx as [Hx _]; auto).
    destruct (get_s st2 i) as [s|] eqn:G; [|discriminate]. apply get_s_nth in G.
    destruct (_ || _)%bool; [intros [= <- <- <-]; auto|]. destruct (non_trivial_ty _); [intros [= <- <- <-]; auto|]. destruct (simple_doc s) as [dc|].
    - intros [= <- <- <-]. split; auto. apply (uses_put st2 i (DS s)); auto. intros _ u [<-|[]]. apply (proj2 A2 i _ _ Hi G). left. reflexivity.
    - intros [= <- <- <-]. split; auto. split; auto. apply (proj2 A2 i _ _ Hi G). left. reflexivity.
  Qed.
  Lemma slot_uses c s u : slot_ty c s = Some u -> In u (uses (DC c)).
  Proof.
    intros H. right. apply in_or_app. destruct s as [j|j]; cbn [slot_ty] in H; [left|right]; (destruct (nth_error _ j) as [x|] eqn:E; [|discriminate]); cbn [option_map] in H; injection H as <-; apply in_map; exact (nth_error_In _ _ E).
  Qed.
  Lemma set_nth_in {A} (x : A) : forall l i y, In y (set_nth i x l) -> y = x \/ In y l.
  Proof. induction l as [|a l IH]; intros [|i] y H; cbn [set_nth] in H; try (destruct H; fail). - destruct H as [<-|H]; [left; reflexivity|right; right; exact H]. - destruct H as [<-|H]; [right; left; reflexivity|]. destruct (IH _ _ H); [left|right; right]; assumption. Qed.
  Lemma slot_set_uses c s v u : In u (uses (DC (slot_set c s v))) -> u = v \/ In u (uses (DC c)).
  Proof.
    cbn [uses]. destruct s as [j|j]; cbn [slot_set]; destruct (nth_error _ j) as [x|]; auto; cbn [set_fields ct_base ct_elems ct_attrs]; (intros [H|H]; [right; left; exact H|]); apply in_app_or in H as [H|H].
    - apply in_map_iff in H as (y & <- & H). apply set_nth_in in H as [->|H]; [left; reflexivity|]. right. right. apply in_or_app. left. apply in_map. exact H.
    - right. right. apply in_or_app. right. exact H.
    - right. right. apply in_or_app. left. exact H.
    - apply in_map_iff in H as (y & <- & H). apply set_nth_in in H as [->|H]; [left; reflexivity|]. right. right. apply in_or_app. right. apply in_map. exact H.
  Qed.
  Lemma ancestor_reach st t u : all_uses st -> ancestor st t u -> P t -> P u.
  Proof. intros A H. induction H as [t|t u H1 H2 IH]; auto. intros Ht. apply IH, uses_base; auto. Qed.
  Lemma grown_uses st st' : grown st st' -> all_uses st -> all_uses st'.
  Proof.
    intros Gr [N U]. split.
    - rewrite <- N. apply nth_ext_eq. intros i. rewrite !nth_error_map. exact (grown_name _ _ (TPtr i) Gr).
    - intros i d' u Hi E Hu. pose proof (nth_lt _ _ _ E) as Lt. rewrite (gr_len _ _ Gr) in Lt. destruct (nth_error st i) as [d|] eqn:E0; [|apply nth_error_None in E0; lia].
      destruct (gr_def _ _ Gr i d E0) as (d2 & E2 & D). assert (d2 = d') as -> by congruence. destruct d as [c|s], d' as [c'|s']; cbn [grown_def] in D; try contradiction.
      + destruct D as (D1 & D2 & D3 & D4). cbn [uses] in Hu. destruct Hu as [Hu|Hu]; [apply (U i (DC c) u Hi E0); left; congruence|]. destruct (D4 _ Hu) as (k & ck & Ha & Hk & Hc). apply (U k (DC ck) u); [exact (ancestor_reach st _ _ (conj N U) Ha Hi)|exact Hk|right; exact Hc].
      + subst s'. exact (U i _ u Hi E0 Hu).
  Qed.
  Variable fa : option (attribute -> bool).
  Definition safe (rec : store -> ty -> run (store * list ty * ty)) : Prop :=
    forall st t st' p v, all_uses st -> P t -> rec st t = Ret (st', p, v) -> all_uses st' /\ (forall x, In x p -> P x) /\ P v.
  Lemma visits_reach rec i : safe rec -> P (TPtr i) -> forall ss st p st' p', all_uses st -> (forall x, In x p -> P x) -> foldr (visit rec i) (st, p) ss = Ret (st', p') -> all_uses st' /\ forall x, In x p' -> P x.
  Proof.
    intros S Hi. induction ss as [|s ss IH]; intros st p st' p' A Hp; cbn [foldr]; [intros [= <- <-]; auto|]. unfold visit at 1. destruct (get_c st i) as [c|] eqn:G; [|discriminate]. apply get_c_nth in G.
    destruct (slot_ty c s) as [u|] eqn:U; [|discriminate]. destruct (rec st u) as [[[st1 p1] v]| | |] eqn:R; cbn [andthen]; try discriminate.
    destruct (S st u st1 p1 v A (proj2 A i _ u Hi G (slot_uses _ _ _ U)) R) as (A1 & H1 & Hv).
    assert (Q : forall c1, get_c st1 i = Some c1 -> foldr (visit rec i) (put_c st1 i (slot_set c1 s v), (p ++ p1 ++ [v])%list) ss = Ret (st', p') -> all_uses st' /\ forall x, In x p' -> P x).
    { intros c1 G1 H. apply get_c_nth in G1. apply (IH _ _ _ _) in H; auto.
      - apply (uses_put st1 i (DC c1)); auto; [cbn [def_name]; destruct s as [j|j]; cbn [slot_set]; destruct (nth_error _ j); reflexivity|]. intros _ x Hx. apply slot_set_uses in Hx as [->|Hx]; [exact Hv|exact (proj2 A1 i _ x Hi G1 Hx)].
      - intros x Hx. rewrite !in_app_iff in Hx. destruct Hx as [Hx|[Hx|[<-|[]]]]; auto. }
    destruct v, (get_c st1 i) as [c1|] eqn:G1; cbn [andthen]; try discriminate; intros H; exact (Q c1 eq_refl H).
  Qed.
  Lemma flatten1_reach : forall k, safe (flatten1 fa k).
  Proof.
    induction k as [|k IH]; intros st t st' p v A Ht; cbn [flatten1]; [intros [= <- <- <-]; split; auto; split; auto; intros x []|].
    destruct t as [|b|n|i]; try discriminate; [intros [= <- <- <-]; split; auto; split; auto; intros x []|]. destruct (nth_error st i) as [[c|s]|] eqn:E; [| |discriminate].
    - assert (Pb : P (ct_base c)) by (apply (proj2 A i _ _ Ht E); left; reflexivity). destruct (unpacks fa st c).
      + destruct (ct_base c) as [|b|n|j]; [intros H; exact (IH _ _ _ _ _ A Pb H)|intros [= <- <- <-]; split; auto; split; auto; intros x []|intros H; exact (IH _ _ _ _ _ A Pb H)|intros H; exact (IH _ _ _ _ _ A Pb H)].
      + destruct (foldr _ (st, []) (slots c)) as [[st1 p1]| | |] eqn:V; cbn [andthen]; try discriminate. destruct (visits_reach _ i IH Ht _ _ _ _ _ A (fun x (H : In x []) => match H return P x with end) V) as [A1 H1].
        destruct (get_c st1 i) as [c1|] eqn:G1; [|discriminate]. apply get_c_nth in G1. destruct (flatten1 fa k st1 (ct_base c1)) as [[[st2 p2] b]| | |] eqn:R; cbn [andthen]; try discriminate.
        destruct (IH _ _ _ _ _ A1 (proj2 A1 i _ _ Ht G1 (or_introl eq_refl)) R) as (A2 & H2 & Hb).
        assert (Q : forall c2, get_c st2 i = Some c2 -> all_uses (put_c st2 i (set_base c2 b)) /\ (forall x, In x (p1 ++ p2 ++ (if ct_mixed (set_base c2 b) then [b] else []))%list -> P x) /\ P (TPtr i)).
        { intros c2 G2. apply get_c_nth in G2. split; [apply (uses_put st2 i (DC c2)); auto; intros _ u [<-|Hu]; [exact Hb|exact (proj2 A2 i _ u Ht G2 (or_intror Hu))]|]. split; [|exact Ht].
          intros x Hx. rewrite !in_app_iff in Hx. destruct Hx as [Hx|[Hx|Hx]]; auto. destruct (ct_mixed _); [destruct Hx as [<-|[]]; exact Hb|destruct Hx]. }
        destruct b, (get_c st2 i) as [c2|] eqn:G2; try discriminate; intros [= <- <- <-]; exact (Q c2 eq_refl).
    - intros H. exact (simple_reach _ _ _ _ _ A Ht H).
  Qed.
  Variable ft : option (xname -> bool).
  Variable allow : option (list xname).
  Lemma names_type st t : map def_name st = names -> type_name st t = match t with TPtr i => nth_error names i | TB b => Some (b_name b) | TLink n => Some n | TNil => None end.
  Proof. intros <-. destruct t; try reflexivity. cbn [type_name]. rewrite nth_error_map. reflexivity. Qed.
  Lemma flatten_reach st types st' l : all_uses st -> (forall t n, In t types -> type_name st t = Some n -> selected ft allow n = true -> P t) ->
    flatten_types fa ft allow st types = Ret (st', l) -> all_uses st' /\ forall x, In x l -> P x.
  Proof.
    intros A Hs. unfold flatten_types.
    assert (Q : forall ts st1 p st2 p2, incl ts types -> all_uses st1 -> (forall x, In x p -> P x) -> foldr (flatten_step fa ft allow) (st1, p) ts = Ret (st2, p2) -> all_uses st2 /\ forall x, In x p2 -> P x).
    { induction ts as [|t ts IH]; intros st1 p st2 p2 I A1 Hp; cbn [foldr]; [intros [= <- <-]; auto|]. unfold flatten_step at 1. destruct (type_name st1 t) as [n|] eqn:En; [|discriminate].
      destruct (selected ft allow n) eqn:Sn; cbn [andthen]; [|apply IH; auto; intros x Hx; apply I; right; exact Hx].
      destruct (flatten1 fa SgModel.max_depth st1 t) as [[[st3 p3] v]| | |] eqn:F; cbn [andthen]; try discriminate. apply flatten1_reach in F as (A3 & H3 & Hv); auto.
      - apply IH; auto; [intros x Hx; apply I; right; exact Hx|]. intros x Hx. rewrite !in_app_iff in Hx. destruct Hx as [Hx|[Hx|Hx]]; auto. destruct v; [destruct Hx|..]; destruct Hx as [<-|[]]; exact Hv.
      - apply (Hs t n); auto; [apply I; left; reflexivity|]. rewrite (names_type st t (proj1 A)), <- (names_type st1 t (proj1 A1)). exact En. }
    destruct (foldr _ (st, []) types) as [[st2 p2]| | |] eqn:F; cbn [andthen fst snd]; try discriminate. destruct (Q _ _ _ _ _ (incl_refl _) A (fun x (H : In x []) => match H return P x with end) F) as [A2 H2].
    destruct (dedup st2 [] p2) as [l2| | |] eqn:D; cbn [andthen]; try discriminate. intros [= <- <-]. split; [exact A2|]. apply dedup_spec in D as [D _]. intros x Hx. exact (H2 x (subseq_in _ _ x D Hx)).
  Qed.
End Reach.
