(* What the errors of xsdgen tell. *)
From Verif Require Import Base ScopeModel TreeModel EqualModel BuiltinModel XsdModel TypesModel GenModel SgModel SgStruct SgTags SgProofs SliceModel SgGen NormAttr MissText LackModel LackSpec.
Local Open Scope string_scope.

Lemma memb_in b l : memb b l = true <-> In b l.
Proof. unfold memb. rewrite existsb_exists. split; [intros (x & Hx & E); apply Z.eqb_eq in E; subst; exact Hx|intros H; exists b; split; [exact H|apply Z.eqb_refl]]. Qed.
Lemma unknown_spec b : unknown b = true <-> no_type b.
Proof. unfold unknown, no_type. destruct (builtin_expr b) as [|[g|]]; split; congruence. Qed.
Lemma unhelped_spec helpers b : unhelped helpers b = true <-> no_help helpers b.
Proof.
  unfold unhelped, no_help. rewrite Bool.andb_true_iff, Bool.negb_true_iff. rewrite <- Bool.not_true_iff_false, memb_in. reflexivity.
Qed.
Lemma fold_filtered {A} (f : option (A -> bool)) x : forall l acc, In x (fold_left (fun l a => if filtered f a then l else (l ++ [a])%list) l acc) <-> In x acc \/ In x l /\ filtered f x = false.
Proof.
  induction l as [|a l IH]; intros acc; cbn [fold_left]; [cbn; tauto|]. rewrite IH. cbn [In]. destruct (filtered f a) eqn:E.
  - split; [tauto|]. intros [H|([<-|H] & F)]; [tauto|congruence|tauto].
  - rewrite in_app_iff. cbn [In]. split; [intros [[H|[<-|[]]]|H]; tauto|]. tauto.
Qed.
Lemma foldr_fail {A B} (f : A -> B -> run A) l : forall a, foldr f a l = Fail -> exists l1 x l2 a1, l = (l1 ++ x :: l2)%list /\ foldr f a l1 = Ret a1 /\ f a1 x = Fail.
Proof.
  induction l as [|b l IH]; intros a; cbn [foldr]; [discriminate|]. destruct (f a b) as [a'| | |] eqn:E; cbn [andthen]; intros H; try discriminate.
  - destruct (IH a' H) as (l1 & x & l2 & a1 & -> & F & X). exists (b :: l1), x, l2, a1. split; [reflexivity|]. split; [|exact X]. cbn [foldr]. rewrite E. exact F.
  - exists [], b, l, a. auto.
Qed.
Lemma foldr_each {A B} (f : A -> B -> run A) l : forall a a', foldr f a l = Ret a' -> forall x, In x l -> exists a1 a2, f a1 x = Ret a2.
Proof.
  induction l as [|b l IH]; intros a a'; cbn [foldr]; [intros _ x []|]. destruct (f a b) as [a1| | |] eqn:E; cbn [andthen]; intros H; try discriminate.
  intros x [<-|Hx]; eauto.
Qed.
Lemma first_none {A B} (f : A -> option B) l : (forall x, In x l -> f x = None) -> first f l = None.
Proof. induction l as [|a l IH]; intros H; [reflexivity|]. cbn [first]. rewrite (H a (or_introl eq_refl)). apply IH. intros x Hx. apply H. right. exact Hx. Qed.
Lemma first_some {A B} (f : A -> option B) l e : first f l = Some e -> exists x, In x l /\ f x = Some e.
Proof. induction l as [|a l IH]; cbn [first]; [discriminate|]. destruct (f a) eqn:E; [intros H; injection H as ->; exists a; split; [left; reflexivity|exact E]|]. intros H. destruct (IH H) as (x & Hx & X). exists x. split; [right; exact Hx|exact X]. Qed.
Lemma first_hit {A B} (f : A -> option B) l1 x l2 e : f x = Some e -> exists e', first f (l1 ++ x :: l2)%list = Some e'.
Proof. intros H. induction l1 as [|a l IH]; cbn [app first]; [rewrite H; eauto|]. destruct (f a); eauto. Qed.

Section L.
  Variable public : xname -> string.
  Variable fa : option (attribute -> bool).
  Variable fe : option (element -> bool).
  Variable ft : option (xname -> bool).
  Variable allow : option (list xname).
  Variable helpers : list Z.
  Notation expr_of := (expr_of public).
  Notation override_for := (override_for public helpers).
  Notation lacking := (lacking public fa fe helpers).
  Notation gen_type := (gen_type public fa fe helpers).
  Notation type_lack := (type_lack public fa fe helpers).
  Notation after_error := (after_error public helpers).

  Lemma expr_fail st t : expr_of st t = Fail -> exists b, t = TB b /\ unknown b = true.
  Proof. destruct t; cbn [SgStruct.expr_of]; try (destruct (type_name st _); discriminate). unfold unknown. destruct (builtin_expr _) as [|[g|]] eqn:E; try discriminate. intros _. eexists. split; [reflexivity|]. rewrite E. reflexivity. Qed.
  Lemma expr_ret st b e : expr_of st (TB b) = Ret e -> unknown b = false.
  Proof. cbn [SgStruct.expr_of]. unfold unknown. destruct (builtin_expr b) as [|[g|]]; congruence. Qed.
  Lemma over_fail st t d n tag : override_for st t d n tag = Fail -> exists b, t = TB b /\ unhelped helpers b = true.
  Proof.
    unfold SgStruct.override_for. destruct (negb _ || _)%bool; [|discriminate]. unfold expr_string. destruct (expr_of st t); cbn [andthen]; try discriminate;
      (destruct t as [|b|m|i]; try discriminate; unfold unhelped; destruct (non_trivial b) eqn:N; [|discriminate]; destruct (memb b helpers) eqn:M; [discriminate|]; intros _; exists b; split; [reflexivity|rewrite N, M; reflexivity]).
  Qed.
  Lemma over_ret st b d n tag r : override_for st (TB b) d n tag = Ret r -> unhelped helpers b = false.
  Proof.
    unfold SgStruct.override_for, unhelped. cbn [non_trivial_ty]. destruct (non_trivial b) eqn:N; [|reflexivity]. rewrite Bool.orb_true_r.
    destruct (expr_string _ _ _) as [s| | |]; cbn [andthen]; try discriminate. destruct (memb b helpers); [reflexivity|discriminate].
  Qed.
  Lemma lacks_some {A} t (u h : Z -> A) e : lacks helpers t u h = Some e -> exists b, t = TB b /\ (e = u b /\ no_type b \/ e = h b /\ no_help helpers b).
  Proof.
    unfold lacks. destruct t as [|b|n|i]; try discriminate. destruct (unknown b) eqn:U; [intros H; injection H as <-; apply unknown_spec in U; eauto|].
    destruct (unhelped helpers b) eqn:V; [|discriminate]. intros H. injection H as <-. apply unhelped_spec in V. eauto.
  Qed.
  Lemma lacks_hit {A} t (u h : Z -> A) b : t = TB b -> unknown b = true \/ unhelped helpers b = true -> exists e, lacks helpers t u h = Some e.
  Proof. intros -> H. unfold lacks. destruct (unknown b); [eauto|]. destruct (unhelped helpers b); [eauto|]. destruct H; discriminate. Qed.
  Lemma element_fail {A} st g x (u h : Z -> A) : element_field public helpers st g x = Fail -> exists e, lacks helpers (el_type x) u h = Some e.
  Proof.
    unfold element_field. destruct (expr_of st (el_type x)) as [b0| | |] eqn:E; cbn [andthen]; try discriminate.
    - destruct (element_name _ _ _) as [tk nm]. destruct (override_for _ _ _ _ _) as [oh| | |] eqn:O; cbn [andthen]; try discriminate. intros _. apply over_fail in O as (b & T & V). eapply lacks_hit; eauto.
    - intros _. apply expr_fail in E as (b & T & V). eapply lacks_hit; eauto.
  Qed.
  Lemma attr_fail {A} st g x (u h : Z -> A) : attribute_field public helpers st g x = Fail -> exists e, lacks helpers (at_type x) u h = Some e.
  Proof.
    unfold attribute_field. destruct (expr_of st (at_type x)) as [b0| | |] eqn:E; cbn [andthen]; try discriminate.
    - destruct (attribute_name _ _ _) as [tk nm]. destruct (override_for _ _ _ _ _) as [oh| | |] eqn:O; cbn [andthen]; try discriminate. intros _. apply over_fail in O as (b & T & V). eapply lacks_hit; eauto.
    - intros _. apply expr_fail in E as (b & T & V). eapply lacks_hit; eauto.
  Qed.
  Lemma element_ret st g x g' b : element_field public helpers st g x = Ret g' -> el_type x = TB b -> unknown b = false /\ unhelped helpers b = false.
  Proof.
    unfold element_field. intros H T. rewrite T in H. destruct (expr_of st (TB b)) as [b0| | |] eqn:E; cbn [andthen] in H; try discriminate.
    destruct (element_name _ _ _) as [tk nm]. destruct (override_for _ _ _ _ _) as [oh| | |] eqn:O; cbn [andthen] in H; try discriminate. split; [eapply expr_ret; eauto|eapply over_ret; eauto].
  Qed.
  Lemma attr_ret st g x g' b : attribute_field public helpers st g x = Ret g' -> at_type x = TB b -> unknown b = false /\ unhelped helpers b = false.
  Proof.
    unfold attribute_field. intros H T. rewrite T in H. destruct (expr_of st (TB b)) as [b0| | |] eqn:E; cbn [andthen] in H; try discriminate.
    destruct (attribute_name _ _ _) as [tk nm]. destruct (override_for _ _ _ _ _) as [oh| | |] eqn:O; cbn [andthen] in H; try discriminate. split; [eapply expr_ret; eauto|eapply over_ret; eauto].
  Qed.
  Lemma drill_chain st : forall fuel t v, drill fuel st t = Ret v -> is_simple st v = false -> chain_to (fun u => negb (is_simple st u)) st t v.
  Proof.
    induction fuel as [|f IH]; intros t v; cbn [drill]; intros H S0.
    - destruct (base_of st t) eqn:B; [destruct t; try discriminate; injection H as <-; apply chain_end; exact B|..]; destruct (is_simple st t) eqn:I0; try discriminate; injection H as <-; congruence.
    - destruct (base_of st t) eqn:B; [destruct t; try discriminate; injection H as <-; apply chain_end; exact B|..]; destruct (is_simple st t) eqn:I0; try (injection H as <-; congruence);
        (apply chain_more; [congruence|rewrite I0; reflexivity|rewrite B; apply IH; assumption]).
  Qed.
  Lemma chain_drill st t v : chain_to (fun u => negb (is_simple st u)) st t v -> forall fuel w, drill fuel st t = Ret w -> w = v.
  Proof.
    induction 1 as [t B|t v B O C IH]; intros fuel w H.
    - destruct fuel; cbn [drill] in H; rewrite B in H; destruct t; congruence.
    - apply Bool.negb_true_iff in O. destruct fuel; cbn [drill] in H; destruct (base_of st t) eqn:E; try congruence; rewrite O in H; try discriminate; eapply IH; exact H.
  Qed.
  Lemma root_chain st : forall fuel t v, root_base fuel st t = Ret v -> chain_to (fun _ => true) st t v.
  Proof.
    induction fuel as [|f IH]; intros t v; cbn [root_base]; destruct (base_of st t) eqn:B; intros H; try discriminate; try (injection H as <-; apply chain_end; exact B);
      (apply chain_more; [congruence|reflexivity|rewrite B; apply IH; exact H]).
  Qed.
  Lemma chain_root st t v : chain_to (fun _ => true) st t v -> forall fuel w, root_base fuel st t = Ret w -> w = v.
  Proof.
    induction 1 as [t B|t v B O C IH]; intros fuel w H.
    - destruct fuel; cbn [root_base] in H; rewrite B in H; congruence.
    - destruct fuel; cbn [root_base] in H; destruct (base_of st t) eqn:E; try congruence; try discriminate; eapply IH; exact H.
  Qed.
End L.
