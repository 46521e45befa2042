(* Plain schemas in documents, beside any others. *)
From Verif Require Import Base ScopeModel TreeModel TreeSpec TreeProofs ParseModel MarshalModel GraphModel BuiltinModel XsdModel NormModel NormMem NormOps NormSpec NormUnpack NormUnpackAll NormExamples NormFixed NormAgain NormKeep NormStart NormDocs NormAmong XsdparseModel XsdparseSpec XsdparseProofs.
Local Open Scope string_scope.

(* the normal form of e, where e2 has its types and optional choices *)
Definition normal_form (e t : elem) : Prop := exists e2, prepared e e2 /\ t = below expand_el e2 /\ normal t.
Definition stands_normal (fuel : nat) (h : heap) (r : ptr) (e : elem) : Prop :=
  plain e -> 3 * height e <= fuel -> exists t x, normal_form e t /\ load h r = Some x /\ rep h t x /\ height t <= fuel.
Section Plain.
  Variables (grow agrow : nat -> nat -> nat) (fuel : nat).
  Lemma plain_among h roots es h' : stands h roots es -> normalize grow agrow fuel roots h = Done h' -> Forall2 (stands_normal fuel h') roots es.
  Proof.
    intros St E. assert (X : forall i r e, nth_error roots i = Some r -> nth_error es i = Some e -> stands_normal fuel h' r e).
    { intros i r e Hr He P Hh. apply nth_error_split in Hr, He. destruct Hr as (l1 & l2 & -> & L1), He as (es1 & es2 & -> & L2).
      destruct (among grow agrow fuel h l1 r l2 es1 e es2 h' St) as (e2 & x & A1 & A2 & A3 & A4 & A5); auto; [lia|]. exists (below expand_el e2), x. split; [exists e2; auto|auto]. }
    assert (Ln : List.length roots = List.length es) by (destruct St as (xs & L & B & _); apply Forall2_len in L, B; lia).
    clear -X Ln. revert es X Ln. induction roots as [|r roots IH]; intros [|e es] X Ln; try discriminate; constructor; [apply (X 0); reflexivity|]. apply IH; [|cbn in Ln; lia]. intros i. apply (X (S i)).
  Qed.
  Lemma plain_each h roots es h' : stands h roots es -> normalize grow agrow fuel roots h = Done h' ->
    Forall2 (fun r e => plain e -> 3 * height e <= fuel -> exists e2 x, prepared e e2 /\ load h' r = Some x /\ rep h' (below expand_el e2) x /\ normal (below expand_el e2)) roots es.
  Proof.
    intros St E. pose proof (plain_among h roots es h' St E) as F. clear St E. induction F as [|r e l m R F IH]; constructor; auto. intros P H. destruct (R P H) as (t & x & (e2 & A & -> & B) & C & D & _). exists e2, x. auto.
  Qed.
  Lemma docs_plain cap_of acap_of docs h rs : workable fuel docs -> normalize_docs grow agrow cap_of acap_of fuel docs = Done (h, rs) -> Forall2 (stands_normal fuel h) rs (flat_map schemas_of docs).
  Proof.
    intros H. unfold normalize_docs. pose proof (docs_stand cap_of acap_of fuel docs H) as S. destruct (build_roots cap_of acap_of docs []) as [h0 ps]. destruct S as (qs & Eq & S). rewrite Eq.
    unfold bind. destruct (normalize grow agrow fuel (concat qs) h0) as [h1| |] eqn:En; try discriminate. intros E. injection E as <- <-. exact (plain_among _ _ _ _ S En).
  Qed.
End Plain.
Lemma normal_read fuel h r e t : stands_normal fuel h r e -> plain e -> 3 * height e <= fuel -> read_ptr fuel h r = Some t -> normal_form e t.
Proof. intros S P H. destruct (S P H) as (t' & x & N & L & R & Hh). unfold read_ptr. rewrite L, (read_rep t' fuel h x R Hh). intros E. injection E as <-. exact N. Qed.
Definition normal_if_plain (fuel : nat) (e t : elem) : Prop := plain e -> 3 * height e <= fuel -> normal_form e t.
Lemma read_normal fuel h ns filtered : forall rs es, Forall2 (root_is h) rs es -> Forall2 (stands_normal fuel h) rs es -> forall trees, mapo (read_ptr fuel h) (filter (selects ns filtered h) rs) = Some trees ->
  Forall2 (normal_if_plain fuel) (filter (fun e => negb (String.eqb ns "") && String.eqb ns (namespace_of e) || negb (existsb (String.eqb (namespace_of e)) filtered)) es) trees.
Proof.
  induction 1 as [|r e rs es H F IH]; intros B trees; cbn [filter]; [intros E; injection E as <-; constructor|]. inversion B as [|? ? ? ? B1 B2]; subst.
  assert (E : selects ns filtered h r = negb (String.eqb ns "") && String.eqb ns (namespace_of e) || negb (existsb (String.eqb (namespace_of e)) filtered)).
  { destruct H as (x & L & _ & Ha & _). unfold selects, namespace_of, attr. rewrite L. unfold nattr. rewrite Ha. reflexivity. }
  rewrite E. destruct (_ || _); [|apply IH; auto]. cbn [mapo]. destruct (read_ptr fuel h r) as [t|] eqn:Er; [|discriminate]. destruct (mapo _ _) as [ts|]; [|discriminate].
  intros E2. injection E2 as <-. constructor; [intros P Hh; eapply normal_read; eauto|auto].
Qed.
Lemma Forall2_and {A B} (R S : A -> B -> Prop) l m : Forall2 R l m -> Forall2 S l m -> Forall2 (fun a b => R a b /\ S a b) l m.
Proof. induction 1; intros X; inversion X; subst; constructor; auto. Qed.

Section Out.
  Variable sortns : list xname -> list xname.
  Variable dec : string -> stream.
  Variables grow agrow : nat -> nat -> nat.
  Variables cap_of acap_of : nat -> nat.
  Variable standard : list string.
  Variable fuel : nat.
  Notation xsdparse := (xsdparse sortns dec grow agrow cap_of acap_of standard fuel).
  Notation parses := (fun s e => parse_text sortns dec s = Some e).
  Lemma plain_output ns texts docs std out : Forall2 parses texts docs -> Forall2 parses standard std -> workable fuel (docs ++ std) -> xsdparse ns (map Some texts) = Exits out ->
    exists trees, out = printed trees /\ Forall2 (fun e t => alike e t /\ normal_if_plain fuel e t) (filter (shown ns std) (flat_map schemas_of (docs ++ std))) trees.
  Proof.
    intros Hd Hs W. unfold XsdparseModel.xsdparse. destruct (map Some texts) eqn:Em; [discriminate|]. rewrite <- Em, mapo_some. rewrite (mapo_forall _ _ _ Hs). unfold normalize_texts.
    rewrite mapo_app, (mapo_forall _ _ _ Hd), (mapo_forall _ _ _ Hs). destruct (normalize_docs _ _ _ _ _ _) as [[h rs]| |] eqn:En; try discriminate.
    destruct (mapo _ (filter _ rs)) as [trees|] eqn:Et; [|discriminate]. intros E. injection E as <-. rewrite printed_out. exists trees. split; [auto|].
    pose proof (docs_kept _ _ _ _ _ _ _ _ W En) as K. pose proof (read_all _ _ _ _ _ _ K _ Et) as R. pose proof (read_normal _ _ _ _ _ _ K (docs_plain _ _ _ _ _ _ _ _ W En) _ Et) as R2.
    erewrite filter_ext; [apply (Forall2_and _ _ _ _ R R2)|]. intros e. unfold shown. rewrite existsb_std. apply orb_comm.
  Qed.
End Out.
