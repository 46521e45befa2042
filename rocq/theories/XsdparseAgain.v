(* xsdparse on what it has printed. *)
From Verif Require Import Base ScopeModel ScopeSpec ScopeProofs TreeModel TreeProofs ParseModel ParseSpec ParseProofs DecodeModel DecodeProofs MarshalModel MarshalSpec MarshalProofs MarshalProofs2 IndentProofs IndentRest.
From Verif Require Import TreeSpec BuiltinModel XsdModel NormModel NormMem NormOps NormSpec NormUnpack NormUnpackAll NormExpand NormFixed NormAgain NormKeep NormStart NormDocs NormAmong NormPlainDocs NormReread NormRereadNormal XsdparseModel XsdparseSpec XsdparseProofs.
Local Open Scope string_scope.

(* what a plain schema is turned into can be written, and read as a normal form *)
Lemma normal_form_printable e t : plain e -> printable [] e -> normal_form e t -> printable [] t.
Proof. intros P W (e2 & Pr & -> & N). assert (G : good []) by (intros ? []). apply below_printable; auto; [exact (prepared_printable e e2 [] Pr G W)|]. exact (pl_flat e2 (proj1 (prepared_plain e e2 Pr P))). Qed.
Lemma normal_form_tidy e t : plain e -> tidy [] e -> normal_form e t -> tidy [] t.
Proof. intros P W (e2 & Pr & -> & N). apply below_tidy; [exact (prepared_tidy [] e e2 Pr W)|]. exact (pl_flat e2 (proj1 (prepared_plain e e2 Pr P))). Qed.
Lemma normal_form_height e t : plain e -> normal_form e t -> height t <= 3 * height e.
Proof. intros P (e2 & Pr & -> & N). destruct (prepared_plain e e2 Pr P) as (P2 & <-). exact (below_height e2 (pl_flat e2 P2)). Qed.
Lemma normal_form_plain e t : plain e -> normal_form e t -> plain t.
Proof. intros P (e2 & Pr & -> & N). apply below_plain; auto. exact (proj1 (prepared_plain e e2 Pr P)). Qed.
Lemma normal_form_same e t : normal e -> normal_form e t -> t = e.
Proof. intros N (e2 & Pr & -> & _). rewrite (prepared_same e e2 N Pr). apply below_same, N. Qed.
Lemma reread_all e e' : reread [] [] e e' -> mirrors e e'.
Proof. intros R q. exact (reread_mirrors q e e' [] [] R (fun x H => H)). Qed.
Lemma mirrors_height : forall e e', mirrors e e' -> height e' = height e.
Proof.
  assert (X : forall n e e', height e <= n -> mirrors e e' -> height e' = height e); [|intros e e'; exact (X (height e) e e' (le_n _))].
  induction n as [|n IH]; intros e e' Hn M; [rewrite height_eq in Hn; lia|]. rewrite (height_eq e), (height_eq e'). rewrite height_eq in Hn. f_equal. apply le_S_n in Hn.
  pose proof (fun i q => M (i :: q)) as K. cbn [sub] in K. revert Hn K. generalize (e_children e) (e_children e'). clear M. induction l as [|k l IHl]; intros [|k' l'] Hn K; auto; [specialize (K 0 []); destruct K|specialize (K 0 []); destruct K|].
  cbn [heights] in *. rewrite (IH k k') by (lia || exact (K 0)). rewrite (IHl l') by (lia || exact (fun i => K (Datatypes.S i))). auto.
Qed.

(* the tree t, formatted and followed by anything, is read as a tree in normal form that is formatted the same *)
Lemma written_normal sortns e t tail : sorts sortns -> plain e -> printable [] e -> tidy [] e -> 3 * height e <= 3000 -> normal_form e t ->
  exists t', parse_text sortns decode (marshal_indent t "" "  " ++ tail) = Some t' /\ plain t' /\ normal t' /\ height t' <= 3 * height e /\ e_name t' = e_name t /\ e_attrs t' = e_attrs t /\ forall pfx ind, marshal_indent t' pfx ind = marshal_indent t pfx ind.
Proof.
  intros Hs P W T H N. pose proof (normal_form_printable e t P W N) as W'. pose proof (normal_form_tidy e t P T N) as T'. pose proof (normal_form_height e t P N) as H'. pose proof (eheight_height _ t (le_n _)) as H2.
  assert (Hh : (eheight t <= 3000)%N) by lia. destruct (indent_then "  " sortns "" t tail eq_refl Hs W' Hh) as (t' & off & rest & E & R). exists t'. unfold parse_text. rewrite E. split; [auto|]. pose proof (reread_all t t' R) as M.
  split; [exact (mirror_plain t t' M (normal_form_plain e t P N))|]. split; [apply (mirror_normal t t' M); destruct N as (e2 & _ & -> & N); exact N|]. split; [rewrite (mirrors_height t t' M); exact H'|].
  pose proof (M []) as M0. cbn [sub] in M0. split; [apply M0|]. split; [apply M0|]. intros pfx ind. pose proof (reread_height _ _ _ _ R) as Hr. rewrite !marshal_indent_print by (rewrite ?Hr; auto). rewrite !print_istr. do 2 f_equal. apply tidy_indent; auto.
Qed.

Section Again.
  Variable sortns : list xname -> list xname.
  Variables grow agrow : nat -> nat -> nat.
  Variables cap_of acap_of : nat -> nat.
  Variable standard : list string.
  Variable fuel : nat.
  Notation xsdparse := (xsdparse sortns decode grow agrow cap_of acap_of standard fuel).
  Notation parses := (fun s e => parse_text sortns decode s = Some e).

  Lemma only_one ns e std : e_name e = xs "schema" -> (forall s, In s std -> e_name s = xs "schema" /\ namespace_of s <> namespace_of e /\ namespace_of s <> ns) ->
    filter (shown ns std) (flat_map schemas_of ([e] ++ std)) = [e].
  Proof.
    intros Ne Hs. assert (One : forall d, e_name d = xs "schema" -> schemas_of d = [d]) by (intros d Hd; unfold schemas_of, is_schema; rewrite Hd; reflexivity).
    assert (All : flat_map schemas_of ([e] ++ std) = e :: std). { cbn [app flat_map]. rewrite (One e Ne). cbn [app]. f_equal. assert (F : forall s, In s std -> e_name s = xs "schema") by (intros s X; apply (Hs s X)). clear -One F. induction std as [|s l IH]; auto. cbn [flat_map]. rewrite (One s) by (apply F; left; auto). cbn [app]. f_equal. apply IH. intros z Hz. apply F. right. auto. }
    rewrite All. cbn [filter]. assert (Se : shown ns std e = true).
    { unfold shown. assert (X : existsb (fun s => String.eqb (namespace_of s) (namespace_of e)) std = false); [|rewrite X; reflexivity]. destruct (existsb _ std) eqn:E; auto. apply existsb_exists in E. destruct E as (s & Is & Es). apply String.eqb_eq in Es. destruct (Hs s Is) as (_ & Hn & _). contradiction. }
    rewrite Se. f_equal. assert (F : forall s, In s std -> shown ns std s = false).
    { intros s Is. unfold shown. apply orb_false_iff. split; [apply negb_false_iff, existsb_exists; exists s; split; [auto|apply String.eqb_refl]|]. apply andb_false_iff. right. apply String.eqb_neq. intros X. destruct (Hs s Is) as (_ & _ & Hn). congruence. }
    clear -F. revert F. generalize (shown ns std). intros f F. induction std as [|s l IH]; auto. cbn [filter]. rewrite (F s) by (left; auto). apply IH. intros z Hz. apply F. right. auto.
  Qed.
  Lemma output_again ns text e std out out2 : sorts sortns -> parse_text sortns decode text = Some e -> Forall2 parses standard std -> workable fuel std ->
    plain e -> printable [] e -> tidy [] e -> 9 * height e <= fuel -> 3 * height e <= 3000 ->
    (forall s, In s std -> e_name s = xs "schema" /\ namespace_of s <> namespace_of e /\ namespace_of s <> ns) ->
    xsdparse ns [Some text] = Exits out -> xsdparse ns [Some out] = Exits out2 -> out2 = out.
  Proof.
    intros Hs Ht Hstd Ws P W T Hf H3 Ns E1 E2. assert (Wk : forall d, e_name d = xs "schema" -> height d <= fuel -> workable fuel ([d] ++ std)).
    { intros d Nd Hd. constructor; [|exact Ws]. split; [exact Hd|]. intros X. unfold is_schema in X. rewrite Nd in X. discriminate X. }
    assert (Run : forall txt d o, parse_text sortns decode txt = Some d -> plain d -> 3 * height d <= fuel -> (forall s, In s std -> e_name s = xs "schema" /\ namespace_of s <> namespace_of d /\ namespace_of s <> ns) -> xsdparse ns [Some txt] = Exits o ->
      exists t, o = marshal_indent t "" "  " ++ newline /\ normal_form d t /\ e_attrs t = e_attrs d).
    { intros txt d o Hp Pd Hd Nd Eo. destruct (plain_output sortns decode grow agrow cap_of acap_of standard fuel ns [txt] [d] std o) as (trees & -> & F); auto; [apply Wk; [exact (pl_schema d Pd)|lia]|].
      rewrite (only_one ns d std (pl_schema d Pd) Nd) in F. inversion F as [|? t ? l (A & B) F2 X1 X2]; subst. inversion F2; subst. exists t. split; [unfold printed; reflexivity|]. split; [exact (B Pd Hd)|apply A]. }
    destruct (Run text e out Ht P ltac:(lia) Ns E1) as (t & -> & N & A1). destruct (written_normal sortns e t newline Hs P W T H3 N) as (t' & Hp & P' & N' & H' & _ & A' & M).
    destruct (Run _ t' out2 Hp P' ltac:(lia)) as (t2 & -> & N2 & _); [|exact E2|rewrite (normal_form_same t' t2 N' N2); rewrite M; reflexivity].
    intros s Is. destruct (Ns s Is) as (X & Y & Z). split; [exact X|]. split; [|exact Z]. unfold namespace_of, attr in *. rewrite A', A1. exact Y.
  Qed.
End Again.
