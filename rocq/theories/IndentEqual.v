(* Equal on a tree and what is read back. *)
From Verif Require Import Base ScopeModel TreeModel TreeProofs ParseModel ParseSpec DecodeModel MarshalModel MarshalSpec MarshalProofs MarshalProofs2 EqualModel EqualSpec EqualProofs IndentProofs.
Local Open Scope string_scope.

Lemma reread_agrees : forall el el' ps ps', reread ps ps' el el' -> agree_in_order el el'.
Proof.
  induction el as [n a s c ch IH] using elem_ind'. intros el' ps ps' Hr.
  apply reread_inv in Hr as (ds & ds' & c' & ch' & -> & -> & _ & _ & Hc & Hch). constructor; cbn [e_name e_attrs e_children e_content]; auto.
  - intros x H _. exact H.
  - intros E. rewrite (Hc E). apply same_text_refl.
  - revert ch' Hch. generalize (ps ++ ds)%list, (ps' ++ ds')%list. intros s s'. clear Hc. induction ch as [|x ch IHl]; intros ch' Hch; inversion Hch; subst; constructor.
    + eapply IH; cbn; eauto.
    + apply IHl; auto. intros; eapply IH; cbn; eauto.
Qed.
Lemma indent_equal sortns sortp pfx ind el : sorts sortns -> sorts_keys sortp -> printable [] el -> everywhere single_valued el -> (eheight el <= 1000)%N -> spaces ind ->
  exists el' off rest, parse sortns (marshal_indent el pfx ind) (decode (marshal_indent el pfx ind)) = POk el' off rest /\ Equal sortp el el' = true.
Proof.
  intros Hs Hk Hw Hv Hh B. destruct (indent_round_trip ind B sortns pfx el Hs Hw) as (el' & off & rest & P & R); [lia|].
  exists el', off, rest. split; auto. apply Equal_ordered; auto. eapply reread_agrees; eauto.
Qed.
Lemma marshal_equal sortns sortp el : sorts sortns -> sorts_keys sortp -> printable [] el -> everywhere single_valued el -> (eheight el <= 1000)%N ->
  exists el' off, parse sortns (marshal el) (decode (marshal el)) = POk el' off [] /\ Equal sortp el el' = true.
Proof.
  intros Hs Hk Hw Hv Hh. destruct (round_trip sortns el Hs Hw) as (el' & off & P & R); [lia|].
  exists el', off. split; auto. apply Equal_ordered; auto. eapply reread_agrees; eauto.
Qed.
