(* Reading a formatted document that is followed by something else. *)
From Verif Require Import Base ScopeModel ScopeSpec ScopeProofs TreeModel TreeProofs ParseModel ParseSpec ParseProofs DecodeModel DecodeProofs MarshalModel MarshalSpec MarshalProofs MarshalProofs2 IndentProofs.
Local Open Scope string_scope.

Lemma indent_then ind sortns pfx el tail : spaces ind -> sorts sortns -> printable [] el -> (eheight el <= 3000)%N ->
  exists el' off rest, parse sortns (marshal_indent el pfx ind ++ tail) (decode (marshal_indent el pfx ind ++ tail)) = POk el' off rest /\ reread [] [] el el'.
Proof.
  intros B Hs Hw Hh. rewrite marshal_indent_print by auto. rewrite print_istr. cbn [times append]. rewrite <- sapp_assoc.
  set (data := istr ind 0 [] el ++ newline ++ tail).
  assert (E : decode data = (doc_toks (idoc ind (String.length data) 0 [] el (String.length (newline ++ tail))) ++ tokens (String.length data) [] [] (raws (newline ++ tail)))%list).
  { unfold decode. change (raw_tokens (S (String.length data)) data) with (raws data).
    pose proof (idoc_tokens ind B (String.length data) el 0 [] [] (newline ++ tail) Hw) as H. fold data in H. rewrite H by (intros ? []). reflexivity. }
  destruct (parse_complete sortns data Hs (idoc ind (String.length data) 0 [] el (String.length (newline ++ tail))) [] (tokens (String.length data) [] [] (raws (newline ++ tail)))) as (el' & off & P & T).
  - intros ? ? ? [].
  - apply idoc_fits. unfold data. rewrite (slen_app (istr ind 0 [] el)). lia.
  - rewrite idoc_height. auto.
  - exists el', off, (tokens (String.length data) [] [] (raws (newline ++ tail))). rewrite E. cbn [app] in P. split; auto.
    eapply (idoc_reread ind data el 0 [] [] "" (newline ++ tail)); auto.
Qed.
