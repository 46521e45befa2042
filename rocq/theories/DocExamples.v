(* Documentation: examples. *)
From Verif Require Import Base ScopeModel TreeModel EqualModel BuiltinModel XsdModel SgModel DocModel DocSpec.
Local Open Scope string_scope.

(* a content of text only; what is in comments is not here *)
Definition raw0 (s : string) : list dtok := match s with "" => [] | _ => [DOther; DText s] end.
Lemma raw0_untagged : forall c, untagged (raw0 c).
Proof. intros [|c s]; repeat constructor. Qed.
Definition xs_el (n c : string) (ks : list elem) : elem := Elem (mkName schemaNS n) [] [] c ks.
Definition the_text : elem := xs_el "documentation" "  A size, in metres. " [].
Definition more_text : elem := xs_el "documentation" "Never negative." [].
Definition marked_up : elem := xs_el "documentation" "See <b>below</b>." [Elem (mkName "" "b") [] [] "below" []].
Definition app_info : elem := xs_el "appinfo" "tool=1" [].
Definition annot (ks : list elem) : elem := xs_el "annotation" "" ks.
Definition sized : elem := Elem (mkName schemaNS "element") [mkAttr (mkName "" "name") "size"] [] "" [annot [the_text; more_text]; xs_el "simpleType" "" []].
Lemma sized_telling : Forall (telling raw0) (annotations sized).
Proof. constructor; [|constructor]. split; [discriminate|]. repeat constructor; discriminate. Qed.
