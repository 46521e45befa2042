(* C18, C19, C20: Equal. *)
From Verif Require Import Base ScopeModel TreeModel ParseModel MarshalSpec EqualModel EqualSpec EqualProofs.

Theorem C18_equal_ignores_order_and_space :
  forall sortp, sorts_keys sortp ->
  forall a b, agree a b -> everywhere single_valued a -> everywhere distinct_children a ->
  (eheight a <= 1000)%N -> Equal sortp a b = true.
Proof. exact Equal_unordered. Qed.
Print Assumptions C18_equal_ignores_order_and_space.

(* repeated sibling names, children in the same order *)
Theorem C18_equal_same_order :
  forall sortp, sorts_keys sortp ->
  forall a b, agree_in_order a b -> everywhere single_valued a -> (eheight a <= 1000)%N ->
  Equal sortp a b = true.
Proof. exact Equal_ordered. Qed.
Print Assumptions C18_equal_same_order.

Theorem C18_equal_reflexive :
  forall sortp, sorts_keys sortp ->
  forall a, everywhere single_valued a -> (eheight a <= 1000)%N -> Equal sortp a a = true.
Proof. exact Equal_refl. Qed.
Print Assumptions C18_equal_reflexive.

(* the documentation promises to ignore sub-element order *)
Theorem C18_repeated_names_order_sensitive_refuted :
  exists a b, agree a b /\ everywhere single_valued a /\
  forall sortp, sorts_keys sortp -> Equal sortp a b = false.
Proof. exact repeated_names_order. Qed.
Print Assumptions C18_repeated_names_order_sensitive_refuted.

(* distinct names are not enough: the sort key joins namespace and local name *)
Theorem C18_joined_key_refuted :
  exists a b, agree a b /\ NoDup (map e_name (e_children a)) /\
  forall sortp, sorts_keys sortp -> Equal sortp a b = false.
Proof. exact joined_key. Qed.
Print Assumptions C18_joined_key_refuted.

Example sortp_exists : sorts_keys sortp0.
Proof. exact sortp0_sorts. Qed.
Definition docs_a := Elem (mkName "u" "r") [mkAttr (mkName "" "k") "1"; mkAttr (mkName "" "l") "2"] [mkName "u" "p"] ""
  [Elem (mkName "u" "x") [] [mkName "u" "p"] " text " []; Elem (mkName "u" "y") [] [] "" []].
Definition docs_b := Elem (mkName "u" "r") [mkAttr (mkName "" "l") "2"; mkAttr (mkName "xmlns" "q") "u"; mkAttr (mkName "" "k") "1"] [] "ignored"
  [Elem (mkName "u" "y") [] [] (bytes [226; 128; 137; 10]%N) []; Elem (mkName "u" "x") [] [] "text" []].
Example docs_equal : fst (fst (equal sortp0 3 docs_a docs_b)) = true.
Proof. vm_compute. reflexivity. Qed.
Example docs_hypotheses : everywhere single_valued docs_a /\ everywhere distinct_children docs_a /\ (eheight docs_a <= 1000)%N.
Proof.
  split; [|split].
  - constructor.
    + intros x y Hx Hy _. cbn in Hx, Hy. destruct Hx as [<-|[<-|[]]]; destruct Hy as [<-|[<-|[]]]; cbn; intros E; try reflexivity; discriminate.
    + cbn. intros c [<-|[<-|[]]]; constructor; cbn; try (intros x y []); intros c [].
  - constructor.
    + repeat constructor; cbn; intros H; [destruct H as [H|[]]; discriminate|destruct H].
    + cbn. intros c [<-|[<-|[]]]; (constructor; [apply NoDup_nil|intros c []]).
  - vm_compute. discriminate.
Qed.

Theorem C19_equal_sound :
  forall sortp, sorts_keys sortp ->
  forall a b, Equal sortp a b = true -> agree a b /\ (eheight a <= 1000)%N.
Proof. exact Equal_sound. Qed.
Print Assumptions C19_equal_sound.

Theorem C19_deep_trees_never_equal :
  forall sortp, sorts_keys sortp ->
  forall a b, (1000 < eheight a)%N -> Equal sortp a b = false.
Proof. exact Equal_deep. Qed.
Print Assumptions C19_deep_trees_never_equal.

Theorem C19_symmetry_refuted :
  exists a b, forall sortp, Equal sortp a b = true /\ Equal sortp b a = false.
Proof. exact asymmetric. Qed.
Print Assumptions C19_symmetry_refuted.

Theorem C19_repeated_attribute_refuted :
  exists a, eheight a = 0%N /\ forall sortp, Equal sortp a a = false.
Proof. exact repeated_attribute. Qed.
Print Assumptions C19_repeated_attribute_refuted.

Theorem C20_equal_only_reorders :
  forall sortp, sorts_keys sortp ->
  forall k a b r a' b', equal sortp k a b = (r, a', b') -> shuffled a a' /\ shuffled b b'.
Proof. exact equal_effect. Qed.
Print Assumptions C20_equal_only_reorders.

(* the order really changes *)
Example docs_reordered : map (fun e => nlocal (e_name e)) (e_children (snd (equal sortp0 3 docs_a docs_b))) = ["x"; "y"].
Proof. vm_compute. reflexivity. Qed.
