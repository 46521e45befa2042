(* What it means for two trees to agree. *)
From Verif Require Import Base ScopeModel TreeModel ParseModel EqualModel.
From Coq Require Import Sorted.

(* what sort.Sort guarantees: the keys are permuted into order *)
Definition sorts_keys (sortp : list string -> list nat) : Prop :=
  forall ks, Permutation (seq 0 (List.length ks)) (sortp ks) /\
    Sorted (fun x y => s_leb x y = true) (map (fun i => nth i ks "") (sortp ks)).

(* [blank w]: a string of white space characters *)
Inductive blank : string -> Prop :=
| bl_nil : blank ""
| bl_cons c s : In c white -> blank s -> blank (c ++ s).

(* the same text up to surrounding white space *)
Definition same_text (a b : string) : Prop :=
  exists core w1 w2 w3 w4, blank w1 /\ blank w2 /\ blank w3 /\ blank w4 /\
    a = (w1 ++ core ++ w2)%string /\ b = (w3 ++ core ++ w4)%string.

(* every attribute of b, other than namespace declarations, is an attribute of a *)
Definition attrs_in (b a : elem) : Prop :=
  forall x, In x (e_attrs b) -> is_decl x = false -> In x (e_attrs a).

(* a attribute name does not occur with two values *)
Definition single_valued (a : elem) : Prop :=
  forall x y, In x (e_attrs a) -> In y (e_attrs a) -> is_decl x = false -> aname x = aname y -> avalue x = avalue y.

(* b agrees with a: same names, b's attributes among a's, same leaf text, children pairwise
   up to order *)
Inductive agree : elem -> elem -> Prop :=
| ag a b l : e_name a = e_name b -> attrs_in b a ->
    List.length (e_children a) = List.length (e_children b) ->
    (e_children a = [] -> same_text (e_content a) (e_content b)) ->
    Permutation (e_children b) l -> Forall2 agree (e_children a) l ->
    agree a b.

(* the same, with children in the same order *)
Inductive agree_in_order : elem -> elem -> Prop :=
| ago a b : e_name a = e_name b -> attrs_in b a ->
    (e_children a = [] -> same_text (e_content a) (e_content b)) ->
    Forall2 agree_in_order (e_children a) (e_children b) ->
    agree_in_order a b.

Inductive everywhere (P : elem -> Prop) : elem -> Prop :=
| ev e : P e -> (forall c, In c (e_children e) -> everywhere P c) -> everywhere P e.

(* siblings have different names; since the sort key is Space+Local, these strings must differ *)
Definition distinct_children (e : elem) : Prop := NoDup (map ekey (e_children e)).

(* [shuffled a a']: a' is a with the children of every element permuted *)
Inductive shuffled : elem -> elem -> Prop :=
| shuf n at_ s c ch l ch' : Forall2 shuffled ch l -> Permutation l ch' ->
    shuffled (Elem n at_ s c ch) (Elem n at_ s c ch').
