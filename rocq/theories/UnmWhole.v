(* Parts of a document, read as values of the types of a generated file. *)
From Verif Require Import Base ScopeModel TreeModel EqualModel BuiltinModel XsdModel TypesModel TypesSpec GenModel SgModel SgStruct SgTags SgFlatSpec SgExpandSpec SgGen SgGenSpec SgOrderSpec SgShapeSpec BindModel BindSpec BindGenSpec WholeSpec WholeBind.
From Verif Require Import ParseModel ParseSpec DecodeModel MarshalSpec UnmModel UnmSpec UnmProofs.
Local Open Scope string_scope.

Lemma whole_unmarshal (public : xname -> string) (exported : string -> bool) (declares : xattr -> bool) (fa : option (attribute -> bool)) (fe : option (element -> bool)) (ft : option (xname -> bool)) (allow : option (list xname))
    (helpers : list Z) (h : nat -> nat) (st : store) (schemas : list (list ty)) :
  (forall b, non_trivial b = true -> memb b helpers = true) -> (forall a t, filtered fa (retype_at a t) = filtered fa a) -> (forall e t, filtered fe (retype_el e t) = filtered fe e) ->
  generable h st -> wild_named st -> firm fa st -> (forall i, h i <= N.to_nat 1000) -> (forall types t, In types schemas -> In t types -> known st t) -> go_names public ->
  exists c, gen public fa fe ft allow helpers false st schemas = Ret (inr c) /\ (clear_code public exported declares fa fe st (co_decls c) ->
    forall (Leaf : Type) (print : string -> Leaf -> string) (read : string -> Leaf -> string -> option Leaf) (zero_leaf : string -> Leaf) (is_empty : string -> Leaf -> bool) (zero : gexpr -> val Leaf) (good : string -> Leaf -> Prop) (clean : string -> string),
    zero_ok (structs_of (co_decls c)) Leaf zero_leaf zero ->
    (forall from to x, marshaled_as from to -> good to x -> read to (zero_leaf from) (clean (print to x)) = Some x) ->
    (forall t x, good t x -> is_empty t x = true -> x = zero_leaf t) ->
    forall n v name d, has_type (structs_of (co_decls c)) Leaf good (EId n) v ->
      exists y, BindModel.marshal exported (structs_of (co_decls c)) Leaf print is_empty v name (EId n) = [y] /\ (unmixed y ->
        forall sortns data el off rest p sel r r', sorts sortns -> parse sortns data (decode data) = POk el off rest -> sub el p = Some sel -> printable [] sel -> all_declared declares sel ->
        seen data = Some r -> node_at r p = Some r' -> reads_back declares clean d y r' ->
        exists y', unmarshal_sees sel = Some y' /\ unmarshal exported (structs_of (co_decls c)) Leaf read zero y' (EId n) (zero (EId n)) = Some v)).
Proof.
  intros H1 H2 H3 G W F Hb K Gn. destruct (whole_round_trip public exported declares fa fe ft allow helpers h st schemas H1 H2 H3 G W F Hb K Gn) as (c & Ec & R). exists c. split; [exact Ec|].
  intros Cl Leaf print read zero_leaf is_empty zero good clean Z C E n v name d T. destruct (R Cl Leaf print read zero_leaf is_empty zero good clean Z C E n v name d T) as (y & Ey & U). exists y. split; [exact Ey|].
  intros Um sortns data el off rest p sel r r' Hs P Hp Wr AD Er Er' Rb. destruct (unmarshal_reads sortns data el off rest p sel declares clean d y Hs P Hp Wr AD Um r r' Er Er' Rb) as (y' & E1 & E2). exists y'. split; [exact E1|]. exact (U y' E2).
Qed.
