(* What the methods of slices should do. *)
From Verif Require Import Base ScopeModel TreeModel XsdModel SgModel SgStruct SoapModel SliceModel.
Local Open Scope string_scope.

Section Spec.
  Variables Item Err : Type.
  Variable decode : xname -> list xattr -> list tok -> (Item + Err) * list tok.
  (* the content of an array: text and elements *)
  Inductive kid := Text | Child (n : xname) (a : list xattr) (rest : list tok).
  Definition toks (k : kid) : list tok := match k with Text => [TOther] | Child n a rest => TStart n a :: rest end.
  (* decoding the child gives r and reads exactly its tokens *)
  Definition reads (k : kid) (r : option (Item + Err)) : Prop :=
    match k with
    | Text => r = None
    | Child n a rest => exists v, r = Some v /\ forall l, decode n a (rest ++ l) = (v, l)
    end.
  Definition good_items (rs : list (option (Item + Err))) : list Item := flat_map (fun r => match r with Some (inl x) => [x] | _ => [] end) rs.
  (* what is encoded can be decoded *)
  Definition inverse (encode : xname -> Item -> xname * list xattr * list tok) (name : xname) (x : Item) : Prop :=
    let '(n, a, rest) := encode name x in forall l, decode n a (rest ++ l) = (inl x, l).
End Spec.
