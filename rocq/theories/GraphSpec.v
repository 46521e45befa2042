(* Specification vocabulary for dependency graphs, in terms of the history of Add calls
   (target, dependency) only. Does not mention the model. *)
From Verif Require Import Base.

Section S.
  Variable h : list (Z * Z).

  Definition edge (t d : Z) : Prop := In (t, d) h.
  Definition vertex (v : Z) : Prop := exists w, edge v w \/ edge w v.

  (* non-empty path along edges from targets to dependencies *)
  Inductive reach : Z -> Z -> Prop :=
  | reach_edge t d : edge t d -> reach t d
  | reach_step t d e : edge t d -> reach d e -> reach t e.
End S.

(* a occurs strictly before b *)
Definition before {A} (a b : A) (l : list A) : Prop :=
  exists l1 l2 l3, l = l1 ++ a :: l2 ++ b :: l3.
