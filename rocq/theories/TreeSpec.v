(* Vocabulary for trees: paths and document order. *)
From Verif Require Import Base TreeModel.

(* p is the position of a proper descendant *)
Definition descendant (root : elem) (p : list nat) (e : elem) : Prop :=
  p <> [] /\ sub root p = Some e.

(* document order of positions: parents before children, siblings left to right *)
Inductive doc_before : list nat -> list nat -> Prop :=
| db_parent i q : doc_before [] (i :: q)
| db_left i j p q : i < j -> doc_before (i :: p) (j :: q)
| db_below i p q : doc_before p q -> doc_before (i :: p) (i :: q).
