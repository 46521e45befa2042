(* An insertion sort by string key, used to instantiate "any sorting function" in examples. *)
From Verif Require Import Base.
From Coq Require Import Sorted.

Section S.
  Context {A : Type}.
  Variable key : A -> string.
  Definition key_le (a b : A) : Prop := s_leb (key a) (key b) = true.

  Fixpoint insert_by (x : A) (l : list A) : list A :=
    match l with
    | [] => [x]
    | y :: l' => if s_leb (key x) (key y) then x :: l else y :: insert_by x l'
    end.
  Fixpoint isort_by (l : list A) : list A :=
    match l with [] => [] | x :: l' => insert_by x (isort_by l') end.

  Lemma insert_by_perm x l : Permutation (x :: l) (insert_by x l).
  Proof.
    induction l as [|y l IH]; cbn; auto. destruct (s_leb (key x) (key y)); auto.
    rewrite perm_swap. constructor. auto.
  Qed.
  Lemma isort_by_perm l : Permutation l (isort_by l).
  Proof. induction l; cbn; auto. rewrite <- insert_by_perm. constructor; auto. Qed.

  Lemma insert_by_sorted x l : Sorted key_le l -> Sorted key_le (insert_by x l).
  Proof.
    induction 1 as [|y l Hs IH Hh]; cbn; [repeat constructor|].
    destruct (s_leb (key x) (key y)) eqn:E; [repeat constructor; auto|].
    constructor; auto. assert (Hyx : key_le y x).
    { unfold key_le. destruct (s_leb_total (key y) (key x)); auto. congruence. }
    destruct l as [|z l]; cbn; [constructor; auto|].
    inversion Hh; subst. destruct (s_leb (key x) (key z)); constructor; auto.
  Qed.
  Lemma isort_by_sorted l : Sorted key_le (isort_by l).
  Proof. induction l; cbn; [constructor|apply insert_by_sorted; auto]. Qed.
End S.
