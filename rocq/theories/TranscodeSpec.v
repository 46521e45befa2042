From Verif Require Import Base ScopeModel TreeModel ParseModel DecodeModel TranscodeModel.

(* [off_by_one u e e']: same tree; where the text of e' is u[b+1 : b+1+n], that of e is
   u[b : b+n] *)
Inductive off_by_one (u : string) : elem -> elem -> Prop :=
| obo n a s c c' ch ch' b t :
    slice u b t = Some c -> slice u (S b) (S t) = Some c' ->
    Forall2 (off_by_one u) ch ch' ->
    off_by_one u (Elem n a s c ch) (Elem n a s c' ch').

(* lines 216-231 as one would like them *)
Definition transcode (dec : ascii -> list ascii) (doc : list ascii) : list ascii := flat_map dec doc.
