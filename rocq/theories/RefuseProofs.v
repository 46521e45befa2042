(* What GenCode makes of schemas that xsd.Parse refuses. *)
From Coq Require Import Permutation.
From Verif Require Import Base ScopeModel TreeModel BuiltinModel XsdModel TypesModel TypesSpec TypesProofs TypesExamples MissModel MissSpec MissProofs MissExamples SgModel SgGen SgExamples SgGenExamples PipeModel PipeExamples.
Local Open Scope string_scope.

Section Refuse.
  Variables (public : xname -> string) (fa : option (attribute -> bool)) (fe : option (element -> bool)) (ft : option (xname -> bool)) (allow : option (list xname)) (helpers : list Z) (slices : bool).
  Variables (ord : nat -> list (xname * ty) -> list (xname * ty)) (ord' : string -> list (xname * ty) -> list (xname * ty)).
  Variables (namespaces targets : list string).
  Lemma refused_iff l : gen_code public fa fe ft allow helpers slices ord ord' namespaces targets l = Ret Unparsed <-> exists m, parse_told ord l = TErr m.
  Proof.
    rewrite (proj1 (proj2 (told_reported ord l))). unfold gen_code. destruct (parse_rds ord l) as [[st parsed]| |]; split; try discriminate; auto.
    destruct (Nat.ltb _ _); [discriminate|]. destruct (gen _ _ _ _ _ _ _ _ _) as [[e|c]| | |]; discriminate.
  Qed.
  Lemma unknown_refused l k i d n : any_order ord -> In (k, TPtr i) (entries l) -> nth_error (fst (initial l)) i = Some d -> In (TLink n) (refs d) -> ~ known l n ->
    gen_code public fa fe ft allow helpers slices ord ord' namespaces targets l = Ret Unparsed \/
    gen_code public fa fe ft allow helpers slices ord ord' namespaces targets l = Panic.
  Proof.
    intros O H1 H2 H3 H4. assert (N : forall s, parse_told ord l <> TOk s) by (intros s; exact (unknown_fails l ord O k i d n s H1 H2 H3 H4)).
    destruct (parse_told ord l) as [s|m|] eqn:E; [destruct (N s eq_refl)| |].
    - left. apply refused_iff. eauto.
    - right. apply (proj2 (proj2 (told_reported ord l))) in E. unfold gen_code. rewrite E. reflexivity.
  Qed.
End Refuse.
Lemma car_refused : gen_code pub None None None None all_helpers false as_is in_order [] ["urn:a"] [no_base] = Ret Unparsed /\
  exists k i d, In (k, TPtr i) (entries [no_base]) /\ nth_error (fst (initial [no_base])) i = Some d /\ In (TLink (mkName "urn:b" "Vehicle")) (refs d) /\ ~ known [no_base] (mkName "urn:b" "Vehicle").
Proof.
  split; [vm_compute; reflexivity|]. exists (mkName "urn:a" "Car"), 0.
  eexists. split; [vm_compute; auto|]. split; [vm_compute; reflexivity|]. split; [vm_compute; auto|].
  intros [H|[(t & (k & H) & N)|[(t & H)|(ns & ref & r & [<-|[]] & _ & H)]]].
  - apply H. vm_compute. reflexivity.
  - vm_compute in H. repeat destruct H as [H|H]; try contradiction; injection H as <- <-; vm_compute in N; discriminate.
  - vm_compute in H. repeat destruct H as [H|H]; try contradiction; discriminate.
  - vm_compute in H. contradiction.
Qed.
