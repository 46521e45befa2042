(* C15 and C31: pointer graphs of elements. *)
From Verif Require Import Base SortLib ScopeModel TreeModel ParseModel ParseSpec MarshalModel MarshalSpec MarshalProofs MarshalProofs2 GraphElem GraphElemSpec GraphElemProofs.
Local Open Scope string_scope.

(* a root with two children; the second child's children are the root's own slice *)
Definition g_shared : graph :=
  [ mkNode (mkName "" "root") [] [] "" [1; 2];
    mkNode (mkName "" "leaf") [] [] "x" [];
    mkNode (mkName "" "loop") [] [] "" [1; 2] ].
(* sharing without a cycle *)
Definition g_dag : graph :=
  [ mkNode (mkName "" "root") [] [] "" [1; 2; 1];
    mkNode (mkName "" "x") [] [] "" [3];
    mkNode (mkName "" "y") [] [] "" [3; 3];
    mkNode (mkName "" "leaf") [] [] "t" [] ].

Theorem C15_encode_terminates :
  forall g e n, exists evs, forall fuel, N.to_nat 3002 <= fuel -> encode_g g e fuel None [] n = Some evs.
Proof. exact encode_terminates. Qed.
Print Assumptions C15_encode_terminates.

Theorem C15_acyclic_graph_as_tree :
  forall g e n el fuel, unfolds g n el -> (eheight el <= 3000)%N -> N.to_nat 3002 <= fuel ->
  encode_g g e fuel None [] n = Some (encode e None 0 el).
Proof. exact encode_acyclic. Qed.
Print Assumptions C15_acyclic_graph_as_tree.

Example dag_unfolds : exists el, unfolds g_dag 0 el /\ (eheight el <= 3000)%N /\
  marshal el = "<root><x><leaf>t</leaf></x><y><leaf>t</leaf><leaf>t</leaf></y><x><leaf>t</leaf></x></root>".
Proof.
  eexists. split.
  - repeat (constructor; cbn).
  - split; [vm_compute; discriminate|vm_compute; reflexivity].
Qed.

Theorem C15_cycles_become_comments :
  forall g n, closed g -> n < List.length g -> (N.of_nat (List.length g) <= 3000)%N ->
  exists t evs, shown g None [] n t /\
    (forall fuel, N.to_nat 3002 <= fuel -> encode_g g (mkEncoder "" "" false) fuel None [] n = Some evs) /\
    output evs = print_marked t.
Proof. exact encode_cyclic. Qed.
Print Assumptions C15_cycles_become_comments.

Example shared_closed : closed g_shared.
Proof. intros [|[|[|n]]] c Hn; cbn in *; intuition lia. Qed.
Example shared_example :
  option_map output (encode_g g_shared (mkEncoder "" "" false) 10 None [] 0) =
  Some "<root><leaf>x</leaf><loop><leaf>x</leaf><!-- cycle detected --></loop></root>".
Proof. vm_compute. reflexivity. Qed.

(* two different trees with the same output: levels beyond 3000 are dropped without an error *)
Theorem C15_deep_trees_truncated_refuted :
  exists e1 e2, (3000 < eheight e1)%N /\ e1 <> e2 /\ marshal e1 = marshal e2.
Proof. exact truncated. Qed.
Print Assumptions C15_deep_trees_truncated_refuted.

Theorem C15_parsed_trees_not_truncated :
  forall sortns data ts el off rest, sorts sortns -> parse sortns data ts = POk el off rest ->
  (eheight el <= 3000)%N.
Proof. exact parsed_height. Qed.
Print Assumptions C15_parsed_trees_not_truncated.

Theorem C31_has_cycle_exact :
  forall g n, closed g -> n < List.length g ->
  exists b, (forall fuel, List.length g <= fuel -> has_cycle g fuel [] n = Some b) /\
    (b = true <-> exists m, (m = n \/ below g n m) /\ below g m m).
Proof. exact has_cycle_spec. Qed.
Print Assumptions C31_has_cycle_exact.

Example has_cycle_shared : has_cycle g_shared 3 [] 0 = Some true /\ has_cycle g_dag 4 [] 0 = Some false.
Proof. vm_compute. auto. Qed.
Example dag_closed : closed g_dag.
Proof. intros [|[|[|[|n]]]] c Hn; cbn in *; intuition lia. Qed.
