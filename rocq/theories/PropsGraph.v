(* C21-C24: internal/dependency. [build h] is the graph after the Add calls in h, [flatten]
   the sequence of walk calls made by Flatten. *)
From Verif Require Import Base GraphModel GraphSpec GraphProofs.
From Coq Require Import Sorted.
Local Open Scope Z_scope.

(* C21 *)
Theorem C21_flatten_visits_every_vertex_once :
  forall h, exists tr, flatten (build h) = Some tr /\ NoDup tr /\ forall v, In v tr <-> vertex h v.
Proof. exact flatten_once. Qed.
Print Assumptions C21_flatten_visits_every_vertex_once.

(* C22 *)
Theorem C22_flatten_visits_dependencies_first :
  forall h tr t d, flatten (build h) = Some tr -> edge h t d -> before d t tr \/ reach h d t.
Proof. exact flatten_topo. Qed.
Print Assumptions C22_flatten_visits_dependencies_first.

(* C23 *)
Theorem C23_flatten_depends_on_edge_set_only :
  forall h1 h2, (forall t d, edge h1 t d <-> edge h2 t d) -> flatten (build h1) = flatten (build h2).
Proof. exact flatten_det. Qed.
Print Assumptions C23_flatten_depends_on_edge_set_only.

(* C24 *)
Theorem C24_len_counts_distinct_targets :
  forall h l, NoDup l -> (forall t, In t l <-> exists d, edge h t d) -> g_len (build h) = List.length l.
Proof. exact len_count. Qed.
Print Assumptions C24_len_counts_distinct_targets.

Theorem C24_sets_sorted_and_duplicate_free :
  forall h, Sorted Z.lt (g_targets (build h)) /\ forall t, Sorted Z.lt (node_get (g_nodes (build h)) t).
Proof. exact targets_sets. Qed.
Print Assumptions C24_sets_sorted_and_duplicate_free.

(* a graph with sharing, a cycle 3 -> 1 -> 3 and a leaf, built in two orders *)
Example graph_example :
  flatten (build [(1, 2); (3, 1); (1, 3); (5, 2); (3, 2)]) = Some [2; 3; 1; 5] /\
  flatten (build [(3, 2); (5, 2); (3, 1); (1, 3); (1, 2); (5, 2)]) = Some [2; 3; 1; 5] /\
  g_len (build [(1, 2); (3, 1); (1, 3); (5, 2); (3, 2)]) = 3%nat.
Proof. vm_compute. auto. Qed.
Example graph_cycle_reaches : reach [(1, 2); (3, 1); (1, 3)] 1 1.
Proof. eapply reach_step; [right; right; left; reflexivity|]. apply reach_edge. right; left; reflexivity. Qed.
