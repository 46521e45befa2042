(* Model of internal/dependency/graph.go. Go ints are Z: the code only compares them.
   sync.Once / init (lines 33-35) only creates the empty map and is omitted. *)
From Verif Require Import Base.
Local Open Scope Z_scope.

(* sort.Search (Go standard library, called through sort.SearchInts at graph.go:12):
     i, j := 0, n
     for i < j { h := int(uint(i+j) >> 1); if !f(h) { i = h+1 } else { j = h } }
     return i
   [fuel] bounds the number of iterations; [len a + 1] always suffices (lemma
   [search_loop_spec] in GraphProofs). *)
Fixpoint search_loop (fuel i j : nat) (f : nat -> bool) : nat :=
  match fuel with
  | O => i
  | S fuel' =>
      if (i <? j)%nat then
        let h := Nat.div2 (i + j) in
        if negb (f h) then search_loop fuel' (S h) j f else search_loop fuel' i h f
      else i
  end.

(* sort.SearchInts(a, x) = Search(len(a), func(i) { return a[i] >= x }) *)
Definition search_ints (a : list Z) (x : Z) : nat :=
  search_loop (S (List.length a)) 0 (List.length a) (fun i => nth i a 0 >=? x).

(* graph.go:11-19 insertUnique. append(set, 0); copy(set[i+1:], set[i:]); set[i] = x
   shifts the tail by one and stores x at index i. No other slice shares the array:
   the result is stored back where the argument was read from (lines 40, 41). *)
Definition insert_unique (set : list Z) (x : Z) : list Z :=
  let i := search_ints set x in
  if (List.length set <=? i)%nat || negb (nth i set 0 =? x)
  then firstn i set ++ x :: skipn i set
  else set.

(* graph.go:22-26; the nodes map is an association list, first match wins *)
Record graph := mkGraph { g_targets : list Z; g_nodes : list (Z * list Z) }.

Definition empty_graph := mkGraph [] [].

(* Go map read: the zero value (nil slice) when absent *)
Fixpoint node_get (m : list (Z * list Z)) (k : Z) : list Z :=
  match m with
  | [] => []
  | (k', v) :: m' => if k =? k' then v else node_get m' k
  end.

(* Go map write *)
Fixpoint node_set (m : list (Z * list Z)) (k : Z) (v : list Z) : list (Z * list Z) :=
  match m with
  | [] => [(k, v)]
  | (k', v') :: m' => if k =? k' then (k, v) :: m' else (k', v') :: node_set m' k v
  end.

(* graph.go:29-31 *)
Definition g_len (g : graph) : nat := List.length (g_targets g).

(* graph.go:38-42 *)
Definition add (g : graph) (target dependency : Z) : graph :=
  mkGraph (insert_unique (g_targets g) target)
          (node_set (g_nodes g) target (insert_unique (node_get (g_nodes g) target) dependency)).

Definition memZ (x : Z) (l : list Z) : bool := existsb (Z.eqb x) l.

(* graph.go:62-70 flatten (lines 53-59 of Flatten are the same loop over g.targets).
   [vis] is the visited map; the result is the new visited map and the sequence of
   arguments fn was called with. None: out of fuel. *)
Fixpoint flat (fuel : nat) (nodes : list (Z * list Z)) (targets vis : list Z)
  : option (list Z * list Z) :=
  match fuel with
  | O => None
  | S fuel' =>
      match targets with
      | [] => Some (vis, [])
      | tgt :: rest =>
          if negb (memZ tgt vis) then
            match flat fuel' nodes (node_get nodes tgt) (tgt :: vis) with
            | None => None
            | Some (vis1, tr1) =>
                match flat fuel' nodes rest vis1 with
                | None => None
                | Some (vis2, tr2) => Some (vis2, tr1 ++ tgt :: tr2)
                end
            end
          else flat fuel' nodes rest vis
      end
  end.

(* a bound on the work: (number of edges + number of targets + 1)^2 *)
Definition g_size (g : graph) : nat :=
  S (List.length (g_targets g) + List.length (concat (map snd (g_nodes g)))).
Definition flat_fuel (g : graph) : nat := (S (g_size g) * S (g_size g))%nat.

(* graph.go:50-60 Flatten: the sequence of walk calls *)
Definition flatten (g : graph) : option (list Z) :=
  match flat (flat_fuel g) (g_nodes g) (g_targets g) [] with
  | Some (_, tr) => Some tr
  | None => None
  end.

(* a Graph is only ever built by Add calls on the zero value *)
Definition build (h : list (Z * Z)) : graph :=
  fold_left (fun g e => add g (fst e) (snd e)) h empty_graph.
