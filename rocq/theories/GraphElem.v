(* Elements linked by pointers. An Element's Children slice holds elements whose addresses
   &el.Children[i] are the identities the code compares (marshal.go:88, xsd/parse.go:22); two
   slices may share an array and an element may be reachable from itself. A graph gives each
   address (an index) the element's own data and the addresses of its children. *)
From Verif Require Import Base ScopeModel TreeModel ParseModel MarshalModel.

Record gnode := mkNode { g_name : xname; g_attrs : list xattr; g_scope : scope;
                         g_content : string; g_children : list nat }.
Definition graph := list gnode.
Definition no_node := mkNode (mkName "" "") [] [] "" [].
Definition node (g : graph) (n : nat) : gnode := nth n g no_node.

(* the element at an address, without its children; only the number of children is looked at
   by the tag templates *)
Definition shell (g : graph) (n : nat) : elem :=
  let d := node g n in
  Elem (g_name d) (g_attrs d) (g_scope d) (g_content d)
       (map (fun _ => Elem (mkName "" "") [] [] "" []) (g_children d)).

Definition mem (n : nat) (l : list nat) : bool := existsb (Nat.eqb n) l.

(* marshal.go:83-115; visited is the set of ancestors. None: out of fuel *)
Fixpoint encode_g (g : graph) (e : encoder) (fuel : nat) (parent : option scope) (visited : list nat) (n : nat)
  : option (list event) :=
  match fuel with
  | O => None
  | S fuel' =>
      if (recursionLimit <? N.of_nat (List.length visited))%N then Some []
      else if mem n visited then Some [Unchecked "<!-- cycle detected -->"]
      else
        let el := shell g n in
        let depth := N.of_nat (List.length visited) in
        let open := encode_open_tag e el (diff_scope parent (e_scope el)) depth in
        match g_children (node g n), g_content (node g n) with
        | [], EmptyString => Some open
        | [], c => Some (open ++ Unchecked c :: encode_close_tag e el depth)
        | cs, _ =>
            match (fix go (l : list nat) : option (list event) :=
                     match l with
                     | [] => Some []
                     | c :: l' =>
                         match encode_g g e fuel' (Some (e_scope el)) (n :: visited) c with
                         | None => None
                         | Some ev => match go l' with None => None | Some evs => Some (ev ++ evs) end
                         end
                     end) cs with
            | None => None
            | Some evs => Some (open ++ evs ++ encode_close_tag e el depth)
            end
        end
  end.

(* xsd/parse.go:15-32; visited holds the elements on the path from the root *)
Fixpoint has_cycle (g : graph) (fuel : nat) (visited : list nat) (n : nat) : option bool :=
  match fuel with
  | O => None
  | S fuel' =>
      (fix loop (l : list nat) : option bool :=
         match l with
         | [] => Some false
         | c :: l' =>
             if mem c (n :: visited) then Some true
             else match has_cycle g fuel' (n :: visited) c with
                  | Some false => loop l'
                  | r => r
                  end
         end) (g_children (node g n))
  end.
