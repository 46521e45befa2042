(* Vocabulary for pointer graphs of elements. *)
From Verif Require Import Base ScopeModel TreeModel MarshalModel MarshalSpec GraphElem.

(* every pointer leads to an element *)
Definition closed (g : graph) : Prop :=
  forall n c, n < List.length g -> In c (g_children (node g n)) -> c < List.length g.

Definition edge (g : graph) (n c : nat) : Prop := In c (g_children (node g n)).
(* n's descendants *)
Inductive below (g : graph) : nat -> nat -> Prop :=
| below_child n c : edge g n c -> below g n c
| below_step n c m : edge g n c -> below g c m -> below g n m.

(* [unfolds g n el]: following the pointers from n gives the finite tree el *)
Inductive unfolds (g : graph) : nat -> elem -> Prop :=
| unf n ch : Forall2 (unfolds g) (g_children (node g n)) ch ->
    unfolds g n (Elem (g_name (node g n)) (g_attrs (node g n)) (g_scope (node g n)) (g_content (node g n)) ch).

(* tags in which an occurrence of an ancestor is replaced by a comment *)
Inductive marked := MCycle | MTag (qname : string) (attrs : list (string * string)) (decls : scope)
                        (text : string) (children : list marked).
Fixpoint print_marked (t : marked) : string :=
  match t with
  | MCycle => "<!-- cycle detected -->"
  | MTag q attrs ds text ch =>
      match ch, text with
      | [], EmptyString => (print_open q attrs ds ++ " />")%string
      | [], _ => (print_open q attrs ds ++ ">" ++ text ++ "</" ++ q ++ ">")%string
      | _, _ => (print_open q attrs ds ++ ">" ++ String.concat "" (map print_marked ch) ++ "</" ++ q ++ ">")%string
      end
  end.

(* [shown g parent ancestors n t]: t is what n looks like below these ancestors *)
Inductive shown (g : graph) : option scope -> list nat -> nat -> marked -> Prop :=
| sh_cycle p anc n : In n anc -> shown g p anc n MCycle
| sh_node p anc n ch : ~ In n anc ->
    Forall2 (shown g (Some (g_scope (node g n))) (n :: anc)) (g_children (node g n)) ch ->
    shown g p anc n
      (MTag (prefix (g_scope (node g n)) (g_name (node g n)))
            (map (fun x => (prefix (g_scope (node g n)) (aname x), avalue x)) (g_attrs (node g n)))
            (diff_scope p (g_scope (node g n))) (g_content (node g n)) ch).
