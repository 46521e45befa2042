(* What Unmarshal reads of an element, and of the same element in the document it comes from. *)
From Verif Require Import Base ScopeModel TreeModel ParseModel BindModel BindSpec DocModel UnmModel.
Local Open Scope string_scope.

(* attributes that are read as declarations of prefixes *)
Definition declaration (x : xattr) : Prop := nspace (aname x) = "xmlns" \/ nlocal (aname x) = "xmlns".
Inductive without_declarations : list xattr -> list xattr -> Prop :=
| wd_nil : without_declarations [] []
| wd_skip x a b : declaration x -> without_declarations a b -> without_declarations (x :: a) b
| wd_keep x a b : ~ declaration x -> without_declarations a b -> without_declarations (x :: a) (x :: b).
(* the declaration of a prefix for a name space, as in a Scope: (name space, prefix) *)
Definition declaration_of (x : xattr) (m : xname) : Prop :=
  avalue x = nspace m /\ (nspace (aname x) = "xmlns" /\ nlocal (aname x) = nlocal m \/ nspace (aname x) <> "xmlns" /\ nlocal (aname x) = "xmlns" /\ nlocal m = "").
(* an element of a tree as a node: its children, or else its content as text; what is declared is in its scope *)
Inductive shows : elem -> node -> Prop :=
| sh_elem n a s c ch a' kids : without_declarations a' a -> (forall x, In x a' -> declaration x -> exists m, In m s /\ declaration_of x m) -> Forall2 shows ch (elements kids) -> (ch = [] -> texts kids = text_of c) -> shows (Elem n a s c ch) (NElem n a' kids).
(* two nodes that differ in declarations, and in the text beside elements *)
Inductive alike : node -> node -> Prop :=
| al_elem n a a' b kids kids' : without_declarations a b -> without_declarations a' b -> Forall2 alike (elements kids) (elements kids') -> (elements kids = [] -> texts kids = texts kids') -> alike (NElem n a kids) (NElem n a' kids').
(* the element at a path of child indices *)
Fixpoint node_at (r : node) (p : list nat) : option node :=
  match p with
  | [] => Some r
  | i :: p' => match r with
               | NElem _ _ kids => match nth_error (elements kids) i with Some k => node_at k p' | None => None end
               | NText _ => None
               end
  end.
(* text only where there are no elements *)
Inductive unmixed : node -> Prop :=
| um_elem n a kids : Forall unmixed (elements kids) -> ((exists s, In (NText s) kids) -> elements kids = []) -> unmixed (NElem n a kids).
(* these are read as declarations: all those in the scopes of el and the elements in it *)
Definition all_declared (declares : xattr -> bool) (el : elem) : Prop :=
  (forall x, declares x = true -> declaration x) /\
  forall p e m x, sub el p = Some e -> In m (e_scope e) -> declaration_of x m -> declares x = true.
(* the tree as it is written inside an element with the scope ps: declarations after the attributes *)
Definition declared_as (m : xname) : xattr := mkAttr (if String.eqb (nlocal m) "" then mkName "" "xmlns" else mkName "xmlns" (nlocal m)) (nspace m).
Fixpoint exactly (ps : scope) (el : elem) : node :=
  match el with
  | Elem n a s c ch =>
      NElem n (a ++ map declared_as (skipn (List.length ps) s))%list
        (match ch with [] => if String.eqb c "" then [] else [NText (text_of c)] | _ :: _ => map (exactly s) ch end)
  end.
(* the tokens of a node, for annotation.UnmarshalXML *)
Fixpoint node_toks (r : node) : list dtok :=
  match r with NElem n _ k => (DStart n :: flat_map node_toks k ++ [DEnd])%list | NText s => [DText s] end.
Definition kids_of (r : node) : list node := match r with NElem _ _ k => k | NText _ => [] end.
