(* Model of xmltree.Element (xmltree/xmltree.go:42-52) and its accessors. Elements are values
   here: an inductive tree. Pointers to elements are modelled by paths from the root (child
   indices); pointer graphs with sharing or cycles are in GraphElem.v, slice aliasing of
   Children in NormModel.v. *)
From Verif Require Import Base ScopeModel.

Inductive elem := Elem (name : xname) (attrs : list xattr) (scp : scope)
                       (content : string) (children : list elem).

Definition e_name (e : elem) := let (n, _, _, _, _) := e in n.
Definition e_attrs (e : elem) := let (_, a, _, _, _) := e in a.
Definition e_scope (e : elem) := let (_, _, s, _, _) := e in s.
Definition e_content (e : elem) := let (_, _, _, c, _) := e in c.
Definition e_children (e : elem) := let (_, _, _, _, c) := e in c.

Definition with_attrs (e : elem) a := Elem (e_name e) a (e_scope e) (e_content e) (e_children e).
Definition with_children (e : elem) c := Elem (e_name e) (e_attrs e) (e_scope e) (e_content e) c.
Definition with_scope (e : elem) s := Elem (e_name e) (e_attrs e) s (e_content e) (e_children e).
Definition with_name (e : elem) n := Elem n (e_attrs e) (e_scope e) (e_content e) (e_children e).

(* the test in Attr (lines 60-63), SetAttr (302-305) and Search (341-344) *)
Definition name_match (space local : string) (n : xname) : bool :=
  if negb (String.eqb (nlocal n) local) then false
  else String.eqb space "" || String.eqb space (nspace n).

(* xmltree.go:58-68 *)
Fixpoint attr_get (l : list xattr) (space local : string) : string :=
  match l with
  | [] => ""
  | v :: l' => if name_match space local (aname v) then avalue v else attr_get l' space local
  end.
Definition attr (e : elem) (space local : string) : string := attr_get (e_attrs e) space local.

(* xmltree.go:300-314 *)
Fixpoint attr_set (l : list xattr) (space local value : string) : list xattr :=
  match l with
  | [] => [mkAttr (mkName space local) value]
  | a :: l' =>
      if name_match space local (aname a) then mkAttr (aname a) value :: l'
      else a :: attr_set l' space local value
  end.
Definition set_attr (e : elem) (space local value : string) : elem :=
  with_attrs e (attr_set (e_attrs e) space local value).

(* xmltree.go:285-290 walk over 326-331 search: the closure [search] at element el reached by
   path p appends el's own path when fn holds, then visits the children in order *)
Fixpoint search_at (fn : elem -> bool) (e : elem) (p : list nat) {struct e} : list (list nat) :=
  (if fn e then [p] else []) ++
  (fix walk (l : list elem) (i : nat) {struct l} : list (list nat) :=
     match l with
     | [] => []
     | c :: l' => search_at fn c (p ++ [i]) ++ walk l' (S i)
     end) (e_children e) 0.

Fixpoint walk_search (fn : elem -> bool) (p : list nat) (l : list elem) (i : nat) : list (list nat) :=
  match l with
  | [] => []
  | c :: l' => search_at fn c (p ++ [i]) ++ walk_search fn p l' (S i)
  end.

(* xmltree.go:322-334: results are pointers, i.e. paths *)
Definition search_func (fn : elem -> bool) (root : elem) : list (list nat) :=
  walk_search fn [] (e_children root) 0.

(* xmltree.go:294-296 *)
Definition flatten_el (root : elem) : list (list nat) := search_func (fun _ => true) root.

(* xmltree.go:339-346 *)
Definition search (space local : string) (root : elem) : list (list nat) :=
  search_func (fun e => if negb (String.eqb local (nlocal (e_name e))) then false
                        else String.eqb space "" || String.eqb space (nspace (e_name e))) root.

(* following a pointer *)
Fixpoint sub (e : elem) (p : list nat) : option elem :=
  match p with
  | [] => Some e
  | i :: p' => match nth_error (e_children e) i with
               | Some c => sub c p'
               | None => None
               end
  end.

(* the elements found, for code that only reads through the pointers *)
Fixpoint search_elems (fn : elem -> bool) (e : elem) {struct e} : list elem :=
  (if fn e then [e] else []) ++
  (fix walk (l : list elem) : list elem :=
     match l with
     | [] => []
     | c :: l' => search_elems fn c ++ walk l'
     end) (e_children e).
Definition search_func_elems (fn : elem -> bool) (root : elem) : list elem :=
  flat_map (search_elems fn) (e_children root).
