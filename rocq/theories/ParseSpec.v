(* Documents, their token streams and the tree Parse is expected to return. *)
From Verif Require Import Base ScopeModel TreeModel ParseModel.
From Coq Require Import Sorted.

(* an element of a document: name and attributes of the start tag, position just after the
   start tag, contained items, position just after the end tag *)
Inductive doc := Doc (name : xname) (attrs : list xattr) (o_start : nat) (items : list item) (o_end : nat)
with item := IElem (d : doc) | IOther (off : nat).

Fixpoint doc_toks (d : doc) : stream :=
  match d with
  | Doc n a o items o' => (TStart n a, o) :: flat_map item_toks items ++ [(TEnd n, o')]
  end
with item_toks (i : item) : stream :=
  match i with
  | IElem d => doc_toks d
  | IOther o => [(TOther, o)]
  end.

(* nesting depth of elements below this one *)
Fixpoint height (d : doc) : N :=
  match d with
  | Doc _ _ _ items _ =>
      fold_right (fun i h => match i with IElem d' => N.max (1 + height d') h | IOther _ => h end) 0%N items
  end.

Definition item_off (i : item) : nat :=
  match i with IElem (Doc _ _ _ _ o) => o | IOther o => o end.

(* position where the end tag starts: after the last item, or after the start tag *)
Definition end_pos (o_start : nat) (items : list item) : nat := last (map item_off items) o_start.

(* Namespaces in XML: xmlns:p="u" declares prefix p, xmlns="u" the default namespace. The
   Decoder presents these attributes as {xmlns, p} and {"", xmlns}. *)
Definition ns_decl (a : xattr) : option xname :=
  match aname a with
  | mkName "xmlns" p => Some (mkName (avalue a) p)
  | mkName "" "xmlns" => Some (mkName (avalue a) "")
  | _ => None
  end.
Definition xml_decls (attrs : list xattr) : list xname :=
  flat_map (fun a => match ns_decl a with Some d => [d] | None => [] end) attrs.
Definition xml_attrs (attrs : list xattr) : list xattr :=
  filter (fun a => match ns_decl a with Some _ => false | None => true end) attrs.

(* no attribute such as p:xmlns="..." (local name xmlns in another namespace) *)
Definition plain_attr (a : xattr) : bool :=
  match ns_decl a with Some _ => true | None => negb (String.eqb (nlocal (aname a)) "xmlns") end.
Fixpoint plain (d : doc) : bool :=
  match d with
  | Doc _ a _ items _ =>
      forallb plain_attr a &&
      forallb (fun i => match i with IElem d' => plain d' | IOther _ => true end) items
  end.

Section Tree.
  Variable data : string.
  (* how declarations and other attributes are read off a tag: [xml_decls], [xml_attrs] *)
  Variable decls : list xattr -> list xname.
  Variable others : list xattr -> list xattr.

  (* declarations of one tag in the order of URI+prefix (equal keys in any order) *)
  Definition sorted_decls (attrs : list xattr) (ds : list xname) : Prop :=
    Permutation (decls attrs) ds /\
    Sorted (fun a b => s_leb (nspace a ++ nlocal a) (nspace b ++ nlocal b) = true) ds.

  (* [tree_of s d e]: e is the tree of d inside a parent whose scope is s *)
  Inductive tree_of : scope -> doc -> elem -> Prop :=
  | tree_of_doc s n a o items o' ds c ch :
      sorted_decls a ds ->
      slice data o (end_pos o items) = Some c ->
      trees_of (s ++ ds) items ch ->
      tree_of s (Doc n a o items o') (Elem n (others a) (s ++ ds) c ch)
  with trees_of : scope -> list item -> list elem -> Prop :=
  | trees_nil s : trees_of s [] []
  | trees_other s o items ch : trees_of s items ch -> trees_of s (IOther o :: items) ch
  | trees_elem s d e items ch :
      tree_of s d e -> trees_of s items ch -> trees_of s (IElem d :: items) (e :: ch).

  (* all content slices are within the buffer *)
  Inductive fits : doc -> Prop :=
  | fits_doc n a o items o' :
      o <= end_pos o items -> end_pos o items <= String.length data ->
      (forall d, In (IElem d) items -> fits d) -> fits (Doc n a o items o').
End Tree.

(* what sort.Sort guarantees *)
Definition sorts (sortns : list xname -> list xname) : Prop :=
  forall l, Permutation l (sortns l) /\
            Sorted (fun a b => s_leb (nspace a ++ nlocal a) (nspace b ++ nlocal b) = true) (sortns l).

(* tokens before the root element *)
Definition no_start (pre : stream) : Prop :=
  forall n a o, ~ In (TStart n a, o) pre.
