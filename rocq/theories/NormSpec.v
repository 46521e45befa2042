(* What the passes of Normalize should do, on trees. *)
From Verif Require Import Base ScopeModel TreeModel TreeSpec BuiltinModel XsdModel NormModel NormMem.
Local Open Scope string_scope.

(* The roots are the trees es, each in memory of its own. *)
Definition stands (h : heap) (roots : list ptr) (es : list elem) : Prop :=
  exists xs, Forall2 (fun p x => load h p = Some x) roots xs /\ Forall2 (rep h) es xs /\ NoDup roots /\
    NoDup (foots h es xs) /\ forall p, In p roots -> ~ In (fst p) (foots h es xs).

(* Position by position: e' has the elements of e with the same names, scopes and contents, and
   the attributes of each of them satisfy P (position, element before, attributes after). *)
Definition only_attrs (P : list nat -> elem -> list xattr -> Prop) (e e' : elem) : Prop :=
  forall q, match sub e q, sub e' q with
            | Some d, Some d' => e_name d' = e_name d /\ e_scope d' = e_scope d /\ e_content d' = e_content d /\ P q d (e_attrs d')
            | None, None => True
            | _, _ => False
            end.

(* default types: elements and attributes below the root with no type, or an empty one *)
Definition untyped (local : string) (q : list nat) (d : elem) : Prop := q <> [] /\ e_name d = xs local /\ attr d "" "type" = "".
Definition typed_by (local any : string) (q : list nat) (d : elem) (after : list xattr) : Prop :=
  (untyped local q d -> after = attr_set (e_attrs d) "" "type" (prefix (e_scope d) (xs any))) /\
  (~ untyped local q d -> after = e_attrs d).
Definition defaulted (q : list nat) (d : elem) (after : list xattr) : Prop :=
  (untyped "attribute" q d -> after = attr_set (e_attrs d) "" "type" (prefix (e_scope d) (xs "anySimpleType"))) /\
  (untyped "element" q d -> after = attr_set (e_attrs d) "" "type" (prefix (e_scope d) (xs "anyType"))) /\
  (~ untyped "attribute" q d -> ~ untyped "element" q d -> after = e_attrs d).

(* what a choice makes optional: its children, and those of a sequence directly inside it *)
Definition choice_at (e : elem) (s : list nat) : Prop := exists d, descendant e s d /\ e_name d = xs "choice".
Definition named_at (e : elem) (s : list nat) (n : xname) : Prop := exists d, sub e s = Some d /\ e_name d = n.
Definition optional_at (e : elem) (q : list nat) : Prop :=
  (exists s i, q = (s ++ [i])%list /\ choice_at e s /\ ~ named_at e (s ++ [i])%list (xs "sequence")) \/
  (exists s i j, q = (s ++ [i; j])%list /\ choice_at e s /\ named_at e (s ++ [i])%list (xs "sequence")).
Definition made_optional (e : elem) (q : list nat) (d : elem) (after : list xattr) : Prop :=
  (optional_at e q -> after = attr_set (e_attrs d) "" "minOccurs" "0") /\
  (~ optional_at e q -> after = e_attrs d).

(* expanding the short form of complex types: the children that stay, and the others, which
   go into complexContent/restriction. A complexType directly inside one that is expanded is
   only moved. *)
Definition stays (d : elem) : bool := negb (String.eqb (nspace (e_name d)) schemaNS) || String.eqb (nlocal (e_name d)) "annotation".
Definition content_el (d : elem) : bool := xname_eqb (e_name d) (xs "simpleContent") || xname_eqb (e_name d) (xs "complexContent").
Definition shorthand (e : elem) : bool := xname_eqb (e_name e) (xs "complexType") && negb (existsb content_el (e_children e)).
Definition long_form (n : xname) (a : list xattr) (s : scope) (ks : list elem) : elem :=
  Elem n a s "" (filter stays ks ++
    [Elem (xs "complexContent") [] s ""
      [Elem (xs "restriction") [mkAttr (mkName "" "base") (prefix s (xs "anyType"))] s "" (filter (fun k => negb (stays k)) ks)]])%list.
Fixpoint expand_el (e : elem) : elem :=
  let '(Elem n a s c ks) := e in
  if shorthand e then long_form n a s (map (fun k => let '(Elem n' a' s' c' ks') := k in Elem n' a' s' c' (map expand_el ks')) ks)
  else Elem n a s c (map expand_el ks).
Definition below (f : elem -> elem) (e : elem) : elem := with_children e (map f (e_children e)).
(* as schemas are: no complexType directly inside another *)
Definition no_nested_ct (e : elem) : Prop :=
  forall q d k, sub e q = Some d -> e_name d = xs "complexType" -> In k (e_children d) -> e_name k <> xs "complexType".

(* groups: each is replaced by its children *)
Definition group_el (d : elem) : bool := xname_eqb (e_name d) (xs "group") || xname_eqb (e_name d) (xs "attributeGroup").
Definition has_groups (d : elem) : bool := existsb group_el (e_children d).
Fixpoint unpack_el (e : elem) : elem :=
  let '(Elem n a s c ks) := e in
  Elem n a s c (flat_map (fun k => if group_el k then let '(Elem _ _ _ _ ks') := k in map unpack_el ks' else [unpack_el k]) ks).
(* no group is directly inside a group, nor in a sibling or in a child of one *)
Definition groups_apart (e : elem) : Prop :=
  forall q d k, descendant e q d -> has_groups d = true -> In k (e_children d) ->
  has_groups k = false /\ (group_el k = true -> forall k', In k' (e_children k) -> has_groups k' = false).
