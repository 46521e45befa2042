(* Complex types: the content that a declaration has, and its documentation. *)
From Verif Require Import Base ScopeModel TreeModel TreeSpec EqualModel EqualSpec Decimal BuiltinModel XsdModel XsdSpec SgModel DocModel DocSpec.
Local Open Scope string_scope.

(* besides annotations, c is the only schema child of root, and it is a simpleContent or a complexContent *)
Definition content (root : elem) (kind : string) (c : elem) : Prop := XsdSpec.only_child root c /\ nlocal (e_name c) = kind.
(* d is the only extension or restriction of it *)
Definition derivation (root : elem) (kind : string) (d : elem) : Prop :=
  exists c, content root kind c /\ XsdSpec.only_child c d /\ (nlocal (e_name d) = "extension" \/ nlocal (e_name d) = "restriction").
(* the paragraphs of the annotations of an element *)
Definition told_by (raw : string -> list dtok) (el : elem) : string := paragraphs (flat_map (fun a => map (said raw) (e_children a)) (DocSpec.annotations el)).
(* the simpleContents and complexContents of a declaration *)
Definition contents (root : elem) : list elem :=
  filter (fun e => String.eqb (nspace (e_name e)) schemaNS && (String.eqb (nlocal (e_name e)) "simpleContent" || String.eqb (nlocal (e_name e)) "complexContent")) (e_children root).
Definition all_of (l : list string) : string := fold_right (fun s r => s ++ r) "" l.
