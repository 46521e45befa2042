(* What the documentation of an annotation is. *)
From Verif Require Import Base ScopeModel TreeModel EqualModel BuiltinModel XsdModel SgModel DocModel.
Local Open Scope string_scope.

(* a content without tags *)
Definition untagged (l : list dtok) : Prop := Forall (fun t => match t with DText _ | DOther => True | _ => False end) l.
Definition text_in (l : list dtok) : string := fold_right (fun t r => match t with DText s => s ++ r | _ => r end) "" l.
Definition is_doc (e : elem) : Prop := e_name e = mkName schemaNS "documentation".
(* what a documentation element says: the text of one without elements in it *)
Definition said (raw : string -> list dtok) (e : elem) : string :=
  match e_children e with [] => trim_space (text_in (raw (e_content e))) | _ => "" end.
(* paragraphs, with a blank line between them *)
Fixpoint paragraphs (l : list string) : string :=
  match l with
  | [] => ""
  | [x] => x
  | x :: l' => x ++ String "010" (String "010" (paragraphs l'))
  end.
(* an annotation with documentations only, none of them blank *)
Definition telling (raw : string -> list dtok) (a : elem) : Prop := e_children a <> [] /\ Forall (fun k => is_doc k /\ said raw k <> "") (e_children a).
(* the annotations of an element *)
Definition annotations (el : elem) : list elem := filter (fun e => local_is e "annotation") (filter in_schema (e_children el)).
