(* What options should do. *)
From Verif Require Import Base ScopeModel TreeModel XsdModel SgModel OptModel.
Local Open Scope string_scope.

Section Spec.
  Variables T Sp Log : Type.
  Notation opt := (opt T Sp Log).
  Notation xconf := (xconf T Sp Log).
  (* the option was made for the Config i, or for any *)
  Definition about (i : nat) (o : opt) : Prop :=
    match o with PutAttrs _ _ _ p _ | PutElems _ _ _ p _ | PutTypes _ _ _ p _ | PutPre _ _ _ p _ | PutPost _ _ _ p _ => p = i | _ => True end.
  (* it is not AllowType, and not what AllowType returns *)
  Definition ordinary (o : opt) : Prop := match o with AllowType _ _ _ _ | Disallow _ _ _ _ => False | _ => True end.
  (* it is one a user can write down *)
  Definition public_opt (o : opt) : Prop :=
    match o with
    | PutAttrs _ _ _ _ _ | PutElems _ _ _ _ _ | PutTypes _ _ _ _ _ | PutPre _ _ _ _ _ | PutPost _ _ _ _ _ | PutName _ _ _ _ | Disallow _ _ _ _ => False
    | _ => True end.
  (* calling a function that may be nil *)
  Definition run_fn {A} (f : option (A -> A)) (a : A) : A := match f with Some g => g a | None => a end.
  (* the last of the l that says something *)
  Definition latest {A B} (f : A -> option B) (l : list A) (start : B) : B := fold_left (fun b a => match f a with Some b' => b' | None => b end) l start.
  Definition allowed (a : option (list xname)) (n : xname) : Prop := match a with Some l => In n l | None => False end.
  Variable compile : string -> option ((string -> string -> string) * (string -> bool)).
  Variable soap_array_type : T -> T.
  Variable soap_array_slice : Sp -> Sp.
  Variable use_field_names : T -> T.
  (* what one option does to names, types, specs *)
  Definition renames (o : opt) (n : xname) : xname :=
    match o with Replace _ _ _ pat repl => replace_by compile pat repl n | ReplaceNames _ _ _ rx repl => local_by rx repl n | _ => n end.
  Definition transforms (o : opt) (t : T) : T :=
    match o with ProcessTypes _ _ _ fn => fn t | UseFieldNames _ _ _ => use_field_names t | HandleSOAPArrayType _ _ _ => soap_array_type t | _ => t end.
  Definition postprocesses (o : opt) (s : Sp) : Sp := match o with SOAPArrayAsSlice _ _ _ => soap_array_slice s | _ => s end.
End Spec.
