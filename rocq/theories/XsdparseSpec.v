(* What xsdparse prints. *)
From Verif Require Import Base ScopeModel TreeModel TreeSpec ParseModel MarshalModel BuiltinModel XsdModel NormModel NormOps NormStart NormDocs.
Local Open Scope string_scope.

Definition namespace_of (e : elem) : string := attr e "" "targetNamespace".
(* the schemas that are shown: all but those in a standard name space, which have to be asked for *)
Definition shown (ns : string) (std : list elem) (e : elem) : bool :=
  negb (existsb (fun s => String.eqb (namespace_of s) (namespace_of e)) std) || (negb (String.eqb ns "") && String.eqb ns (namespace_of e)).
(* each is printed on lines of its own *)
Definition printed (trees : list elem) : string := String.concat "" (map (fun t => marshal_indent t "" "  " ++ String "010" "") trees).
(* documents that can be worked on with this fuel, and have no schemas inside schemas *)
Definition workable (fuel : nat) (docs : list elem) : Prop := Forall (fun e => height e <= fuel /\ separate e) docs.
