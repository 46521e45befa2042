(* What functions and files are to be, independent of the model. *)
From Verif Require Import Base ScopeModel GenModel GenSpec.
Local Open Scope string_scope.

Definition nl : string := String "010" "".
Section Func.
  Variables (Expr Block Decl Val Err : Type).
  Variable parse_expr : string -> Expr + Err.
  Variable parse_file : string -> list (Block + Decl) + Err.
  Variable template : string -> Val -> string + Err.
  (* a parameter, result or receiver: a name and a type, or a type alone *)
  Inductive is_field : string -> option string * Expr -> Prop :=
  | fd_named n t e : ~ occurs " " n -> parse_expr t = inl e -> is_field (n ++ " " ++ t) (Some n, e)
  | fd_type t e : ~ occurs " " t -> parse_expr t = inl e -> is_field t (None, e).
  (* all of them; none are given if the first is empty *)
  Definition fields_given (l : list string) (o : option (list (option string * Expr))) : Prop :=
    match o with
    | None => l = [] \/ exists l', l = "" :: l'
    | Some fs => (exists s l', l = s :: l' /\ s <> "") /\ Forall2 is_field l fs
    end.
  (* documentation: a comment for each line *)
  Definition doc_of (godoc : string) (o : option (list string)) : Prop :=
    match o with
    | None => godoc = ""
    | Some cs => godoc <> "" /\ exists ls, godoc = String.concat nl ls /\ Forall (fun l => ~ occurs "010" l) ls /\ Forall2 (fun l c => c = "// " ++ l ++ nl) ls cs
    end.
  (* the body is that of the first function of the source that the text is put into *)
  Definition body_given (s : string) (b : Block) : Prop := exists before after,
    parse_file ("package tmp" ++ nl ++ "func _block() {" ++ nl ++ s ++ nl ++ "}") = inl (map inr before ++ inl b :: after)%list.
  (* the declarations of a block of source *)
  Definition block_decls (s : string) (ds : list (Block + Decl)) : Prop := parse_file ("package tmp" ++ nl ++ s ++ nl) = inl ds.
End Func.
