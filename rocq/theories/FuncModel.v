(* Model of the rest of internal/gen/gen.go: functions (:228-362), blocks of source (:364-409) and the text
   of a file (:427-461). The Go parser, text/template, fmt.Sprintf (Body), go/format and imports.Process are
   arbitrary functions that fail or return a value; errors say what failed. *)
From Verif Require Import Base ScopeModel GenModel.
Local Open Scope string_scope.

Section Func.
  Variables (Expr Block Decl Val Err : Type).
  (* parser.ParseExpr; parser.ParseFile, which returns the declarations of a file: functions with their bodies, and others *)
  Variable parse_expr : string -> Expr + Err.
  Variable parse_file : string -> list (Block + Decl) + Err.
  (* template.New(...).Parse and Execute *)
  Variable template : string -> Val -> string + Err.

  (* gen.go:228-233 *)
  Record func := mkFunc { fn_name : string; fn_receiver : string; fn_godoc : string; fn_args : list string; fn_returns : list string; fn_err : option Err; fn_body : string }.
  (* gen.go:240-242 *)
  Definition Func (name : string) : func := mkFunc name "" "" [] [] None "".
  (* gen.go:309-312, 337-340, 343-346, 349-352, 356-359 *)
  Definition Body (s : string) (f : func) : func := mkFunc (fn_name f) (fn_receiver f) (fn_godoc f) (fn_args f) (fn_returns f) (fn_err f) s.
  Definition Returns (l : list string) (f : func) : func := mkFunc (fn_name f) (fn_receiver f) (fn_godoc f) (fn_args f) l (fn_err f) (fn_body f).
  Definition Comment (s : string) (f : func) : func := mkFunc (fn_name f) (fn_receiver f) s (fn_args f) (fn_returns f) (fn_err f) (fn_body f).
  Definition Args (l : list string) (f : func) : func := mkFunc (fn_name f) (fn_receiver f) (fn_godoc f) l (fn_returns f) (fn_err f) (fn_body f).
  Definition Receiver (s : string) (f : func) : func := mkFunc (fn_name f) s (fn_godoc f) (fn_args f) (fn_returns f) (fn_err f) (fn_body f).
  (* gen.go:316-328; an error is kept *)
  Definition BodyTmpl (t : string) (dot : Val) (f : func) : func :=
    match template t dot with
    | inl s => Body s f
    | inr e => mkFunc (fn_name f) (fn_receiver f) (fn_godoc f) (fn_args f) (fn_returns f) (Some e) (fn_body f)
    end.

  Inductive failure := Given (e : Err) | NoName | NoBody | BadType (s : string) (e : Err) | BadBody (e : Err) | NoFunction.
  (* gen.go:100-121. A field has one name or none. *)
  Definition field_of (s : string) : (option string * Expr) + failure :=
    let parts := match split2 " " s with Some (a, b) => (Some a, b) | None => (None, s) end in
    match parse_expr (snd parts) with inl e => inl (fst parts, e) | inr e => inr (BadType s e) end.
  Fixpoint FieldList (l : list string) : list (option string * Expr) + failure :=
    match l with
    | [] => inl []
    | s :: l => match field_of s with
                | inr e => inr e
                | inl f => match FieldList l with inr e => inr e | inl fs => inl (f :: fs) end
                end
    end.
  (* gen.go:397-409 *)
  Definition newline : string := String "010" "".
  Fixpoint first_block (l : list (Block + Decl)) : Block + failure :=
    match l with [] => inr NoFunction | inl b :: _ => inl b | inr _ :: l => first_block l end.
  Definition parse_block (s : string) : Block + failure :=
    match parse_file ("package tmp" ++ newline ++ "func _block() {" ++ newline ++ s ++ newline ++ "}") with
    | inr e => inr (BadBody e)
    | inl l => first_block l
    end.
  (* strings.Split(s, "\n") *)
  Fixpoint split_lines (s : string) : list string :=
    match s with
    | EmptyString => [""]
    | String c s => if Ascii.eqb c "010" then "" :: split_lines s
                    else match split_lines s with l :: ls => String c l :: ls | [] => [String c ""] end
    end.
  (* gen.go:258-264 *)
  Definition doc_comments (godoc : string) : option (list string) :=
    if String.eqb godoc "" then None else Some (map (fun l => "// " ++ l ++ newline) (split_lines godoc)).
  (* gen.go:265-271; nothing for no strings or a first one that is empty *)
  Definition fl (l : list string) : option (list (option string * Expr)) + failure :=
    match l with
    | [] => inl None
    | "" :: _ => inl None
    | _ => match FieldList l with inl fs => inl (Some fs) | inr e => inr e end
    end.
  Record decl := mkDecl { dl_doc : option (list string); dl_recv : option (list (option string * Expr)); dl_name : string; dl_params : option (list (option string * Expr)); dl_results : option (list (option string * Expr)); dl_body : Block }.
  (* gen.go:246-293; of the lists of fields, the first that fails makes for the error *)
  Definition decl_of (f : func) : decl + failure :=
    match fn_err f with
    | Some e => inr (Given e)
    | None =>
        if String.eqb (fn_name f) "" then inr NoName else
        if String.eqb (fn_body f) "" then inr NoBody else
        match fl (fn_args f) with
        | inr e => inr e
        | inl args =>
            match fl (fn_returns f) with
            | inr e => inr e
            | inl returns =>
                match fl [fn_receiver f] with
                | inr e => inr e
                | inl receiver =>
                    match parse_block (fn_body f) with
                    | inr e => inr e
                    | inl body => inl (mkDecl (doc_comments (fn_godoc f)) receiver (fn_name f) args returns body)
                    end
                end
            end
        end
    end.
  (* gen.go:364-384: the declarations, and the error *)
  Fixpoint Declarations (blocks : list string) : list (Block + Decl) * option Err :=
    match blocks with
    | [] => ([], None)
    | b :: blocks =>
        match parse_file ("package tmp" ++ newline ++ b ++ newline) with
        | inr e => ([], Some e)
        | inl l => let (ds, e) := Declarations blocks in ((l ++ ds)%list, e)
        end
    end.
  (* gen.go:386-403 *)
  Fixpoint templates (v : Val) (l : list string) : list string + Err :=
    match l with
    | [] => inl []
    | t :: l => match template t v with
                | inr e => inr e
                | inl s => match templates v l with inr e => inr e | inl ss => inl (s :: ss) end
                end
    end.
  Definition Snippets (v : Val) (l : list string) : list (Block + Decl) * option Err :=
    match templates v l with inr e => ([], Some e) | inl blocks => Declarations blocks end.

  (* gen.go:427-461. A file is its package comment and all else; the comment is taken out of it. Base(os.Args[0])
     without .exe is prog. *)
  Variable File : Type.
  Variable format_file : File -> string + Err.
  Variable process : string -> string -> string + Err.
  Record file := mkFile { fi_doc : option (list string); fi_rest : File }.
  Definition source_text (prog : string) (f : file) (body : string) : string :=
    "// Code generated by " ++ prog ++ ". DO NOT EDIT." ++ newline ++ newline ++
    String.concat "" (map (fun c => c ++ newline) (match fi_doc f with Some l => l | None => [] end)) ++ body.
  Definition FormattedSource (prog output : string) (f : file) : (string + Err) * file :=
    let f' := mkFile None (fi_rest f) in
    match format_file (fi_rest f) with
    | inr e => (inr e, f')
    | inl body => (process output (source_text prog f body), f')
    end.
  (* gen.go:205-211 *)
  Definition PackageDoc (f : file) (comments : list string) : file :=
    match comments with [] => f | _ => mkFile (Some (CommentGroup comments)) (fi_rest f) end.
End Func.
