(* C98: functions, blocks of source and the text of files. *)
From Verif Require Import Base ScopeModel GenModel GenSpec FuncModel FuncSpec FuncProofs FuncCalls FuncExamples.
Local Open Scope string_scope.

(* a declaration is made just when all its parts are given and can be parsed, and has these parts *)
Theorem C98_decl (Expr Block Decl Err : Type) (parse_expr : string -> Expr + Err) (parse_file : string -> list (Block + Decl) + Err) (f : func Err) (d : decl Expr Block) :
  decl_of Expr Block Decl Err parse_expr parse_file f = inl d <->
  (fn_err Err f = None /\ fn_name Err f <> "" /\ fn_body Err f <> "") /\ dl_name _ _ d = fn_name Err f /\ doc_of (fn_godoc Err f) (dl_doc _ _ d) /\
  fields_given Expr Err parse_expr (fn_args Err f) (dl_params _ _ d) /\ fields_given Expr Err parse_expr (fn_returns Err f) (dl_results _ _ d) /\ fields_given Expr Err parse_expr [fn_receiver Err f] (dl_recv _ _ d) /\
  body_given Block Decl Err parse_file (fn_body Err f) (dl_body _ _ d).
Proof. exact (decl_spec Expr Block Decl unit Err parse_expr parse_file (fun s _ => inl s) f d). Qed.
Print Assumptions C98_decl.
(* a function put together by any calls has its name and what the last call of each method said; the last error of a template stays *)
Theorem C98_calls (Val Err : Type) (template : string -> Val -> string + Err) name l f : f = fold_left (do Val Err template) l (Func Err name) ->
  fn_name Err f = name /\ says Val (body_said Val Err template) "" l (fn_body Err f) /\ says Val (error_said Val Err template) None l (fn_err Err f) /\
  says Val (args_said Val) [] l (fn_args Err f) /\ says Val (returns_said Val) [] l (fn_returns Err f) /\ says Val (comment_said Val) "" l (fn_godoc Err f) /\ says Val (receiver_said Val) "" l (fn_receiver Err f).
Proof. exact (made Val Err template name l f). Qed.
Print Assumptions C98_calls.
Example C98_calls_case : get_price = fold_left (do string unit text_template) [CComment string ("The price" ++ nl ++ "of */ an item"); CReceiver string "c *Client"; CArgs string ["ctx context.Context"; "item string"]; CTmpl string "return " "0, nil"; CReturns string ["float64"; "error"]] (Func unit "GetPrice") /\
  (exists d, decl_of_text get_price = inl d /\ dl_params _ _ d = Some [(Some "ctx", "context.Context"); (Some "item", "string")]).
Proof. split; [reflexivity|]. eexists. split; [exact get_price_decl|reflexivity]. Qed.
(* documentation cannot escape its comments *)
Theorem C98_comment (Expr Block Decl Err : Type) (parse_expr : string -> Expr + Err) (parse_file : string -> list (Block + Decl) + Err) (f : func Err) (d : decl Expr Block) c :
  decl_of Expr Block Decl Err parse_expr parse_file f = inl d -> (exists cs, dl_doc _ _ d = Some cs /\ In c cs) -> exists b, c = "// " ++ b ++ nl /\ ~ occurs "010" b.
Proof. exact (doc_lines Expr Block Decl unit Err parse_expr parse_file (fun s _ => inl s) f d c). Qed.
Print Assumptions C98_comment.
Theorem C98_error_kept_refuted : exists f b, (exists d, decl_of_text (Body unit b (Func unit "F")) = inl d) /\ f = BodyTmpl string unit text_template "" "" (Func unit "F") /\ decl_of_text (Body unit b f) = inr (Given unit tt).
Proof. exact sticky. Qed.
Print Assumptions C98_error_kept_refuted.
Theorem C98_parameters_dropped_refuted : exists d, decl_of_text (Body unit "return" (Args unit [""; "x int"] (Func unit "F"))) = inl d /\ dl_params _ _ d = None.
Proof. exact dropped. Qed.
Print Assumptions C98_parameters_dropped_refuted.
(* the declarations of all blocks, in order; those before the first block that cannot be parsed *)
Theorem C98_blocks (Block Decl Err : Type) (parse_file : string -> list (Block + Decl) + Err) bs ds o : Declarations Block Decl Err parse_file bs = (ds, o) <->
  exists dss, ds = concat dss /\
    match o with
    | None => Forall2 (block_decls Block Decl Err parse_file) bs dss
    | Some e => exists done b rest, bs = (done ++ b :: rest)%list /\ Forall2 (block_decls Block Decl Err parse_file) done dss /\ parse_file ("package tmp" ++ nl ++ b ++ nl) = inr e
    end.
Proof. exact (declarations_spec Block Decl Err parse_file bs ds o). Qed.
Print Assumptions C98_blocks.
Theorem C98_snippets (Block Decl Val Err : Type) (parse_file : string -> list (Block + Decl) + Err) (template : string -> Val -> string + Err) v ts ds : Snippets Block Decl Val Err parse_file template v ts = (ds, None) <->
  exists ss dss, Forall2 (fun t s => template t v = inl s) ts ss /\ Forall2 (block_decls Block Decl Err parse_file) ss dss /\ ds = concat dss.
Proof. exact (snippets_spec Block Decl Val Err parse_file template v ts ds). Qed.
Print Assumptions C98_snippets.
(* what is formatted: a line that says so, the package comment, one line for each of the text, and the file *)
Theorem C98_source (Err File : Type) (format_file : File -> string + Err) (process : string -> string -> string + Err) prog output f comments s f' :
  FormattedSource Err File format_file process prog output (PackageDoc File f comments) = (s, f') ->
  fi_doc _ f' = None /\ fi_rest _ f' = fi_rest _ f /\
  match format_file (fi_rest _ f) with
  | inr e => s = inr e
  | inl body => exists doc, s = process output (("// Code generated by " ++ prog ++ ". DO NOT EDIT." ++ nl ++ nl) ++ doc ++ body) /\
      (comments = [] -> fi_doc _ f = None -> doc = "") /\
      (comments <> [] -> exists ls, lines doc ls /\ (forall l, In l ls -> exists b, l = "// " ++ b) /\
         forall vss, Forall2 lines comments vss -> Forall (Forall (fun l => (N.of_nat (String.length l) < 65536)%N)) vss -> Forall2 comment_of (concat vss) ls)
  end.
Proof. exact (source_spec Err File format_file process prog output f comments s f'). Qed.
Print Assumptions C98_source.
(* the first line is what tools take for the mark of generated code, whatever the package comment says *)
Theorem C98_marked (File : Type) prog (f : file File) body : ~ occurs "010" prog -> exists ls, lines (source_text File prog f body) (("// Code generated by " ++ prog ++ ". DO NOT EDIT.") :: "" :: ls).
Proof. exact (marked_line File prog f body). Qed.
Print Assumptions C98_marked.
(* a file that has been formatted has lost its package comment *)
Theorem C98_format_again_refuted : let f := PackageDoc string (mkFile string None "package p") ["About p"] in let (s, f') := format_text "xsdgen" "p.go" f in
  s = inl ("// Code generated by xsdgen. DO NOT EDIT." ++ nl ++ nl ++ "// About p" ++ nl ++ "package p") /\ fst (format_text "xsdgen" "p.go" f') = inl ("// Code generated by xsdgen. DO NOT EDIT." ++ nl ++ nl ++ "package p").
Proof. exact twice. Qed.
Print Assumptions C98_format_again_refuted.
Example C98_case : decl_of_text get_price = inl (mkDecl string string (Some ["// The price" ++ nl; "// of */ an item" ++ nl]) (Some [(Some "c", "*Client")]) "GetPrice" (Some [(Some "ctx", "context.Context"); (Some "item", "string")]) (Some [(None, "float64"); (None, "error")])
  ("package tmp" ++ nl ++ "func _block() {" ++ nl ++ "return 0, nil" ++ nl ++ "}")).
Proof. exact get_price_decl. Qed.
Example C98_case_blocks : Snippets string unit string unit text_file text_template "T" ["type "; "var _ "] = ([inr tt; inl ("package tmp" ++ nl ++ "type T" ++ nl); inr tt; inl ("package tmp" ++ nl ++ "var _ T" ++ nl)], None) /\
  Declarations string unit unit (fun s => if String.eqb s ("package tmp" ++ nl ++ "?" ++ nl) then inr tt else text_file s) ["a"; "?"; "b"] = ([inr tt; inl ("package tmp" ++ nl ++ "a" ++ nl)], Some tt).
Proof. split; reflexivity. Qed.
