(* Functions and files: cases and counterexamples. An expression is any text, a function with a body is all of a file. *)
From Verif Require Import Base ScopeModel GenModel GenSpec GenProofs FuncModel FuncSpec FuncProofs.
Local Open Scope string_scope.

Definition text_expr (s : string) : string + unit := if String.eqb s "" then inr tt else inl s.
Definition text_file (s : string) : list (string + unit) + unit := inl [inr tt; inl s].
Definition text_template (t : string) (v : string) : string + unit := if String.eqb t "" then inr tt else inl (t ++ v).
Definition as_text (s : string) : string + unit := inl s.
Definition kept_text (o s : string) : string + unit := inl s.
Notation decl_of_text := (decl_of string string unit unit text_expr text_file).
Notation format_text := (FormattedSource unit string as_text kept_text).
Definition get_price : func unit := Returns unit ["float64"; "error"] (BodyTmpl string unit text_template "return " "0, nil" (Args unit ["ctx context.Context"; "item string"] (Receiver unit "c *Client" (Comment unit ("The price" ++ nl ++ "of */ an item") (Func unit "GetPrice"))))).
Lemma get_price_decl : decl_of_text get_price = inl (mkDecl string string (Some ["// The price" ++ nl; "// of */ an item" ++ nl]) (Some [(Some "c", "*Client")]) "GetPrice" (Some [(Some "ctx", "context.Context"); (Some "item", "string")]) (Some [(None, "float64"); (None, "error")])
  ("package tmp" ++ nl ++ "func _block() {" ++ nl ++ "return 0, nil" ++ nl ++ "}")).
Proof. reflexivity. Qed.
(* the error of a template is not forgotten *)
Lemma sticky : exists f b, (exists d, decl_of_text (Body unit b (Func unit "F")) = inl d) /\ f = BodyTmpl string unit text_template "" "" (Func unit "F") /\ decl_of_text (Body unit b f) = inr (Given unit tt).
Proof. exists (BodyTmpl string unit text_template "" "" (Func unit "F")), "return". split; [eexists; reflexivity|]. split; reflexivity. Qed.
(* parameters after one that is empty are not missed *)
Lemma dropped : exists d, decl_of_text (Body unit "return" (Args unit [""; "x int"] (Func unit "F"))) = inl d /\ dl_params _ _ d = None.
Proof. eexists. split; reflexivity. Qed.
(* the package comment is gone once the file is formatted *)
Lemma twice : let f := PackageDoc string (mkFile string None "package p") ["About p"] in let (s, f') := format_text "xsdgen" "p.go" f in
  s = inl ("// Code generated by xsdgen. DO NOT EDIT." ++ nl ++ nl ++ "// About p" ++ nl ++ "package p") /\ fst (format_text "xsdgen" "p.go" f') = inl ("// Code generated by xsdgen. DO NOT EDIT." ++ nl ++ nl ++ "package p").
Proof. split; reflexivity. Qed.
(* the first line is the one that tools look for *)
Lemma marked_line File prog f body : ~ occurs "010" prog -> exists ls, lines (source_text File prog f body) (("// Code generated by " ++ prog ++ ". DO NOT EDIT.") :: "" :: ls).
Proof.
  intros N. unfold source_text. set (rest := String.concat "" _ ++ body). destruct (lines_total rest) as (ls & L). exists ls.
  replace ("// Code generated by " ++ prog ++ ". DO NOT EDIT." ++ newline ++ newline ++ rest) with (("// Code generated by " ++ prog ++ ". DO NOT EDIT.") ++ String "010" ("" ++ String "010" rest)) by (rewrite !s_app_assoc; reflexivity).
  apply l_cons; [|apply l_cons; [intros (a & b & H); destruct a; discriminate|exact L]]. rewrite <- has_false in *. assert (A : forall a b, has "010" a = false -> has "010" b = false -> has "010" (a ++ b) = false).
  { intros a b Ha Hb. rewrite has_false in *. intros (u & v & H). revert u H. induction a as [|c a IH]; intros u H; [apply Hb; exists u, v; exact H|]. destruct u as [|x u]; cbn [append] in H; injection H as Hc H; [subst c; apply Ha; exists "", a; reflexivity|]. apply (IH (fun Q => Ha ltac:(destruct Q as (y & z & ->); exists (String c y), z; reflexivity)) u H). }
  apply A; [reflexivity|]. apply A; [exact N|reflexivity].
Qed.
