From Verif Require Import Base EqualModel EqualSpec Utf8 GenModel GenSpec GenProofs.
Local Open Scope string_scope.

(* ===== C58 ===== *)
Theorem C58_never_a_keyword : forall s, ~ keyword (Sanitize s).
Proof. exact sanitize_not_keyword. Qed.
Print Assumptions C58_never_a_keyword.

Theorem C58_others_unchanged : forall s, ~ keyword s -> Sanitize s = s.
Proof. exact sanitize_other. Qed.
Print Assumptions C58_others_unchanged.

(* exactly which names are confused *)
Theorem C58_collisions : forall s t, Sanitize s = Sanitize t <->
  s = t \/ (keyword s /\ t = s ++ "_") \/ (keyword t /\ s = t ++ "_").
Proof. exact sanitize_collide. Qed.
Print Assumptions C58_collisions.

Example C58_ex : Sanitize "type" = "type_" /\ Sanitize "type_" = "type_" /\ Sanitize "Type" = "Type".
Proof. split; [|split]; reflexivity. Qed.

(* ===== C59 ===== *)
Theorem C59_quoted_denotes : forall is_print, printable_table is_print -> forall s, denotes (quote is_print s) s.
Proof. exact quote_ok. Qed.
Print Assumptions C59_quoted_denotes.

Theorem C59_literal_denotes : forall is_print, printable_table is_print -> forall s,
  denotes (String_ is_print s) s <-> (occurs """" s -> ~ occurs "`" s -> ~ occurs "013" s /\ source s).
Proof. exact string_denotes. Qed.
Print Assumptions C59_literal_denotes.

(* a literal has one meaning *)
Theorem C59_one_meaning : forall l v v', denotes l v -> denotes l v' -> v = v'.
Proof. exact denotes_fun. Qed.
Print Assumptions C59_one_meaning.

Theorem C59_all_strings_refuted :
  ~ (forall is_print, printable_table is_print -> forall s, denotes (String_ is_print s) s).
Proof. exact string_loses_cr. Qed.
Print Assumptions C59_all_strings_refuted.

Definition ascii_print (r : N) : bool := ((32 <=? r) && (r <? 127))%N.
Example ascii_table : printable_table ascii_print.
Proof. unfold printable_table, ascii_print. lia. Qed.
Example C59_ex : quote ascii_print ("a""\" ++ bytes [10; 195; 169; 255; 0]%N) = """a\""\\\n\u00e9\xff\x00""" /\
  String_ ascii_print "xml:""a""" = "`xml:""a""`".
Proof. split; reflexivity. Qed.

(* ===== C60 ===== *)
Theorem C60_every_line_is_a_comment : forall comments t, In t (CommentGroup comments) ->
  (exists b, t = "// " ++ b) /\ ~ occurs "010" t.
Proof. exact comment_lines. Qed.
Print Assumptions C60_every_line_is_a_comment.

(* nothing is lost when every line is shorter than 64 KB *)
Theorem C60_text_kept : forall v ls, lines v ls -> Forall (fun l => (N.of_nat (String.length l) < 65536)%N) ls ->
  Forall2 comment_of ls (CommentGroup [v]).
Proof. exact comments_all. Qed.
Print Assumptions C60_text_kept.

(* otherwise the text from the first longer line on is lost *)
Theorem C60_text_cut : forall v ls l ls', lines v (ls ++ l :: ls')%list ->
  Forall (fun l => (N.of_nat (String.length l) < 65536)%N) ls -> (65536 <= N.of_nat (String.length l))%N ->
  Forall2 comment_of ls (CommentGroup [v]).
Proof. exact comments_cut. Qed.
Print Assumptions C60_text_cut.

Theorem C60_lines_total : forall v, exists ls, lines v ls.
Proof. exact lines_total. Qed.
Print Assumptions C60_lines_total.

Theorem C60_in_order : forall vs, CommentGroup vs = flat_map (fun v => CommentGroup [v]) vs.
Proof. exact comments_concat. Qed.
Print Assumptions C60_in_order.

Theorem C60_text_after_a_long_line_refuted : exists v, CommentGroup [v ++ String "010" "note"] = [].
Proof. exact comments_lost. Qed.
Print Assumptions C60_text_after_a_long_line_refuted.

Example C60_ex : CommentGroup ["  a*/ b" ++ bytes [13; 10; 10; 32; 99]%N; ""; "d"] = ["// a*/ b"; "// "; "// c"; "// d"].
Proof. reflexivity. Qed.

(* ===== C61 ===== *)
Theorem C61_struct_fields : forall args fs, Struct args = Some fs <->
  List.length args = 3 * List.length fs /\
  forall i f, nth_error fs i = Some f ->
    exists name typ tag, nth_error args (3 * i) = Some name /\ nth_error args (3 * i + 1) = Some typ /\
      nth_error args (3 * i + 2) = Some tag /\ name_of name (f_names f) /\ f_type f = typ /\ tag_of tag (f_tag f).
Proof. exact struct_spec. Qed.
Print Assumptions C61_struct_fields.

Example C61_ex : exists fs, Struct [Some (Ident "A"); Some (Other 1); Some (BasicLit "`x`"); None; None; None] = Some fs /\ List.length fs = 2.
Proof. eexists. split; reflexivity. Qed.
Example C61_ex_panics : Struct [Some (Ident "A"); None] = None /\ Struct [Some (Other 0); None; None] = None.
Proof. split; reflexivity. Qed.

(* ===== C62 ===== *)
Theorem C62_one_rule : forall compiles r s r' ok, rule_set compiles r s = (r', ok) <->
  (ok = true /\ exists a b from to, first_split "->" s a b /\ trimmed_of a from /\ trimmed_of b to /\
     compiles from = true /\ r' = (r ++ [(from, to)])%list) \/
  (ok = false /\ r' = r /\ forall a b from, first_split "->" s a b -> trimmed_of a from -> compiles from = false).
Proof. exact rule_set_spec. Qed.
Print Assumptions C62_one_rule.

Theorem C62_command_line_order : forall compiles ss r,
  exists rs, rule_sets compiles r ss = (r ++ rs)%list /\ collected compiles ss rs.
Proof. exact rule_sets_collect. Qed.
Print Assumptions C62_command_line_order.

Example C62_ex : rule_sets (fun s => negb (String.eqb s "(")) [] [" a+ -> b -> c "; "none"; "( -> x"; "->"] =
  [("a+", "b -> c"); ("", "")].
Proof. reflexivity. Qed.
