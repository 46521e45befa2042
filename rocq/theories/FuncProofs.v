(* Functions, blocks of source and files. *)
From Verif Require Import Base ScopeModel GenModel GenSpec GenProofs FuncModel FuncSpec.
Local Open Scope string_scope.

Lemma s_app_assoc (a b c : string) : (a ++ b) ++ c = a ++ b ++ c.
Proof. symmetry. apply sapp_assoc. Qed.
Lemma split_lines_spec s : split_lines s <> [] /\ s = String.concat nl (split_lines s) /\ Forall (fun l => ~ occurs "010" l) (split_lines s).
Proof.
  assert (N0 : ~ occurs "010" "") by (intros (a & b & H); destruct a; discriminate).
  induction s as [|c s (I0 & I1 & I2)]; cbn [split_lines]; [split; [discriminate|]; split; [reflexivity|constructor; auto]|].
  destruct (Ascii.eqb c "010") eqn:E.
  - apply Ascii.eqb_eq in E as ->. split; [discriminate|]. split; [|constructor; auto]. destruct (split_lines s) as [|l ls]; [contradiction|]. change (String.concat nl ("" :: l :: ls)) with (String "010" (String.concat nl (l :: ls))). f_equal. exact I1.
  - destruct (split_lines s) as [|l ls]; [contradiction|]. split; [discriminate|]. pose proof (Forall_inv I2) as N1. pose proof (Forall_inv_tail I2) as N2. split.
    + destruct ls as [|l2 ls]; [change (String c s = String c l); f_equal; exact I1|]. change (String c s = String c (String.concat nl (l :: l2 :: ls))). f_equal. exact I1.
    + constructor; [|exact N2]. intros ([|x a] & b & H); cbn [append] in H; injection H as -> H; [rewrite Ascii.eqb_refl in E; discriminate|]. apply N1. exists a, b. exact H.
Qed.
Lemma concat_split : forall ls, ls <> [] -> Forall (fun l => ~ occurs "010" l) ls -> split_lines (String.concat nl ls) = ls.
Proof.
  assert (One : forall l, ~ occurs "010" l -> split_lines l = [l]).
  { induction l as [|c l IH]; intros N; [reflexivity|]. cbn [split_lines]. destruct (Ascii.eqb c "010") eqn:E; [apply Ascii.eqb_eq in E as ->; destruct N; exists "", l; reflexivity|]. rewrite IH; [reflexivity|]. intros (a & b & ->). apply N. exists (String c a), b. reflexivity. }
  assert (App : forall l s, ~ occurs "010" l -> split_lines (l ++ nl ++ s) = l :: split_lines s).
  { induction l as [|c l IH]; intros s N; [reflexivity|]. cbn [append split_lines]. destruct (Ascii.eqb c "010") eqn:E; [apply Ascii.eqb_eq in E as ->; destruct N; exists "", l; reflexivity|]. rewrite IH; [reflexivity|]. intros (a & b & ->). apply N. exists (String c a), b. reflexivity. }
  induction ls as [|l [|l2 ls] IH]; intros H F; [contradiction| |]; inversion F as [|? ? N1 N2]; subst; [exact (One l N1)|].
  change (String.concat nl (l :: l2 :: ls)) with (l ++ nl ++ String.concat nl (l2 :: ls)). rewrite App by exact N1. f_equal. apply IH; [discriminate|exact N2].
Qed.

Section Func.
  Variables (Expr Block Decl Val Err : Type).
  Variable parse_expr : string -> Expr + Err.
  Variable parse_file : string -> list (Block + Decl) + Err.
  Variable template : string -> Val -> string + Err.
  Notation field_of := (field_of Expr Err parse_expr).
  Notation FieldList := (FieldList Expr Err parse_expr).
  Notation is_field := (is_field Expr Err parse_expr).
  Lemma space_free n t : (forall a' b', n ++ " " ++ t = a' ++ " " ++ b' -> String.length n <= String.length a') <-> ~ occurs " " n.
  Proof.
    split.
    - intros H (a & b & E). specialize (H a (b ++ " " ++ t)). assert (Q : n ++ " " ++ t = a ++ " " ++ b ++ " " ++ t) by (rewrite E, !s_app_assoc; reflexivity). specialize (H Q). rewrite E, slen_app in H. cbn [String.length] in H. lia.
    - intros N. induction n as [|c n IH]; intros a' b' E; [cbn [String.length]; lia|]. destruct a' as [|x a']; cbn [append] in E; injection E as Ec E; subst c.
      + destruct N. exists "", n. reflexivity.
      + cbn [String.length]. apply le_n_S, (IH) with b'; [|exact E]. intros (a & b & ->). apply N. exists (String x a), b. reflexivity.
  Qed.
  Lemma field_spec s f : field_of s = inl f <-> is_field s f.
  Proof.
    unfold FuncModel.field_of. destruct (split2 " " s) as [[a b]|] eqn:E; cbn [fst snd].
    - apply split2_some in E as [-> M]. pose proof (proj1 (space_free a b) M) as N. split.
      + destruct (parse_expr b) as [e|e] eqn:P; [|discriminate]. intros [= <-]. constructor; auto.
      + intros H. remember (a ++ " " ++ b) as s eqn:Es. destruct H as [n t e N1 P1|t e N1 P1].
        * assert (X : n = a /\ t = b). { clear - Es N N1. revert a N Es. induction n as [|c n IH]; intros a N Es; destruct a as [|x a]; cbn [append] in Es.
            - injection Es as ->. auto.
            - injection Es as Ec Es. subst x. destruct N. exists "", a. reflexivity.
            - injection Es as Ec Es. subst c. destruct N1. exists "", n. reflexivity.
            - injection Es as Ec Es. subst x. destruct (IH (fun H => N1 ltac:(destruct H as (u & v & ->); exists (String c u), v; reflexivity)) a (fun H => N ltac:(destruct H as (u & v & ->); exists (String c u), v; reflexivity)) Es) as [-> ->]. auto. }
          destruct X as [-> ->]. rewrite P1. reflexivity.
        * destruct N1. exists a, b. exact Es.
    - assert (N : ~ occurs " " s). { apply split2_none in E. intros (a & b & ->). apply E. exists a, b. reflexivity. } split.
      + destruct (parse_expr s) as [e|e] eqn:P; [|discriminate]. intros [= <-]. constructor; auto.
      + intros H. destruct H as [n t e N1 P1|t e N1 P1]; [destruct N; exists n, t; reflexivity|]. rewrite P1. reflexivity.
  Qed.
  Lemma fields_spec : forall l fs, FieldList l = inl fs <-> Forall2 is_field l fs.
  Proof.
    induction l as [|s l IH]; intros fs; cbn [FuncModel.FieldList].
    - split; [intros [= <-]; constructor|intros H; inversion H; reflexivity].
    - split.
      + destruct (field_of s) as [f|] eqn:E; [|discriminate]. destruct (FieldList l) as [r|] eqn:R; [|discriminate]. intros [= <-]. constructor; [apply field_spec; exact E|apply IH; reflexivity].
      + intros H. inversion H as [|? f ? r H1 H2]; subst. apply field_spec in H1. apply IH in H2. rewrite H1, H2. reflexivity.
  Qed.
  Lemma fl_spec l o : fl Expr Err parse_expr l = inl o <-> fields_given Expr Err parse_expr l o.
  Proof.
    destruct l as [|s l]; cbn [fl].
    - split; [intros [= <-]; left; reflexivity|]. destruct o as [fs|]; cbn [fields_given]; [intros ((s & l' & X & _) & _); discriminate|reflexivity].
    - destruct s as [|c s].
      + split; [intros [= <-]; right; eauto|]. destruct o as [fs|]; cbn [fields_given]; [intros ((s & l' & X & N) & _); injection X as <- <-; destruct (N eq_refl)|reflexivity].
      + split.
        * destruct (FieldList (String c s :: l)) as [fs|] eqn:E; [|discriminate]. intros [= <-]. split; [exists (String c s), l; split; [reflexivity|discriminate]|apply fields_spec; exact E].
        * destruct o as [fs|]; cbn [fields_given]; [intros (_ & H); apply fields_spec in H; rewrite H; reflexivity|intros [X|(l' & X)]; discriminate].
  Qed.
  Lemma doc_spec g o : doc_comments g = o <-> doc_of g o.
  Proof.
    unfold doc_comments. destruct (String.eqb g "") eqn:E.
    - apply String.eqb_eq in E as ->. split; [intros <-; reflexivity|]. destruct o as [cs|]; cbn [doc_of]; [intros [N _]; destruct (N eq_refl)|reflexivity].
    - apply String.eqb_neq in E. destruct (split_lines_spec g) as (S0 & S1 & S2). split.
      + intros <-. split; [exact E|]. exists (split_lines g). split; [exact S1|]. split; [exact S2|]. clear. induction (split_lines g) as [|l ls IH]; constructor; auto.
      + destruct o as [cs|]; cbn [doc_of]; [|intros X; destruct (E X)]. intros (_ & ls & -> & F & R). f_equal. rewrite concat_split; auto; [|intros ->; apply E; reflexivity]. clear - R. induction R as [|l c ls cs H R IH]; [reflexivity|]. cbn [map]. rewrite IH, H. reflexivity.
  Qed.
  Lemma first_block_spec l b : first_block Block Decl Err l = inl b <-> exists before after, l = (map inr before ++ inl b :: after)%list.
  Proof.
    induction l as [|[x|d] l IH]; cbn [first_block].
    - split; [discriminate|]. intros (before & after & X). destruct before; discriminate.
    - split; [intros [= <-]; exists [], l; reflexivity|]. intros ([|d before] & after & X); [injection X as -> ->; reflexivity|discriminate].
    - rewrite IH. split; [intros (before & after & ->); exists (d :: before), after; reflexivity|]. intros ([|d' before] & after & X); [discriminate|]. injection X as <- ->. exists before, after. reflexivity.
  Qed.
  Lemma block_spec s b : parse_block Block Decl Err parse_file s = inl b <-> body_given Block Decl Err parse_file s b.
  Proof.
    unfold parse_block, body_given. change newline with nl. destruct (parse_file _) as [l|e]; [|split; [discriminate|intros (before & after & X); discriminate]].
    rewrite first_block_spec. split; intros (before & after & X); exists before, after; congruence.
  Qed.
  Theorem decl_spec f d : decl_of Expr Block Decl Err parse_expr parse_file f = inl d <->
    (fn_err Err f = None /\ fn_name Err f <> "" /\ fn_body Err f <> "") /\ dl_name _ _ d = fn_name Err f /\ doc_of (fn_godoc Err f) (dl_doc _ _ d) /\
    fields_given Expr Err parse_expr (fn_args Err f) (dl_params _ _ d) /\ fields_given Expr Err parse_expr (fn_returns Err f) (dl_results _ _ d) /\ fields_given Expr Err parse_expr [fn_receiver Err f] (dl_recv _ _ d) /\
    body_given Block Decl Err parse_file (fn_body Err f) (dl_body _ _ d).
  Proof.
    rewrite <- doc_spec, <- !fl_spec, <- block_spec. unfold decl_of. split.
    - destruct (fn_err Err f); [discriminate|]. destruct (String.eqb (fn_name Err f) "") eqn:E1; [discriminate|]. destruct (String.eqb (fn_body Err f) "") eqn:E2; [discriminate|]. apply String.eqb_neq in E1, E2.
      destruct (fl _ _ _ (fn_args Err f)) as [a|]; [|discriminate]. destruct (fl _ _ _ (fn_returns Err f)) as [r|]; [|discriminate]. destruct (fl _ _ _ [fn_receiver Err f]) as [c|]; [|discriminate]. destruct (parse_block _ _ _ _ _) as [b|]; [|discriminate].
      intros [= <-]. cbn [dl_name dl_doc dl_params dl_results dl_recv dl_body]. tauto.
    - intros ((-> & E1 & E2) & N & G & A & R & C & B). apply String.eqb_neq in E1, E2. rewrite E1, E2, A, R, C, B, G, <- N. destruct d. reflexivity.
  Qed.
  Lemma doc_lines f d c : decl_of Expr Block Decl Err parse_expr parse_file f = inl d -> (exists cs, dl_doc _ _ d = Some cs /\ In c cs) -> exists b, c = "// " ++ b ++ nl /\ ~ occurs "010" b.
  Proof.
    intros H (cs & E & Hc). apply decl_spec in H as (_ & _ & G & _). rewrite E in G. destruct G as (_ & ls & _ & F & R). destruct (Forall2_in_r _ _ _ _ R Hc) as (l & Hl & ->). rewrite Forall_forall in F. eauto.
  Qed.
  Theorem declarations_spec : forall bs ds o, Declarations Block Decl Err parse_file bs = (ds, o) <->
    exists dss, ds = concat dss /\
      match o with
      | None => Forall2 (block_decls Block Decl Err parse_file) bs dss
      | Some e => exists done b rest, bs = (done ++ b :: rest)%list /\ Forall2 (block_decls Block Decl Err parse_file) done dss /\ parse_file ("package tmp" ++ nl ++ b ++ nl) = inr e
      end.
  Proof.
    unfold block_decls. induction bs as [|b bs IH]; intros ds o; cbn [Declarations]; change newline with nl.
    - split; [intros [= <- <-]; exists []; split; [reflexivity|constructor]|]. intros (dss & -> & H). destruct o; [destruct H as (done & b & rest & X & _); destruct done; discriminate|]. inversion H. reflexivity.
    - destruct (parse_file ("package tmp" ++ nl ++ b ++ nl)) as [l|e] eqn:P.
      + destruct (Declarations Block Decl Err parse_file bs) as [ds' o'] eqn:E. split.
        * intros [= <- <-]. destruct (proj1 (IH ds' o') eq_refl) as (dss & -> & H). exists (l :: dss). split; [reflexivity|]. destruct o' as [e|]; [|constructor; auto]. destruct H as (done & b' & rest & -> & F & Pe). exists (b :: done), b', rest. split; [reflexivity|]. split; [constructor; auto|exact Pe].
        * intros (dss & -> & H). destruct o as [e|].
          -- destruct H as ([|b0 done] & b' & rest & X & F & Pe); [injection X as <- <-; congruence|]. injection X as <- ->. inversion F as [|? l' ? dss' F1 F2]; subst. assert (l' = l) as -> by congruence.
             assert (Q : (ds', o') = (concat dss', Some e)) by (apply IH; exists dss'; split; [reflexivity|]; exists done, b', rest; auto). injection Q as -> ->. reflexivity.
          -- inversion H as [|? l' ? dss' F1 F2]; subst. assert (l' = l) as -> by congruence. assert (Q : (ds', o') = (concat dss', None)) by (apply IH; exists dss'; auto). injection Q as -> ->. reflexivity.
      + split.
        * intros [= <- <-]. exists []. split; [reflexivity|]. exists [], b, bs. auto.
        * intros (dss & -> & H). destruct o as [e'|]; [|inversion H; congruence]. destruct H as ([|b0 done] & b' & rest & X & F & Pe); [injection X as <- <-; inversion F; subst; assert (e' = e) as -> by congruence; reflexivity|]. injection X as <- ->. inversion F; congruence.
  Qed.
  Lemma templates_spec v : forall ts ss, templates Val Err template v ts = inl ss <-> Forall2 (fun t s => template t v = inl s) ts ss.
  Proof.
    induction ts as [|t ts IH]; intros ss; cbn [templates]; [split; [intros [= <-]; constructor|intros H; inversion H; reflexivity]|]. split.
    - destruct (template t v) as [s|] eqn:E; [|discriminate]. destruct (templates Val Err template v ts) as [r|]; [|discriminate]. intros [= <-]. constructor; [exact E|apply IH; reflexivity].
    - intros H. inversion H as [|? s ? r H1 H2]; subst. apply IH in H2. rewrite H1, H2. reflexivity.
  Qed.
  Theorem snippets_spec v ts ds : Snippets Block Decl Val Err parse_file template v ts = (ds, None) <->
    exists ss dss, Forall2 (fun t s => template t v = inl s) ts ss /\ Forall2 (block_decls Block Decl Err parse_file) ss dss /\ ds = concat dss.
  Proof.
    unfold Snippets. destruct (templates Val Err template v ts) as [ss|e] eqn:E.
    - rewrite declarations_spec. apply templates_spec in E. split; [intros (dss & -> & H); exists ss, dss; auto|]. intros (ss' & dss & H1 & H2 & ->). exists dss. split; [reflexivity|].
      apply templates_spec in E. apply templates_spec in H1. assert (ss' = ss) as -> by congruence. exact H2.
    - split; [discriminate|]. intros (ss & dss & H & _). apply templates_spec in H. congruence.
  Qed.
  Variable File : Type.
  Variable format_file : File -> string + Err.
  Variable process : string -> string -> string + Err.
  Notation FormattedSource := (FormattedSource Err File format_file process).
  Lemma concat_lines ls : Forall (fun l => ~ occurs "010" l) ls -> lines (String.concat "" (map (fun c => c ++ newline) ls)) ls.
  Proof.
    assert (Q : forall (a : string) l, String.concat "" (a :: l) = a ++ String.concat "" l) by (intros a [|b l]; [cbn [String.concat]; rewrite sapp_nil_r; reflexivity|reflexivity]).
    induction 1 as [|l ls N F IH]; [constructor|]. cbn [map]. rewrite Q, s_app_assoc. exact (l_cons l _ ls N IH).
  Qed.
  Theorem source_spec prog output f comments s f' : FormattedSource prog output (PackageDoc File f comments) = (s, f') ->
    fi_doc _ f' = None /\ fi_rest _ f' = fi_rest _ f /\
    match format_file (fi_rest _ f) with
    | inr e => s = inr e
    | inl body => exists doc, s = process output (("// Code generated by " ++ prog ++ ". DO NOT EDIT." ++ nl ++ nl) ++ doc ++ body) /\
        (comments = [] -> fi_doc _ f = None -> doc = "") /\
        (comments <> [] -> exists ls, lines doc ls /\ (forall l, In l ls -> exists b, l = "// " ++ b) /\
           forall vss, Forall2 lines comments vss -> Forall (Forall (fun l => (N.of_nat (String.length l) < 65536)%N)) vss -> Forall2 comment_of (concat vss) ls)
    end.
  Proof.
    unfold FuncModel.FormattedSource. assert (Er : fi_rest File (PackageDoc File f comments) = fi_rest File f) by (destruct comments; reflexivity). rewrite Er. destruct (format_file (fi_rest File f)) as [body|e]; intros [= <- <-]; (split; [reflexivity|]); (split; [reflexivity|]); [|reflexivity].
    exists (String.concat "" (map (fun c => c ++ newline) match fi_doc File (PackageDoc File f comments) with Some l => l | None => [] end)). split.
    - unfold source_text. change newline with nl. rewrite !s_app_assoc. reflexivity.
    - split; [intros -> E; cbn [PackageDoc]; rewrite E; reflexivity|]. intros N. exists (CommentGroup comments). assert (Ed : fi_doc File (PackageDoc File f comments) = Some (CommentGroup comments)) by (destruct comments; [contradiction|reflexivity]). rewrite Ed. split; [|split].
      + apply concat_lines, Forall_forall. intros c Hc. exact (proj2 (comment_lines comments c Hc)).
      + intros l Hl. exact (proj1 (comment_lines comments l Hl)).
      + intros vss L. clear - L. induction L as [|v vs comments vss Lv L IH]; intros F; [constructor|]. inversion F as [|? ? F1 F2]; subst. cbn [concat]. rewrite comments_concat. cbn [flat_map]. rewrite <- comments_concat. apply Forall2_app; [exact (comments_all v vs Lv F1)|exact (IH F2)].
  Qed.
End Func.
