From Verif Require Import Base DecodeProofs EqualModel EqualSpec MarshalSpec MarshalProofs EqualProofs Utf8 GenModel GenSpec.
Local Open Scope string_scope.

(* ---------- Sanitize ---------- *)
Fixpoint mem (s : string) (l : list string) : bool :=
  match l with [] => false | x :: l' => String.eqb s x || mem s l' end.
Lemma mem_in s l : mem s l = true <-> In s l.
Proof.
  induction l as [|x l IH]; cbn; [split; [discriminate|tauto]|].
  rewrite orb_true_iff, String.eqb_eq, IH. split; intros [H|H]; auto.
Qed.
Lemma sanitize_kw s : keyword s -> Sanitize s = s ++ "_".
Proof. intros H. unfold keyword in H. cbn in H. repeat destruct H as [<-|H]; try reflexivity. destruct H. Qed.

Ltac spell :=
  repeat match goal with
  | |- context [match ?s with EmptyString => _ | String _ _ => _ end] => is_var s; destruct s
  | |- context [match ?c with Ascii _ _ _ _ _ _ _ _ => _ end] => is_var c; destruct c
  | |- context [match ?b with true => _ | false => _ end] => is_var b; destruct b
  | |- context [if ?b then _ else _] => is_var b; destruct b
  end.
Lemma sanitize_other s : ~ keyword s -> Sanitize s = s.
Proof.
  intros H. assert (Hm : mem s keywords = false).
  { destruct (mem s keywords) eqn:E; auto. apply mem_in in E. contradiction. }
  clear H. revert Hm. unfold Sanitize. spell; try reflexivity; vm_compute; discriminate.
Qed.
Lemma keyword_dec s : {keyword s} + {~ keyword s}.
Proof. apply in_dec, string_dec. Qed.

Lemma kw_underscore s : keyword s -> ~ keyword (s ++ "_").
Proof.
  intros H K. unfold keyword in H. cbn [keywords In] in H.
  apply mem_in in K. repeat destruct H as [<-|H]; try discriminate K. destruct H.
Qed.
Lemma sanitize_not_keyword s : ~ keyword (Sanitize s).
Proof.
  destruct (keyword_dec s) as [K|K]; [rewrite sanitize_kw; auto using kw_underscore|rewrite sanitize_other; auto].
Qed.
Lemma sanitize_collide s t : Sanitize s = Sanitize t <->
  s = t \/ (keyword s /\ t = s ++ "_") \/ (keyword t /\ s = t ++ "_").
Proof.
  split.
  - destruct (keyword_dec s) as [K|K], (keyword_dec t) as [L|L];
      rewrite ?(sanitize_kw s), ?(sanitize_kw t), ?(sanitize_other s), ?(sanitize_other t) by auto; auto.
    intros E. left. apply (f_equal s_rev) in E. rewrite !s_rev_app in E. cbn [s_rev s_rev_onto append] in E.
    injection E as E. apply (f_equal s_rev) in E. rewrite !s_rev_rev in E. auto.
  - intros [->|[[K ->]|[K ->]]]; auto.
    + rewrite sanitize_kw, sanitize_other; auto using kw_underscore.
    + rewrite (sanitize_kw t), sanitize_other; auto using kw_underscore.
Qed.

(* ---------- literals ---------- *)
Lemma has_occurs c s : has c s = true <-> occurs c s.
Proof.
  induction s as [|d s IH]; cbn.
  - split; [discriminate|]. intros (a & b & H). destruct a; discriminate.
  - rewrite orb_true_iff, Ascii.eqb_eq, IH. split.
    + intros [->|(a & b & ->)]; [exists "", s; auto|exists (String d a), b; auto].
    + intros (a & b & H). destruct a as [|x a]; cbn in H; injection H as -> ->; auto.
      right. exists a, b. auto.
Qed.
Lemma has_false c s : has c s = false <-> ~ occurs c s.
Proof. rewrite <- has_occurs. destruct (has c s); split; intros; try congruence; tauto. Qed.

Lemma source_app a b : source a -> source b -> source (a ++ b).
Proof. induction 1; auto. intros. rewrite <- sapp_assoc. constructor; auto. Qed.

Lemma source_ascii s : s_all (fun c => between 1 127 (N_of_ascii c)) s = true -> source s.
Proof.
  induction s as [|c s IH]; cbn [s_all]; [constructor|]. rewrite andb_true_iff. unfold between at 1. intros [H Hs].
  assert (G : String c s = encode_rune (N_of_ascii c) ++ s).
  { unfold encode_rune. assert ((N_of_ascii c <? 128)%N = true) as -> by lia. cbn [bytes fold_right append].
    rewrite (ascii_is _ c); auto. }
  rewrite G. constructor; auto; unfold scalar; lia.
Qed.

Lemma small_cases r k : (r < N.of_nat k)%N -> In r (map N.of_nat (seq 0 k)).
Proof.
  intros H. apply in_map_iff. exists (N.to_nat r). split; [lia|]. apply in_seq. lia.
Qed.

Lemma interp_plain c t : N_of_ascii c <> 34%N -> N_of_ascii c <> 10%N -> N_of_ascii c <> 92%N ->
  interpreted (String c t) = app_opt (Some (s1 c)) (interpreted t).
Proof.
  intros H1 H2 H3. destruct c as [[] [] [] [] [] [] [] []]; try reflexivity;
    exfalso; first [apply H1; reflexivity|apply H2; reflexivity|apply H3; reflexivity].
Qed.
Lemma app_opt_some a o : app_opt (Some "") o = o /\ forall b, app_opt (Some a) (app_opt (Some b) o) = app_opt (Some (a ++ b)) o.
Proof. destruct o; cbn; split; auto; intros; rewrite ?sapp_assoc; auto. Qed.
Lemma app_opt_app a b o : app_opt (Some a) (app_opt (Some b) o) = app_opt (Some (a ++ b)) o.
Proof. apply app_opt_some. Qed.
Lemma interp_high l t : Forall (fun n => 128 <= n < 256)%N l ->
  interpreted (bytes l ++ t) = app_opt (Some (bytes l)) (interpreted t).
Proof.
  induction 1 as [|n l Hn Hl IH]; [cbn; destruct (interpreted t); auto|].
  change (bytes (n :: l) ++ t) with (String (ascii_of_N n) (bytes l ++ t)).
  rewrite interp_plain, IH, app_opt_app; auto; rewrite N_ascii_embedding; lia.
Qed.
Lemma encode_high r : scalar r -> (128 <= r)%N ->
  exists l, encode_rune r = bytes l /\ Forall (fun n => 128 <= n < 256)%N l.
Proof.
  unfold scalar, encode_rune. intros Hs Hr. assert ((r <? 128)%N = false) as -> by lia.
  destruct (r <? 2048)%N eqn:E1; [|destruct (r <? 65536)%N eqn:E2]; eexists; (split; [reflexivity|]);
    repeat constructor; lia.
Qed.

Lemma unhex_hex1 d : (d < 16)%N -> unhex (hex1 d) = Some d.
Proof.
  intros H. apply (small_cases d 16) in H. cbn in H. repeat destruct H as [<-|H]; try reflexivity. destruct H.
Qed.
Lemma unhexs_app a b acc : unhexs acc (a ++ b)%list = match unhexs acc a with Some x => unhexs x b | None => None end.
Proof. revert acc. induction a as [|c a IH]; intros; cbn; auto. destruct (unhex c); auto. Qed.
Lemma list_ascii_app a b : list_ascii_of_string (a ++ b) = (list_ascii_of_string a ++ list_ascii_of_string b)%list.
Proof. induction a; cbn; f_equal; auto. Qed.
Lemma unhexs_hex k : forall n, (n < 16 ^ N.of_nat k)%N -> unhexs 0 (list_ascii_of_string (hex k n)) = Some n.
Proof.
  induction k as [|k IH]; intros n Hn.
  - cbn in *. f_equal. lia.
  - rewrite Nat2N.inj_succ, N.pow_succ_r' in Hn. cbn [hex].
    rewrite list_ascii_app, unhexs_app, IH by lia.
    cbn [s1 list_ascii_of_string unhexs]. rewrite unhex_hex1 by lia. f_equal. lia.
Qed.
Lemma hex1_ascii d : (d < 16)%N -> between 48 102 (N_of_ascii (hex1 d)) = true.
Proof.
  intros H. apply (small_cases d 16) in H. cbn in H. repeat destruct H as [<-|H]; try reflexivity. destruct H.
Qed.
Lemma source_hex k n : source (hex k n).
Proof.
  revert n. induction k as [|k IH]; intros n; cbn [hex]; [constructor|].
  apply source_app; auto. apply source_ascii. cbn [s1 s_all].
  pose proof (hex1_ascii (n mod 16)%N ltac:(lia)) as H. unfold between in *. lia.
Qed.

Lemma interp_x n t : (n < 256)%N -> interpreted ("\x" ++ hex 2 n ++ t) = app_opt (Some (bytes [n])) (interpreted t).
Proof.
  intros H. pose proof (unhexs_hex 2 n H) as E.
  change (app_opt (match unhexs 0 (list_ascii_of_string (hex 2 n)) with Some r => Some (bytes [r]) | None => None end) (interpreted t) =
    app_opt (Some (bytes [n])) (interpreted t)). rewrite E. auto.
Qed.
Lemma is_scalar_ok r : scalar r -> is_scalar r = true.
Proof. unfold scalar, is_scalar. lia. Qed.
Lemma interp_u n t : scalar n -> (n < 65536)%N -> interpreted ("\u" ++ hex 4 n ++ t) = app_opt (Some (encode_rune n)) (interpreted t).
Proof.
  intros S H. pose proof (unhexs_hex 4 n H) as E.
  change (app_opt (code_point (list_ascii_of_string (hex 4 n))) (interpreted t) =
    app_opt (Some (encode_rune n)) (interpreted t)). unfold code_point. rewrite E, is_scalar_ok; auto.
Qed.
Lemma interp_U n t : scalar n -> interpreted ("\U" ++ hex 8 n ++ t) = app_opt (Some (encode_rune n)) (interpreted t).
Proof.
  intros S. assert (H : (n < 16 ^ N.of_nat 8)%N) by (unfold scalar in S; cbn; lia). pose proof (unhexs_hex 8 n H) as E.
  change (app_opt (code_point (list_ascii_of_string (hex 8 n))) (interpreted t) =
    app_opt (Some (encode_rune n)) (interpreted t)). unfold code_point. rewrite E, is_scalar_ok; auto.
Qed.

Section Quote.
  Variable is_print : N -> bool.
  Hypothesis table : printable_table is_print.

  Lemma escape_high r : (128 <= r)%N -> escape_rune is_print r =
    if is_print r then encode_rune r else if (r <? 65536)%N then "\u" ++ hex 4 r else "\U" ++ hex 8 r.
  Proof.
    intros H. unfold escape_rune. assert (((r =? 34) || (r =? 92))%N = false) as -> by lia.
    destruct (is_print r); auto. assert (((r <? 32) || (r =? 127))%N = false) as -> by lia.
    destruct r as [|p]; [lia|]. do 4 (destruct p as [p|p|]; try reflexivity; try (exfalso; lia)).
  Qed.

  Lemma escape_ok r t : scalar r ->
    source (escape_rune is_print r) /\ interpreted (escape_rune is_print r ++ t) = app_opt (Some (encode_rune r)) (interpreted t).
  Proof.
    intros Hs. destruct (N.lt_ge_cases r 128) as [Hr|Hr].
    - destruct (is_print r) eqn:Ep.
      + destruct (table r Ep) as (H1 & H2 & H3). unfold escape_rune. rewrite Ep. clear table.
        destruct ((r =? 34) || (r =? 92))%N eqn:Eq.
        * assert (r = 34 \/ r = 92)%N as [->| ->] by lia; (split; [apply source_ascii; reflexivity|reflexivity]).
        * split.
          -- rewrite <- (sapp_nil_r (encode_rune r)). constructor; auto; try lia. constructor.
          -- unfold encode_rune. assert ((r <? 128)%N = true) as -> by lia.
             cbn [bytes fold_right append]. apply interp_plain; rewrite N_ascii_embedding; lia.
      + clear Hs table. assert (E : escape_rune is_print r = escape_rune (fun _ => false) r).
        { unfold escape_rune. rewrite Ep. auto. }
        rewrite E. clear E Ep. apply (small_cases r 128) in Hr. cbn in Hr.
        repeat destruct Hr as [<-|Hr]; try (split; [apply source_ascii; reflexivity|reflexivity]). destruct Hr.
    - rewrite escape_high by auto. destruct (is_print r) eqn:Ep.
      + destruct (table r Ep) as (H1 & H2 & H3). split.
        * rewrite <- (sapp_nil_r (encode_rune r)). constructor; auto; try lia. constructor.
        * destruct (encode_high r Hs Hr) as (l & -> & Hl). apply interp_high; auto.
      + destruct (r <? 65536)%N eqn:E.
        * split; [apply source_app; [apply source_ascii; reflexivity|apply source_hex]|].
          rewrite <- sapp_assoc. apply interp_u; auto. lia.
        * split; [apply source_app; [apply source_ascii; reflexivity|apply source_hex]|].
          rewrite <- sapp_assoc. apply interp_U; auto.
  Qed.

  Lemma s_drop_len w : forall s, String.length (s_drop w s) = String.length s - w.
  Proof. induction w; intros [|c s]; cbn; auto; lia. Qed.

  Lemma quote_body_ok : forall fuel s, String.length s <= fuel ->
    source (quote_body is_print fuel s) /\ interpreted (quote_body is_print fuel s) = Some s.
  Proof.
    induction fuel as [|fuel IH]; intros [|c s] Hf; cbn [quote_body]; try (split; [constructor|reflexivity]).
    { cbn in Hf. lia. }
    destruct (decode_rune (String c s)) as [[r w]|] eqn:E.
    - destruct (decode_encode _ _ _ E) as (Hs & Hw & Eq).
      destruct (IH (s_drop w (String c s))) as [I1 I2]; [rewrite s_drop_len; cbn [String.length] in *; lia|].
      destruct (escape_ok r (quote_body is_print fuel (s_drop w (String c s))) Hs) as [E1 E2].
      split; [apply source_app; auto|]. rewrite E2, I2. cbn [app_opt]. rewrite <- Eq. auto.
    - destruct (IH s) as [I1 I2]; [cbn in Hf; lia|]. split.
      + apply source_app; [apply source_ascii; reflexivity|]. apply source_app; auto using source_hex.
      + rewrite interp_x, I2 by apply N_ascii_bounded. cbn [app_opt bytes fold_right append].
        rewrite ascii_N_embedding. auto.
  Qed.

  Lemma quote_ok s : denotes (quote is_print s) s.
  Proof. destruct (quote_body_ok (String.length s) s) as [H1 H2]; auto. apply d_interpreted; auto. Qed.

  Lemma tail_inj a b c : a ++ s1 c = b ++ s1 c -> a = b.
  Proof.
    intros E. apply (f_equal s_rev) in E. rewrite !s_rev_app in E. cbn [s_rev s_rev_onto append s1] in E.
    injection E as E. apply (f_equal s_rev) in E. rewrite !s_rev_rev in E. auto.
  Qed.

  Lemma denotes_raw s v : denotes ("`" ++ s ++ "`") v <-> source s /\ ~ occurs "`" s /\ v = without_cr s.
  Proof.
    split.
    - remember ("`" ++ s ++ "`") as l eqn:El. intros H. destruct H as [c Hc Hb|c w Hc Hi]; cbn in El; [|discriminate].
      injection El as E. apply (tail_inj _ _ "`") in E. subst. auto.
    - intros (H1 & H2 & ->). constructor; auto.
  Qed.
  Lemma denotes_interp s v : denotes ("""" ++ s ++ """") v -> interpreted s = Some v.
  Proof.
    remember ("""" ++ s ++ """") as l eqn:El. intros H. destruct H as [c Hc Hb|c w Hc Hi]; cbn in El; [discriminate|].
    injection El as E. apply (tail_inj _ _ """") in E. subst. auto.
  Qed.
  Lemma denotes_fun l v v' : denotes l v -> denotes l v' -> v = v'.
  Proof.
    intros H H'. destruct H as [c Hc Hb|c v Hc Hi].
    - apply denotes_raw in H'. symmetry. apply H'.
    - apply denotes_interp in H'. congruence.
  Qed.
  Lemma without_cr_len s : String.length (without_cr s) <= String.length s.
  Proof. induction s as [|c s IH]; cbn; auto. destruct (Ascii.eqb c "013"); cbn; lia. Qed.
  Lemma without_cr_id s : s = without_cr s <-> ~ occurs "013" s.
  Proof.
    rewrite <- has_false. induction s as [|c s IH]; cbn; [tauto|].
    destruct (Ascii.eqb c "013") eqn:E; cbn.
    - split; [|discriminate]. intros H. pose proof (without_cr_len s) as L. rewrite <- H in L. cbn in L. lia.
    - rewrite <- IH. split; [intros H; injection H; auto|intros <-; auto].
  Qed.

  Lemma string_denotes s : denotes (String_ is_print s) s <->
    (occurs """" s -> ~ occurs "`" s -> ~ occurs "013" s /\ source s).
  Proof.
    unfold String_. destruct (has """" s && negb (has "`" s)) eqn:E.
    - apply andb_true_iff in E as [E1 E2]. apply negb_true_iff in E2.
      apply has_occurs in E1. apply has_false in E2. rewrite denotes_raw, without_cr_id. tauto.
    - split; [|intros _; apply quote_ok]. intros _ H1 H2.
      apply has_occurs in H1. apply has_false in H2. rewrite H1, H2 in E. discriminate.
  Qed.
End Quote.

Lemma string_loses_cr : ~ (forall is_print, printable_table is_print -> forall s, denotes (String_ is_print s) s).
Proof.
  intros H. assert (T : printable_table (fun _ => false)) by (intros r; discriminate).
  specialize (H (fun _ => false) T (String """" (String "013" ""))).
  apply string_denotes in H; auto.
  - destruct H as [H _]. apply H. exists (String """" ""), "". auto.
  - exists "", (String "013" ""). auto.
  - intros (a & b & E). destruct a as [|x [|y [|z a]]]; discriminate.
Qed.

(* ---------- comments ---------- *)
Lemma cut_line_spec s : match cut_line s with
  | (l, Some r) => s = l ++ String "010" r /\ has "010" l = false
  | (l, None) => s = l /\ has "010" l = false
  end.
Proof.
  induction s as [|c s IH]; cbn [cut_line]; auto. destruct (Ascii.eqb c "010") eqn:E.
  - apply Ascii.eqb_eq in E. subst. auto.
  - destruct (cut_line s) as [l [r|]]; destruct IH as [-> IH]; cbn [has]; rewrite E; auto.
Qed.
Lemma cut_line_app l r : has "010" l = false -> cut_line (l ++ String "010" r) = (l, Some r).
Proof.
  induction l as [|c l IH]; cbn [has append cut_line]; [reflexivity|]. intros H.
  apply orb_false_iff in H as [H1 H2]. rewrite H1, IH; auto.
Qed.
Lemma cut_line_last l : has "010" l = false -> cut_line l = (l, None).
Proof.
  induction l as [|c l IH]; cbn [has append cut_line]; [reflexivity|]. intros H.
  apply orb_false_iff in H as [H1 H2]. rewrite H1, IH; auto.
Qed.

Lemma lines_exist : forall n s, String.length s <= n -> exists ls, lines s ls.
Proof.
  induction n as [|n IH]; intros s H.
  - destruct s; [|cbn in H; lia]. exists []. constructor.
  - pose proof (cut_line_spec s) as C. destruct (cut_line s) as [l [r|]]; destruct C as [C1 C2]; apply has_false in C2.
    + subst s. rewrite slen_app in H. cbn [String.length] in H.
      destruct (IH r) as [ls Hl]; [lia|]. exists (l :: ls). constructor; auto.
    + subst l. destruct s as [|c s]; [exists []; constructor|].
      exists [String c s]. constructor; auto. discriminate.
Qed.

(* lines up to the first that is too long *)
Fixpoint kept (ls : list string) : list string :=
  match ls with
  | [] => []
  | l :: ls' => if (max_token <=? N.of_nat (String.length l))%N then [] else l :: kept ls'
  end.
Lemma scan_lines_spec s ls : lines s ls -> forall fuel, String.length s <= fuel -> scan_lines fuel s = map drop_cr (kept ls).
Proof.
  induction 1 as [|l Hl Hn|l s ls Hn Hs IH]; intros fuel Hf.
  - destruct fuel; auto.
  - destruct l as [|c l]; [congruence|]. destruct fuel as [|fuel]; [cbn in Hf; lia|].
    cbn [scan_lines kept]. rewrite cut_line_last by (apply has_false; auto).
    destruct (max_token <=? N.of_nat (String.length (String c l)))%N; auto.
  - rewrite slen_app in Hf. cbn [String.length] in Hf.
    destruct fuel as [|fuel]; [lia|].
    destruct (l ++ String "010" s) as [|c t] eqn:E; [destruct l; discriminate|].
    cbn [scan_lines]. rewrite <- E, cut_line_app by (apply has_false; auto). cbn [kept].
    destruct (max_token <=? N.of_nat (String.length l))%N; auto.
    rewrite IH by lia. auto.
Qed.

Lemma drop_cr_spec l : drop_cr l = l \/ l = drop_cr l ++ s1 "013".
Proof.
  unfold drop_cr. destruct (s_rev l) as [|c r] eqn:E; auto.
  assert (D : c = "013"%char \/ c <> "013"%char) by (destruct (ascii_dec c "013"); auto).
  destruct D as [->|D].
  - right. apply (f_equal s_rev) in E. rewrite s_rev_rev in E. rewrite E.
    change (String "013" r) with (s1 "013" ++ r). rewrite s_rev_app. reflexivity.
  - left. destruct c as [[] [] [] [] [] [] [] []]; auto. exfalso. apply D. reflexivity.
Qed.
Lemma blank_cr : blank (s1 "013").
Proof. change (s1 "013") with (bytes [13%N] ++ ""). constructor; [|constructor]. apply in_map. cbn. tauto. Qed.
Lemma trim_drop_cr l : trim_space (drop_cr l) = trim_space l.
Proof.
  destruct (drop_cr_spec l) as [->|E]; auto. apply trim_same_text.
  exists (drop_cr l), "", "", "", (s1 "013"). repeat split; try constructor; auto using blank_cr.
  cbn [append]. rewrite sapp_nil_r. auto.
Qed.
Lemma trim_trimmed s : trimmed_of s (trim_space s).
Proof.
  destruct (trim_space_split s) as (u & v & Hu & Hv & E & Hi & Hi'). exists u, v. repeat split; auto.
  intros x Ex. apply (Hi' (s_rev w) (s_rev x)); [apply in_map; auto|]. rewrite Ex at 1. apply s_rev_app.
Qed.
Lemma trimmed_trim s t : trimmed_of s t -> trim_space s = t.
Proof.
  intros (a & b & Ha & Hb & -> & Hw). apply trim_unique; auto.
  - intros w r H. exact (proj1 (Hw w H) r).
  - intros w r H E. apply in_map_iff in H as (w0 & <- & H).
    apply (f_equal s_rev) in E. rewrite s_rev_rev, s_rev_app, s_rev_rev in E. destruct (Hw w0 H) as [_ G]. eapply G; eauto.
Qed.

Lemma comments_of_text v ls : lines v ls -> Forall2 comment_of (kept ls) (CommentGroup [v]).
Proof.
  intros H. unfold CommentGroup. cbn [flat_map]. rewrite app_nil_r, (scan_lines_spec v ls H), map_map by auto.
  induction (kept ls) as [|l k IH]; cbn [map]; constructor; auto.
  exists (trim_space l). split; [apply trim_trimmed|]. rewrite trim_drop_cr. auto.
Qed.
Lemma comments_concat vs : CommentGroup vs = flat_map (fun v => CommentGroup [v]) vs.
Proof. unfold CommentGroup. apply flat_map_ext. intros v. cbn [flat_map]. rewrite app_nil_r. auto. Qed.

Lemma kept_all ls : Forall (fun l => (N.of_nat (String.length l) < 65536)%N) ls -> kept ls = ls.
Proof.
  induction 1 as [|l ls Hl Hs IH]; cbn [kept]; auto. unfold max_token.
  assert ((65536 <=? N.of_nat (String.length l))%N = false) as -> by lia. rewrite IH. auto.
Qed.
Lemma kept_stop ls l ls' : Forall (fun l => (N.of_nat (String.length l) < 65536)%N) ls ->
  (65536 <= N.of_nat (String.length l))%N -> kept (ls ++ l :: ls')%list = ls.
Proof.
  induction 1 as [|x ls Hl Hs IH]; cbn [kept List.app]; unfold max_token; intros.
  - assert ((65536 <=? N.of_nat (String.length l))%N = true) as -> by lia. auto.
  - assert ((65536 <=? N.of_nat (String.length x))%N = false) as -> by lia. rewrite IH; auto.
Qed.
Lemma kept_in ls l : In l (kept ls) -> In l ls.
Proof.
  induction ls as [|x ls IH]; cbn [kept]; auto. destruct (max_token <=? _)%N; [intros []|]. intros [->|H]; [left|right]; auto.
Qed.
Lemma lines_no_nl s ls : lines s ls -> forall l, In l ls -> ~ occurs "010" l.
Proof.
  induction 1 as [|l Hl Hn|l s ls Hn Hs IH]; intros x Hx.
  - destruct Hx.
  - destruct Hx as [<-|[]]; auto.
  - destruct Hx as [<-|Hx]; auto.
Qed.
Lemma Forall2_in_r {A B} (R : A -> B -> Prop) l l' b : Forall2 R l l' -> In b l' -> exists a, In a l /\ R a b.
Proof.
  induction 1 as [|x y l l' H1 H2 IH]; intros H; [destruct H|]. destruct H as [<-|H].
  - exists x. split; [left|]; auto.
  - destruct (IH H) as (a & Ha & Hr). exists a. split; [right|]; auto.
Qed.

Lemma comment_lines vs t : In t (CommentGroup vs) -> (exists b, t = "// " ++ b) /\ ~ occurs "010" t.
Proof.
  rewrite comments_concat. intros H. apply in_flat_map in H as (v & _ & H).
  destruct (lines_exist (String.length v) v (le_n _)) as [ls Hl].
  destruct (Forall2_in_r _ _ _ t (comments_of_text v ls Hl) H) as (l & Hin & b & Ht & ->).
  split; [eauto|]. pose proof (lines_no_nl v ls Hl l (kept_in _ _ Hin)) as Hn.
  intros (x & y & E). apply Hn. destruct Ht as (u & w & _ & _ & -> & _).
  assert (Ob : occurs "010" b).
  { destruct x as [|c1 [|c2 [|c3 x]]]; try discriminate. cbn in E. injection E as _ _ _ E. exists x, y. auto. }
  destruct Ob as (p & q & ->). exists (u ++ p), (q ++ w). rewrite <- ?sapp_assoc. cbn. auto.
Qed.

(* a long line silences the rest of the documentation *)
Fixpoint rep (k : positive) (s : string) : string :=
  match k with xH => s | xO k' => rep k' (s ++ s) | xI k' => s ++ rep k' (s ++ s) end.
Lemma rep_len k : forall s, N.of_nat (String.length (rep k s)) = (N.pos k * N.of_nat (String.length s))%N.
Proof.
  induction k as [k IH|k IH|]; intros s; cbn [rep]; rewrite ?slen_app, ?Nat2N.inj_add, ?IH, ?slen_app, ?Nat2N.inj_add; lia.
Qed.
Lemma rep_no c k : forall s, has c s = false -> has c (rep k s) = false.
Proof.
  assert (G : forall a b, has c a = false -> has c b = false -> has c (a ++ b) = false).
  { induction a as [|x a IH]; cbn [has append]; auto. intros b H Hb. apply orb_false_iff in H as [H1 H2]. rewrite H1, IH; auto. }
  induction k as [k IH|k IH|]; intros s H; cbn [rep]; auto.
Qed.
Lemma comments_lost_after big rest : has "010" big = false -> (65536 <= N.of_nat (String.length big))%N ->
  CommentGroup [big ++ String "010" rest] = [].
Proof.
  intros Hn Hb. destruct (lines_exist (String.length rest) rest (le_n _)) as [ls Hl].
  assert (H : lines (big ++ String "010" rest) ([] ++ big :: ls)).
  { constructor; auto. apply has_false. auto. }
  pose proof (comments_of_text _ _ H) as F. rewrite (kept_stop [] big ls) in F by auto. inversion F; auto.
Qed.
Lemma comments_lost : exists v, CommentGroup [v ++ String "010" "note"] = [].
Proof.
  exists (rep 65536 "a"). apply comments_lost_after; [apply rep_no; reflexivity|].
  rewrite rep_len. discriminate.
Qed.

(* ---------- Struct ---------- *)

Lemma struct_field_spec name typ tag f : struct_field name typ tag = Some f <->
  name_of name (f_names f) /\ f_type f = typ /\ tag_of tag (f_tag f).
Proof.
  unfold struct_field, name_of, tag_of. destruct f as [ns ty tg]; cbn [f_names f_type f_tag]. split.
  - destruct name as [[n|v|i]|]; try discriminate; destruct tag as [[n'|v'|i']|]; try discriminate;
      intros H; injection H as <- <- <-; split; eauto; split; eauto.
  - intros ([[-> ->]|(n & -> & ->)] & -> & [[-> ->]|(v & -> & ->)]); auto.
Qed.
Fixpoint triples {A} (l : list A) : list (A * A * A) :=
  match l with a :: b :: c :: r => (a, b, c) :: triples r | _ => [] end.
Definition field_of (x : option expr * option expr * option expr) (f : field) : Prop :=
  let '(name, typ, tag) := x in name_of name (f_names f) /\ f_type f = typ /\ tag_of tag (f_tag f).
Lemma struct_loop_spec : forall n args acc r, List.length args <= n ->
  (struct_loop args acc = Some r <-> exists fs, r = (acc ++ fs)%list /\ Forall2 field_of (triples args) fs).
Proof.
  assert (Z : forall acc r, Some acc = Some r <-> exists fs, r = (acc ++ fs)%list /\ Forall2 field_of [] fs).
  { intros acc r. split.
    - intros [= <-]. exists []. rewrite app_nil_r. auto.
    - intros (fs & -> & H). inversion H. rewrite app_nil_r. auto. }
  induction n as [|n IH]; intros args acc r Hn.
  - destruct args; [apply Z|cbn in Hn; lia].
  - destruct args as [|a [|b [|c args]]]; try apply Z. cbn [struct_loop triples].
    destruct (struct_field a b c) as [f|] eqn:E.
    + cbn [List.length] in Hn. rewrite IH by lia. split.
      * intros (fs & -> & H). exists (f :: fs). split; [rewrite <- app_assoc; auto|].
        constructor; auto. apply struct_field_spec. auto.
      * intros (fs & -> & H). inversion H as [|x g l gs H1 H2]; subst.
        apply struct_field_spec in H1. rewrite E in H1. injection H1 as ->.
        exists gs. rewrite <- app_assoc. auto.
    + split; [discriminate|]. intros (fs & -> & H). inversion H as [|x g l gs H1 H2]; subst.
      apply struct_field_spec in H1. congruence.
Qed.
Lemma triples_nth {A} : forall n (l : list A) i, List.length l <= n ->
  nth_error (triples l) i = match nth_error l (3 * i), nth_error l (3 * i + 1), nth_error l (3 * i + 2) with
                            | Some a, Some b, Some c => Some (a, b, c) | _, _, _ => None end.
Proof.
  induction n as [|n IH]; intros l i Hn.
  - destruct l; [|cbn in Hn; lia]. cbn [triples]. rewrite !(proj2 (nth_error_None _ _)) by (cbn; lia). auto.
  - destruct l as [|a [|b [|c l]]].
    1-3: cbn [triples]; rewrite (proj2 (nth_error_None [] i)) by (cbn; lia);
         rewrite (proj2 (nth_error_None _ (3 * i + 2))) by (cbn [List.length]; lia);
         repeat match goal with |- context [match ?x with Some _ => _ | None => _ end] => destruct x end; auto.
    destruct i as [|i]; [reflexivity|]. cbn [triples nth_error]. cbn [List.length] in Hn. rewrite IH by lia.
    replace (3 * S i) with (S (S (S (3 * i)))) by lia.
    replace (S (S (S (3 * i))) + 1) with (S (S (S (3 * i + 1)))) by lia.
    replace (S (S (S (3 * i))) + 2) with (S (S (S (3 * i + 2)))) by lia. auto.
Qed.
Lemma triples_len {A} : forall n (l : list A), List.length l <= n -> Nat.modulo (List.length l) 3 = 0 ->
  List.length l = 3 * List.length (triples l).
Proof.
  induction n as [|n IH]; intros l Hn Hm; [destruct l; [auto|cbn in Hn; lia]|].
  destruct l as [|a [|b [|c l]]]; try (cbn in Hm; lia); auto.
  cbn [List.length triples] in *. rewrite (IH l); try lia.
Qed.
Lemma Forall2_nth {A B} (R : A -> B -> Prop) l l' : Forall2 R l l' <->
  List.length l = List.length l' /\ forall i a b, nth_error l i = Some a -> nth_error l' i = Some b -> R a b.
Proof.
  split.
  - induction 1 as [|x y l l' H1 H2 [IH1 IH2]]; [split; auto; intros [|i]; discriminate|].
    split; [cbn; auto|]. intros [|i] a b Ha Hb; cbn in *; [congruence|eauto].
  - revert l'. induction l as [|x l IH]; intros [|y l'] [H1 H2]; try discriminate; constructor.
    + apply (H2 0 x y); auto.
    + apply IH. split; [cbn in H1; lia|]. intros i a b Ha Hb. apply (H2 (S i) a b); auto.
Qed.

Lemma struct_spec args fs : Struct args = Some fs <->
  List.length args = 3 * List.length fs /\
  forall i f, nth_error fs i = Some f ->
    exists name typ tag, nth_error args (3 * i) = Some name /\ nth_error args (3 * i + 1) = Some typ /\
      nth_error args (3 * i + 2) = Some tag /\ name_of name (f_names f) /\ f_type f = typ /\ tag_of tag (f_tag f).
Proof.
  unfold Struct. destruct (Nat.eqb (Nat.modulo (List.length args) 3) 0) eqn:E.
  - apply Nat.eqb_eq in E. pose proof (triples_len _ args (le_n _) E) as L.
    rewrite (struct_loop_spec (List.length args)) by auto. split.
    + intros (x & -> & H). cbn [List.app]. apply Forall2_nth in H as [H1 H2]. split; [lia|].
      intros i f Hf. destruct (nth_error (triples args) i) as [[[a b] c]|] eqn:Et.
      * pose proof (H2 i _ _ Et Hf) as G. rewrite (triples_nth (List.length args)) in Et by auto.
        destruct (nth_error args (3 * i)), (nth_error args (3 * i + 1)), (nth_error args (3 * i + 2)); try discriminate.
        injection Et as -> -> ->. exists a, b, c. destruct G as (G1 & G2 & G3). auto 10.
      * apply nth_error_None in Et. assert (i < List.length x) by (apply nth_error_Some; congruence). lia.
    + intros [H1 H2]. exists fs. split; auto. apply Forall2_nth. split; [lia|].
      intros i [[a b] c] f Ha Hf. destruct (H2 i f Hf) as (n & t & g & E1 & E2 & E3 & G).
      rewrite (triples_nth (List.length args)) in Ha by auto. rewrite E1, E2, E3 in Ha. injection Ha as <- <- <-. exact G.
  - split; [discriminate|]. intros [H _]. apply Nat.eqb_neq in E. exfalso. apply E. rewrite H, Nat.mul_comm. apply Nat.mod_mul. lia.
Qed.

(* ---------- rules ---------- *)
Lemma split2_some sep s a b : split2 sep s = Some (a, b) <-> first_split sep s a b.
Proof.
  unfold first_split. revert a b. induction s as [|c s IH]; intros a b.
  - cbn [split2]. destruct (String.prefix sep "") eqn:E.
    + apply prefix_iff in E as [r E]. destruct sep; [|discriminate]. cbn. split.
      * intros [= <- <-]. split; auto. cbn. lia.
      * intros [H _]. destruct a; [|discriminate]. cbn in H. subst b. auto.
    + split; [discriminate|]. intros [H _]. destruct a; [|discriminate]. cbn in H. rewrite (proj2 (prefix_iff sep "")) in E; [discriminate|eauto].
  - cbn [split2]. destruct (String.prefix sep (String c s)) eqn:E.
    + apply prefix_iff in E as [r E]. rewrite E, drop_app. split.
      * intros [= <- <-]. split; auto. cbn. lia.
      * intros [H1 H2]. pose proof (H2 "" r eq_refl) as L. destruct a; [|cbn in L; lia].
        cbn in H1. f_equal. f_equal. apply (f_equal (s_drop (String.length sep))) in H1. rewrite !drop_app in H1. auto.
    + assert (Np : forall r, String c s <> sep ++ r).
      { intros r Er. rewrite (proj2 (prefix_iff sep (String c s))) in E; [discriminate|eauto]. }
      destruct (split2 sep s) as [[a' b']|] eqn:Es.
      * destruct (proj1 (IH _ _) eq_refl) as [-> Hm]. split.
        -- intros [= <- <-]. split; auto. intros a'' b'' H. destruct a'' as [|x a'']; [exfalso; eapply Np; eauto|].
           cbn in H. injection H as _ H. apply Hm in H. cbn. lia.
        -- intros [H1 H2]. destruct a as [|x a]; [exfalso; eapply Np; eauto|]. cbn in H1. injection H1 as <- H1.
           pose proof (Hm _ _ H1) as L1.
           specialize (H2 (String c a') b' eq_refl). cbn in H2.
           assert (L : String.length a = String.length a') by lia. clear - H1 L.
           revert a H1 L. induction a' as [|y a' IH]; intros [|z a] H L; try discriminate; cbn in H.
           ++ apply (f_equal (s_drop (String.length sep))) in H. rewrite !drop_app in H. subst. auto.
           ++ injection H as -> H. cbn in L. apply IH in H; [|lia]. injection H as -> ->. auto.
      * split; [discriminate|]. intros [H1 H2]. destruct a as [|x a]; [exfalso; eapply Np; eauto|]. cbn in H1. injection H1 as <- H1.
        assert (G : None = Some (a, b)); [|discriminate]. apply IH. split; auto.
        intros a' b' H. specialize (H2 (String c a') b'). cbn in H2. rewrite <- H in H2. specialize (H2 eq_refl). lia.
Qed.
Lemma split2_none sep s : split2 sep s = None <-> ~ exists a b, s = a ++ sep ++ b.
Proof.
  split.
  - intros H (a & b & ->). revert H. induction a as [|c a IH].
    + cbn [append]. destruct (sep ++ b) as [|x t] eqn:E.
      * cbn [split2]. rewrite (proj2 (prefix_iff sep "")) by (exists b; auto). discriminate.
      * cbn [split2]. rewrite (proj2 (prefix_iff sep (String x t))) by (exists b; auto). discriminate.
    + cbn [append split2]. destruct (String.prefix sep _); [discriminate|].
      destruct (split2 sep (a ++ sep ++ b)) as [[]|]; [discriminate|auto].
  - intros H. destruct (split2 sep s) as [[a b]|] eqn:E; auto. apply split2_some in E as [E _]. exfalso. eauto.
Qed.

Lemma rule_set_spec compiles r s r' ok : rule_set compiles r s = (r', ok) <->
  (ok = true /\ exists a b from to, first_split "->" s a b /\ trimmed_of a from /\ trimmed_of b to /\
     compiles from = true /\ r' = (r ++ [(from, to)])%list) \/
  (ok = false /\ r' = r /\ forall a b from, first_split "->" s a b -> trimmed_of a from -> compiles from = false).
Proof.
  unfold rule_set. destruct (split2 "->" s) as [[a b]|] eqn:E.
  - pose proof (proj1 (split2_some _ _ _ _) E) as F. destruct (compiles (trim_space a)) eqn:Ec; split.
    + intros [= <- <-]. left. split; auto. exists a, b, (trim_space a), (trim_space b). auto using trim_trimmed.
    + intros [(-> & a' & b' & from & to & H1 & H2 & H3 & H4 & ->)|(-> & -> & H)].
      * apply split2_some in H1. rewrite E in H1. injection H1 as <- <-.
        rewrite (trimmed_trim _ _ H2), (trimmed_trim _ _ H3). auto.
      * rewrite (H a b (trim_space a)) in Ec; auto using trim_trimmed. discriminate.
    + intros [= <- <-]. right. split; auto. split; auto. intros a' b' from H1 H2.
      apply split2_some in H1. rewrite E in H1. injection H1 as <- <-. rewrite <- (trimmed_trim _ _ H2). auto.
    + intros [(-> & a' & b' & from & to & H1 & H2 & H3 & H4 & ->)|(-> & -> & H)]; auto.
      apply split2_some in H1. rewrite E in H1. injection H1 as <- <-. rewrite (trimmed_trim _ _ H2) in Ec. congruence.
  - assert (G : forall a b, ~ first_split "->" s a b).
    { intros a b H. apply split2_some in H. congruence. }
    split.
    + intros [= <- <-]. right. split; auto. split; auto. intros a b from H. exfalso. eapply G; eauto.
    + intros [(-> & a' & b' & from & to & H1 & _)|(-> & -> & H)]; auto. exfalso. eapply G; eauto.
Qed.

Lemma rule_sets_collect compiles ss : forall r, exists rs, rule_sets compiles r ss = (r ++ rs)%list /\ collected compiles ss rs.
Proof.
  induction ss as [|s ss IH]; intros r.
  - exists []. cbn. rewrite app_nil_r. split; auto. constructor.
  - unfold rule_sets. cbn [fold_left]. fold (rule_sets compiles (fst (rule_set compiles r s)) ss).
    destruct (rule_set compiles r s) as [r' ok] eqn:E. cbn [fst]. apply rule_set_spec in E.
    destruct E as [(-> & a & b & from & to & H1 & H2 & H3 & H4 & ->)|(-> & -> & H)].
    + destruct (IH (r ++ [(from, to)])%list) as (rs & Er & Hc). exists ((from, to) :: rs).
      rewrite Er, <- app_assoc. split; auto. constructor; auto. exists a, b. auto.
    + destruct (IH r) as (rs & Er & Hc). exists rs. split; auto. apply co_skip; auto.
      intros x (a & b & H1 & H2 & H3 & H4). rewrite (H a b (fst x)) in H4; auto. discriminate.
Qed.

Lemma comments_all v ls : lines v ls -> Forall (fun l => (N.of_nat (String.length l) < 65536)%N) ls ->
  Forall2 comment_of ls (CommentGroup [v]).
Proof. intros H F. pose proof (comments_of_text v ls H) as G. rewrite (kept_all ls F) in G. auto. Qed.
Lemma comments_cut v ls l ls' : lines v (ls ++ l :: ls')%list ->
  Forall (fun l => (N.of_nat (String.length l) < 65536)%N) ls -> (65536 <= N.of_nat (String.length l))%N ->
  Forall2 comment_of ls (CommentGroup [v]).
Proof. intros H F L. pose proof (comments_of_text v _ H) as G. rewrite (kept_stop ls l ls' F L) in G. auto. Qed.
Lemma lines_total v : exists ls, lines v ls.
Proof. exact (lines_exist _ v (le_n _)). Qed.
