(* Flags: they are read just as they are written. *)
From Coq Require Import Lia.
From Verif Require Import Base ScopeModel TreeModel EqualModel BuiltinModel XsdModel TypesModel GenModel GenSpec GenProofs SgModel FilesModel OptModel MethodModel CliModel CliSpec CliProofs ArgsModel ArgsSpec.
Local Open Scope string_scope.

Lemma append_nil_r s : s ++ "" = s.
Proof. induction s as [|c s IH]; [reflexivity|]. cbn. rewrite IH. reflexivity. Qed.
Definition tail (v : option string) : string := match v with None => "" | Some x => "=" ++ x end.
Lemma not_occurs c x s : ~ occurs c (String x s) <-> x <> c /\ ~ occurs c s.
Proof.
  unfold occurs. split.
  - intros H. split; [intros ->; apply H; exists "", s; reflexivity|]. intros (a & b & ->). apply H. exists (String x a), b. reflexivity.
  - intros [H1 H2] (a & b & E). destruct a as [|y a]; cbn in E; injection E as -> ->; [apply H1; reflexivity|apply H2; eauto].
Qed.
Lemma cut_spec s a v : cut s = (a, v) <-> s = a ++ tail v /\ ~ occurs "=" a.
Proof.
  revert a. induction s as [|c s IH]; intros a; cbn [cut].
  - split; [intros H; injection H as <- <-; split; [reflexivity|intros (x & y & E); destruct x; discriminate]|]. intros [H _]. destruct a; [|discriminate]. destruct v as [x|]; [discriminate|reflexivity].
  - destruct (Ascii.eqb c "=") eqn:E.
    + apply Ascii.eqb_eq in E as ->. split; [intros H; injection H as <- <-; split; [reflexivity|intros (x & y & E); destruct x; discriminate]|]. intros [H N]. destruct a as [|y a]; [destruct v as [x|]; [injection H as ->; reflexivity|discriminate]|].
      cbn in H. injection H as <- _. apply not_occurs in N as [N _]. congruence.
    + apply Ascii.eqb_neq in E. destruct (cut s) as [b w] eqn:Ec. split.
      * intros H. injection H as <- <-. destruct (proj1 (IH b) eq_refl) as [-> N]. split; [reflexivity|]. apply not_occurs. auto.
      * intros [H N]. destruct a as [|y a]; [destruct v as [x|]; [injection H; intros; congruence|discriminate]|]. cbn in H. injection H as <- H. apply not_occurs in N as [_ N]. assert (X : (b, w) = (a, v)) by (apply IH; auto). injection X as -> ->. reflexivity.
Qed.
Lemma flag_of_spec s n v : flag_of s = WFlag n v <-> flag_name n /\ s = n ++ tail v.
Proof.
  unfold flag_name. destruct s as [|c s]; cbn [flag_of]; [split; [discriminate|intros [(H & _) E]; destruct n; [congruence|discriminate]]|].
  destruct (Ascii.eqb c "-") eqn:E1; cbn [orb]. { apply Ascii.eqb_eq in E1 as ->. split; [discriminate|]. intros [(H1 & _ & H3) E]. destruct n as [|y n]; [congruence|]. cbn in E. injection E as <- _. destruct (H3 n eq_refl). }
  apply Ascii.eqb_neq in E1. destruct (Ascii.eqb c "=") eqn:E2. { apply Ascii.eqb_eq in E2 as ->. split; [discriminate|]. intros [(H1 & H2 & _) E]. destruct n as [|y n]; [congruence|]. cbn in E. injection E as <- _. apply not_occurs in H2 as [H2 _]. congruence. }
  apply Ascii.eqb_neq in E2. destruct (cut s) as [a w] eqn:Ec. apply cut_spec in Ec as [-> N]. split.
  - intros H. injection H as <- <-. split; [|reflexivity]. split; [discriminate|]. split; [apply not_occurs; auto|]. intros t X. injection X as X _. congruence.
  - intros [(H1 & H2 & H3) E]. destruct n as [|y n]; [congruence|]. cbn in E. injection E as -> E. apply not_occurs in H2 as [_ H2].
    assert (X : cut (a ++ tail w) = (a, w)) by (apply cut_spec; auto). assert (Y : cut (n ++ tail v) = (n, v)) by (apply cut_spec; auto). rewrite E in X. rewrite X in Y. injection Y as -> ->. reflexivity.
Qed.
Lemma word_flag s n v : word_of s = WFlag n v <-> flag_name n /\ exists d, (d = "-" \/ d = "--") /\ s = d ++ n ++ tail v.
Proof.
  destruct s as [|c [|c' s]]; cbn [word_of].
  - split; [discriminate|]. intros [_ (d & [->| ->] & E)]; discriminate.
  - split; [discriminate|]. intros [(H & _) (d & [->| ->] & E)]; destruct n; try congruence; discriminate.
  - destruct (Ascii.eqb c "-") eqn:E1; cbn [negb].
    + apply Ascii.eqb_eq in E1 as ->. destruct (Ascii.eqb c' "-") eqn:E2.
      * apply Ascii.eqb_eq in E2 as ->. destruct (String.eqb s "") eqn:E3.
        -- apply String.eqb_eq in E3 as ->. split; [discriminate|]. intros [(H1 & H2 & H3) (d & [->| ->] & E)]; cbn in E; destruct n as [|y n]; try congruence; cbn in E; [injection E as <- _; destruct (H3 n eq_refl)|discriminate].
        -- rewrite flag_of_spec. split.
           ++ intros [H ->]. split; [exact H|]. exists "--". auto.
           ++ intros [H (d & [->| ->] & E)]; (split; [exact H|]); cbn in E; [|congruence]. destruct H as (H1 & _ & H3). destruct n as [|y n]; [congruence|]. cbn in E. injection E as <- _. destruct (H3 n eq_refl).
      * rewrite flag_of_spec. apply Ascii.eqb_neq in E2. split.
        -- intros [H E]. split; [exact H|]. exists "-". rewrite E. auto.
        -- intros [H (d & [->| ->] & E)]; (split; [exact H|]); cbn in E; congruence.
    + apply Ascii.eqb_neq in E1. split; [discriminate|]. intros [_ (d & [->| ->] & E)]; cbn in E; congruence.
Qed.
Lemma flag_of_not s : flag_of s <> WArg /\ flag_of s <> WEnd.
Proof. destruct s as [|c s]; cbn [flag_of]; [split; discriminate|]. destruct (_ || _); [split; discriminate|]. destruct (cut s). split; discriminate. Qed.
Lemma word_arg s : word_of s = WArg <-> ~ dashed s.
Proof.
  unfold dashed. destruct s as [|c [|c' s]]; cbn [word_of].
  - split; [|reflexivity]. intros _ (t & E & _). discriminate.
  - split; [|reflexivity]. intros _ (t & E & N). injection E as _ <-. apply N. reflexivity.
  - destruct (Ascii.eqb c "-") eqn:E1; cbn [negb].
    + apply Ascii.eqb_eq in E1 as ->. split; [|intros H; destruct H; exists (String c' s); split; [reflexivity|discriminate]]. destruct (Ascii.eqb c' "-"); [destruct (String.eqb s ""); [discriminate|]|]; intros H; destruct (proj1 (flag_of_not _) H).
    + apply Ascii.eqb_neq in E1. split; [|reflexivity]. intros _ (t & E & _). cbn in E. congruence.
Qed.
Lemma word_end s : word_of s = WEnd <-> s = "--".
Proof.
  destruct s as [|c [|c' s]]; cbn [word_of]; try (split; discriminate). destruct (Ascii.eqb c "-") eqn:E1; cbn [negb].
  - apply Ascii.eqb_eq in E1 as ->. destruct (Ascii.eqb c' "-") eqn:E2.
    + apply Ascii.eqb_eq in E2 as ->. destruct (String.eqb s "") eqn:E3; [apply String.eqb_eq in E3 as ->; split; reflexivity|]. apply String.eqb_neq in E3. split; [intros H; destruct (proj2 (flag_of_not _) H)|congruence].
    + apply Ascii.eqb_neq in E2. split; [intros H; destruct (proj2 (flag_of_not _) H)|congruence].
  - apply Ascii.eqb_neq in E1. split; [discriminate|congruence].
Qed.
Lemma bool_words s b : parse_bool s = Some b <-> truth s b.
Proof.
  unfold parse_bool, truth. destruct (existsb (String.eqb s) ["1"; "t"; "T"; "TRUE"; "true"; "True"]) eqn:E1; [|destruct (existsb (String.eqb s) ["0"; "f"; "F"; "FALSE"; "false"; "False"]) eqn:E2].
  - pose proof E1 as E. apply existsb_exists in E as (x & Hx & E). apply String.eqb_eq in E as <-. split; [intros H; injection H as <-; left; auto|]. intros [[-> _]|[-> H]]; [reflexivity|]. exfalso. cbn in Hx, H. intuition (subst; discriminate).
  - pose proof E2 as E. apply existsb_exists in E as (x & Hx & E). apply String.eqb_eq in E as <-. split; [intros H; injection H as <-; right; auto|]. intros [[-> H]|[-> _]]; [|reflexivity]. exfalso. cbn in Hx, H. intuition (subst; discriminate).
  - split; [discriminate|]. intros [[_ H]|[_ H]]; exfalso.
    + assert (X : existsb (String.eqb s) ["1"; "t"; "T"; "TRUE"; "true"; "True"] = true) by (apply existsb_exists; exists s; split; [exact H|apply String.eqb_refl]). congruence.
    + assert (X : existsb (String.eqb s) ["0"; "f"; "F"; "FALSE"; "false"; "False"] = true) by (apply existsb_exists; exists s; split; [exact H|apply String.eqb_refl]). congruence.
Qed.

Section Parse.
  Variable compile : string -> option ((string -> string -> string) * (string -> bool)).
  Lemma rule_reads r v : match rule_set (compiles compile) r v with (r', true) => exists from to x, rule_text v from to /\ compile from = Some x /\ r' = (r ++ [(from, to)])%list | (r', false) => r' = r /\ ~ fits compile KRule v end.
  Proof.
    destruct (rule_set (compiles compile) r v) as [r' ok] eqn:E. apply rule_set_spec in E as [(-> & a & b & from & to & H1 & H2 & H3 & H4 & H5)|(-> & H1 & H2)].
    - unfold compiles in H4. destruct (compile from) as [x|] eqn:Ex; [|discriminate]. exists from, to, x. split; [exists a, b; auto|]. auto.
    - split; [exact H1|]. cbn [fits]. intros (from & to & x & (a & b & H3 & H4 & H5) & H6). specialize (H2 a b from H3 H4). unfold compiles in H2. rewrite H6 in H2. discriminate.
  Qed.
  Lemma accepts_fits k v : accepts compile k v = true <-> fits compile k v.
  Proof.
    destruct k; cbn [accepts fits].
    - destruct (parse_bool v) as [b|] eqn:E; [split; [intros _; exists b; apply bool_words; exact E|reflexivity]|]. split; [discriminate|]. intros (b & H). apply bool_words in H. congruence.
    - tauto.
    - pose proof (rule_reads [] v) as R. destruct (rule_set _ _ v) as [r' [|]]; cbn [snd]; [|cbn [fits] in R; split; [discriminate|tauto]]. destruct R as (from & to & x & H1 & H2 & _). split; [|reflexivity]. intros _. exists from, to, x. auto.
  Qed.
  Variable formal : string -> option kind.
  Hypothesis Names : forall n, formal n <> None -> flag_name n.
  Notation parse := (parse_flags compile formal).
  Notation line := (line compile formal).
  Lemma parse_sound : forall k args sets rest, List.length args <= k -> parse args = Some (sets, rest) -> line sets rest args.
  Proof.
    induction k as [|k IH]; intros args sets rest L H; (destruct args as [|s args]; [injection H as <- <-; constructor|]); cbn [List.length] in L; [lia|]. cbn [parse_flags] in H. destruct (word_of s) as [| | |n v] eqn:W; [| |discriminate|].
    - injection H as <- <-. constructor. apply word_arg. exact W.
    - injection H as <- <-. apply word_end in W as ->. constructor.
    - apply word_flag in W as [Fn (d & Hd & ->)]. destruct (formal n) as [ki|] eqn:Fo; [|discriminate].
      destruct v as [x|]; [|destruct ki]; cbn [tail] in *.
      + destruct (accepts compile ki x) eqn:A; [|destruct ki; discriminate]. apply accepts_fits in A.
        assert (H' : match parse args with Some (sets, rest) => Some ((n, x) :: sets, rest) | None => None end = Some (sets, rest)) by (destruct ki; exact H). clear H. destruct (parse args) as [[sets' rest']|] eqn:P; [|discriminate]. injection H' as <- <-.
        apply (ln_set compile formal (n, x) sets' rest' [d ++ n ++ "=" ++ x] args); [apply (wr_equals compile formal d n x ki); auto|apply IH; [lia|exact P]].
      + rewrite append_nil_r. destruct (parse args) as [[sets' rest']|] eqn:P; [|discriminate]. injection H as <- <-. apply (ln_set compile formal (n, "true") sets' rest' [d ++ n] args); [constructor; auto|apply IH; [lia|exact P]].
      + rewrite append_nil_r. destruct args as [|x args]; [discriminate|]. cbn [List.length accepts] in *. destruct (parse args) as [[sets' rest']|] eqn:P; [|discriminate]. injection H as <- <-.
        apply (ln_set compile formal (n, x) sets' rest' [d ++ n; x] args); [apply (wr_next compile formal d n x KText); auto; [discriminate|exact I]|apply IH; [lia|exact P]].
      + rewrite append_nil_r. destruct args as [|x args]; [discriminate|]. cbn [List.length] in *. destruct (accepts compile KRule x) eqn:A; [|discriminate]. apply accepts_fits in A. destruct (parse args) as [[sets' rest']|] eqn:P; [|discriminate]. injection H as <- <-.
        apply (ln_set compile formal (n, x) sets' rest' [d ++ n; x] args); [apply (wr_next compile formal d n x KRule); auto; discriminate|apply IH; [lia|exact P]].
  Qed.
  Lemma parse_complete sets rest args : line sets rest args -> parse args = Some (sets, rest).
  Proof.
    induction 1 as [|a rest H|rest|x sets rest a args W L IH]; [reflexivity| |reflexivity|].
    - cbn [parse_flags]. rewrite (proj2 (word_arg a) H). reflexivity.
    - inversion W as [d n v k Hd Fo Nb Fi|d n v k Hd Fo Fi|d n Hd Fo]; subst; assert (Fn : flag_name n) by (apply Names; congruence); cbn [app parse_flags].
      + rewrite (proj2 (word_flag (d ++ n) n None)); [|split; [exact Fn|]; exists d; cbn [tail]; rewrite append_nil_r; auto]. rewrite Fo. rewrite (proj2 (accepts_fits k v) Fi), IH. destruct k; [congruence|reflexivity|reflexivity].
      + rewrite (proj2 (word_flag _ n (Some v))); [|split; [exact Fn|]; exists d; auto]. rewrite Fo. rewrite (proj2 (accepts_fits k v) Fi), IH. destruct k; reflexivity.
      + rewrite (proj2 (word_flag (d ++ n) n None)); [|split; [exact Fn|]; exists d; cbn [tail]; rewrite append_nil_r; auto]. rewrite Fo, IH. reflexivity.
  Qed.
  Theorem flags_read args sets rest : parse args = Some (sets, rest) <-> line sets rest args.
  Proof. split; [apply (parse_sound (List.length args)); lia|apply parse_complete]. Qed.
  Lemma line_values sets rest args : line sets rest args -> forall n v k, In (n, v) sets -> formal n = Some k -> fits compile k v.
  Proof.
    induction 1 as [|a rest H|rest|x sets rest a args W L IH]; intros m u ki; try contradiction. intros [->|Hi] Fm; [|eauto]. inversion W as [d n v k Hd Fo Nb Fi|d n v k Hd Fo Fi|d n Hd Fo]; subst; try congruence.
    assert (ki = KBool) as -> by congruence. exists true. left. cbn. auto 10.
  Qed.
  Lemma line_known sets rest args : line sets rest args -> forall n v, In (n, v) sets -> formal n <> None.
  Proof. induction 1 as [|a rest H|rest|x sets rest a args W L IH]; intros m u; try contradiction. intros [->|Hi]; [|eauto]. inversion W; subst; congruence. Qed.
End Parse.

(* ---------- what the settings say ---------- *)
Definition last_of (n : string) (sets : list (string * string)) (d : string) : string := fold_left (fun a s => if String.eqb (fst s) n then snd s else a) sets d.
Definition all_of (n : string) (sets : list (string * string)) : list string := flat_map (fun s => if String.eqb (fst s) n then [snd s] else []) sets.
Lemma last_said n sets : forall d, said n d sets (last_of n sets d).
Proof.
  induction sets as [|[m v] sets IH]; intros d; unfold last_of; cbn [fold_left fst snd]; [right; auto|]. fold (last_of n sets (if String.eqb m n then v else d)). destruct (String.eqb m n) eqn:E.
  - apply String.eqb_eq in E as ->. destruct (IH v) as [(s1 & s2 & E1 & E2)|(E1 & E2)].
    + left. exists ((n, v) :: s1), s2. rewrite E1 at 1. auto.
    + left. exists [], sets. rewrite E1. auto.
  - apply String.eqb_neq in E. destruct (IH d) as [(s1 & s2 & E1 & E2)|(E1 & E2)].
    + left. exists ((m, v) :: s1), s2. rewrite E1 at 1. auto.
    + right. split; [exact E1|]. intros x [H|H]; [congruence|exact (E2 x H)].
Qed.
Lemma all_values n sets : values n sets (all_of n sets).
Proof. induction sets as [|[m v] sets IH]; [constructor|]. cbn [all_of flat_map fst snd]. fold (all_of n sets). destruct (String.eqb m n) eqn:E; [apply String.eqb_eq in E as ->; cbn [app]; constructor; exact IH|apply String.eqb_neq in E; constructor; auto]. Qed.
Lemma all_in n sets v : In v (all_of n sets) -> In (n, v) sets.
Proof. unfold all_of. rewrite in_flat_map. intros ([m u] & H1 & H2). cbn [fst snd] in H2. destruct (String.eqb m n) eqn:E; [|destruct H2]. apply String.eqb_eq in E as ->. destruct H2 as [->|[]]. exact H1. Qed.
Definition yes_of (n : string) (sets : list (string * string)) (d : bool) : bool := fold_left (fun a s => if String.eqb (fst s) n then set_bool a (snd s) else a) sets d.
Lemma yes_said n sets : (forall v, In (n, v) sets -> exists b, truth v b) -> said_yes n sets (yes_of n sets false).
Proof.
  intros H. assert (G : forall d b, parse_bool d = Some b -> parse_bool (last_of n sets d) = Some (yes_of n sets b)).
  { induction sets as [|[m v] sets IH]; intros d b E; unfold last_of, yes_of; cbn [fold_left fst snd]; [exact E|]. apply IH; [intros u Hu; apply H; right; exact Hu|]. destruct (String.eqb m n) eqn:Em; [|exact E]. apply String.eqb_eq in Em as ->.
    destruct (H v (or_introl eq_refl)) as (b' & T). apply bool_words in T. unfold set_bool. rewrite T. reflexivity. }
  exists (last_of n sets "false"). split; [apply last_said|]. apply bool_words. apply G. reflexivity.
Qed.

Lemma names_x n : formal_x n <> None -> flag_name n.
Proof.
  unfold formal_x. destruct (existsb (String.eqb n) ["pkg"; "o"; "ns"]) eqn:E1; [|destruct (existsb (String.eqb n) ["f"; "v"; "vv"]) eqn:E2; [|destruct (String.eqb n "r") eqn:E3; [|congruence]]]; intros _.
  1, 2: match goal with H : existsb _ _ = true |- _ => apply existsb_exists in H as (x & Hx & E); apply String.eqb_eq in E as <-; cbn in Hx end.
  3: apply String.eqb_eq in E3; assert (Hx : "r" = n \/ False) by auto. 
  all: repeat (destruct Hx as [<-|Hx]; [split; [discriminate|]; split; [intros (a & b & E); repeat (destruct a as [|? a]; cbn in E; [discriminate|]; injection E as _ E); destruct a; discriminate|intros s; discriminate]|]); destruct Hx.
Qed.
Lemma names_w n : formal_w n <> None -> flag_name n.
Proof.
  unfold formal_w. destruct (existsb (String.eqb n) ["pkg"; "c"; "o"; "port"]) eqn:E1; [|destruct (existsb (String.eqb n) ["v"; "vv"]) eqn:E2; [|destruct (String.eqb n "r") eqn:E3; [|congruence]]]; intros _.
  1, 2: match goal with H : existsb _ _ = true |- _ => apply existsb_exists in H as (x & Hx & E); apply String.eqb_eq in E as <-; cbn in Hx end.
  3: apply String.eqb_eq in E3; assert (Hx : "r" = n \/ False) by auto.
  all: repeat (destruct Hx as [<-|Hx]; [split; [discriminate|]; split; [intros (a & b & E); repeat (destruct a as [|? a]; cbn in E; [discriminate|]; injection E as _ E); destruct a; discriminate|intros s; discriminate]|]); destruct Hx.
Qed.
Lemma names_p n : formal_p n <> None -> flag_name n.
Proof.
  unfold formal_p. destruct (String.eqb n "ns") eqn:E3; [|congruence]. intros _. apply String.eqb_eq in E3 as ->. split; [discriminate|]. split; [|intros s; discriminate]. intros (a & b & E). repeat (destruct a as [|? a]; cbn in E; [discriminate|]; injection E as _ E); destruct a; discriminate.
Qed.

Section Says.
  Variable compile : string -> option ((string -> string -> string) * (string -> bool)).
  Notation set_x := (set_x compile).
  Notation set_w := (set_w compile).
  Notation rule_of s r := (exists from m, rule_text s from (snd r) /\ compile from = Some (fst r, m)).
  Notation got v := (flat_map (compiled compile) (fst (rule_set (compiles compile) [] v))).
  Ltac cases n := repeat match goal with |- context [if String.eqb n ?k then _ else _] =>
    let Q := fresh "Q" in destruct (String.eqb n k) eqn:Q; [apply String.eqb_eq in Q; subst n; cbn -[rule_set flat_map]; rewrite ?List.app_nil_r; repeat split; reflexivity|] end.
  Lemma step_x f n v : formal_x n <> None -> let g := set_x f (n, v) in
    fl_files g = fl_files f /\ fl_pkg g = (if String.eqb n "pkg" then v else fl_pkg f) /\ fl_out g = (if String.eqb n "o" then v else fl_out f) /\ fl_ns g = (fl_ns f ++ if String.eqb n "ns" then [v] else [])%list /\
    fl_follow g = (if String.eqb n "f" then set_bool (fl_follow f) v else fl_follow f) /\ fl_v g = (if String.eqb n "v" then set_bool (fl_v f) v else fl_v f) /\ fl_vv g = (if String.eqb n "vv" then set_bool (fl_vv f) v else fl_vv f) /\
    fl_rules g = (fl_rules f ++ if String.eqb n "r" then got v else [])%list.
  Proof. intros Fo g. subst g. cbn [ArgsModel.set_x]. cases n. exfalso. apply Fo. unfold formal_x. cbn [existsb]. rewrite Q, Q0, Q1, Q2, Q3, Q4, Q5. reflexivity. Qed.
  Lemma fold_x : forall sets f, (forall n v, In (n, v) sets -> formal_x n <> None) -> let g := fold_left set_x sets f in
    fl_files g = fl_files f /\ fl_pkg g = last_of "pkg" sets (fl_pkg f) /\ fl_out g = last_of "o" sets (fl_out f) /\ fl_ns g = (fl_ns f ++ all_of "ns" sets)%list /\
    fl_follow g = yes_of "f" sets (fl_follow f) /\ fl_v g = yes_of "v" sets (fl_v f) /\ fl_vv g = yes_of "vv" sets (fl_vv f) /\
    fl_rules g = (fl_rules f ++ flat_map (fun v => got v) (all_of "r" sets))%list.
  Proof.
    induction sets as [|[n v] sets IH]; intros f K g; [subst g; cbn; rewrite !List.app_nil_r; auto 10|]. subst g. cbn [fold_left]. destruct (IH (set_x f (n, v)) (fun a b H => K a b (or_intror H))) as (I1 & I2 & I3 & I4 & I5 & I6 & I7 & I8).
    destruct (step_x f n v (K n v (or_introl eq_refl))) as (S1 & S2 & S3 & S4 & S5 & S6 & S7 & S8). rewrite I1, I2, I3, I4, I5, I6, I7, I8, S1, S2, S3, S4, S5, S6, S7, S8.
    unfold last_of, yes_of, all_of. cbn [fold_left flat_map fst snd]. rewrite <- !app_assoc, flat_map_app. repeat split; try reflexivity. destruct (String.eqb n "r"); cbn [flat_map app]; rewrite ?List.app_nil_r; reflexivity.
  Qed.
  Lemma step_w f n v : formal_w n <> None -> let g := set_w f (n, v) in
    wf_files g = wf_files f /\ wf_pkg g = (if String.eqb n "pkg" then v else wf_pkg f) /\ wf_comment g = (if String.eqb n "c" then v else wf_comment f) /\ wf_out g = (if String.eqb n "o" then v else wf_out f) /\ wf_ports g = (wf_ports f ++ if String.eqb n "port" then [v] else [])%list /\
    wf_v g = (if String.eqb n "v" then set_bool (wf_v f) v else wf_v f) /\ wf_vv g = (if String.eqb n "vv" then set_bool (wf_vv f) v else wf_vv f) /\
    wf_rules g = (if String.eqb n "r" then fst (rule_set (compiles compile) (wf_rules f) v) else wf_rules f).
  Proof. intros Fo g. subst g. cbn [ArgsModel.set_w]. cases n. exfalso. apply Fo. unfold formal_w. cbn [existsb]. rewrite Q, Q0, Q1, Q2, Q3, Q4, Q5. reflexivity. Qed.
  Lemma fold_w : forall sets f, (forall n v, In (n, v) sets -> formal_w n <> None) -> let g := fold_left set_w sets f in
    wf_files g = wf_files f /\ wf_pkg g = last_of "pkg" sets (wf_pkg f) /\ wf_comment g = last_of "c" sets (wf_comment f) /\ wf_out g = last_of "o" sets (wf_out f) /\ wf_ports g = (wf_ports f ++ all_of "port" sets)%list /\
    wf_v g = yes_of "v" sets (wf_v f) /\ wf_vv g = yes_of "vv" sets (wf_vv f) /\
    wf_rules g = rule_sets (compiles compile) (wf_rules f) (all_of "r" sets).
  Proof.
    induction sets as [|[n v] sets IH]; intros f K g; [subst g; cbn; rewrite !List.app_nil_r; auto 10|]. subst g. cbn [fold_left]. destruct (IH (set_w f (n, v)) (fun a b H => K a b (or_intror H))) as (I1 & I2 & I3 & I4 & I5 & I6 & I7 & I8).
    destruct (step_w f n v (K n v (or_introl eq_refl))) as (S1 & S2 & S3 & S4 & S5 & S6 & S7 & S8). rewrite I1, I2, I3, I4, I5, I6, I7, I8, S1, S2, S3, S4, S5, S6, S7, S8.
    unfold last_of, yes_of, all_of. cbn [fold_left flat_map fst snd]. rewrite <- !app_assoc. repeat split; try reflexivity. destruct (String.eqb n "r"); reflexivity.
  Qed.
  Theorem flags_x_say sets rest args : line compile formal_x sets rest args -> args_x compile args = Some (flags_x compile sets rest) /\ says_x compile sets rest (flags_x compile sets rest).
  Proof.
    intros L. split; [unfold args_x; rewrite (proj2 (flags_read compile formal_x names_x args sets rest) L); reflexivity|]. pose proof (line_values compile formal_x _ _ _ L) as V.
    destruct (fold_x sets (mkFlags rest [] [] "" "xsdgen_output.go" false false false) (line_known compile formal_x _ _ _ L)) as (S1 & S2 & S3 & S4 & S5 & S6 & S7 & S8). unfold says_x, flags_x. rewrite S1, S2, S3, S4, S5, S6, S7, S8. cbn [fl_files fl_pkg fl_out fl_ns fl_follow fl_v fl_vv fl_rules app].
    assert (B : forall n, formal_x n = Some KBool -> forall v, In (n, v) sets -> exists b, truth v b) by (intros n Fn v Hv; exact (V n v KBool Hv Fn)).
    split; [reflexivity|]. split; [apply last_said|]. split; [apply last_said|]. split; [apply all_values|]. split; [apply yes_said, B; reflexivity|]. split; [apply yes_said, B; reflexivity|]. split; [apply yes_said, B; reflexivity|].
    exists (all_of "r" sets). split; [apply all_values|]. assert (R : forall v, In v (all_of "r" sets) -> fits compile KRule v) by (intros v Hv; exact (V "r" v KRule (all_in _ _ _ Hv) eq_refl)).
    clear - R. induction (all_of "r" sets) as [|v l IH]; [constructor|]. cbn [flat_map]. pose proof (rule_reads compile [] v) as Q. destruct (rule_set (compiles compile) [] v) as [r' [|]].
    - destruct Q as (from & to & [rx m] & H1 & H2 & ->). cbn [fst app flat_map compiled snd]. unfold compiled at 1. cbn [fst snd]. rewrite H2. cbn [app]. constructor; [exists from, m; auto|]. apply IH. intros u Hu. apply R. right. exact Hu.
    - destruct Q as [_ Q]. destruct (Q (R v (or_introl eq_refl))).
  Qed.
  Theorem flags_w_say sets rest args : line compile formal_w sets rest args -> args_w compile args = Some (flags_w compile sets rest) /\ says_w sets rest (flags_w compile sets rest).
  Proof.
    intros L. split; [unfold args_w; rewrite (proj2 (flags_read compile formal_w names_w args sets rest) L); reflexivity|]. pose proof (line_values compile formal_w _ _ _ L) as V.
    destruct (fold_w sets (mkWflags rest [] [] "" "" "wsdlgen_output.go" false false) (line_known compile formal_w _ _ _ L)) as (S1 & S2 & S3 & S4 & S5 & S6 & S7 & S8). unfold says_w, flags_w. rewrite S1, S2, S3, S4, S5, S6, S7, S8. cbn [wf_files wf_pkg wf_comment wf_out wf_ports wf_v wf_vv wf_rules app].
    assert (B : forall n, formal_w n = Some KBool -> forall v, In (n, v) sets -> exists b, truth v b) by (intros n Fn v Hv; exact (V n v KBool Hv Fn)).
    split; [reflexivity|]. do 3 (split; [apply last_said|]). split; [apply all_values|]. do 2 (split; [apply yes_said, B; reflexivity|]).
    exists (all_of "r" sets). split; [apply all_values|]. assert (R : forall v, In v (all_of "r" sets) -> fits compile KRule v) by (intros v Hv; exact (V "r" v KRule (all_in _ _ _ Hv) eq_refl)).
    assert (G : forall l r0 l0, (forall v, In v l -> fits compile KRule v) -> Forall2 (fun s r => rule_text s (fst r) (snd r)) l0 r0 -> Forall2 (fun s r => rule_text s (fst r) (snd r)) (l0 ++ l) (rule_sets (compiles compile) r0 l)).
    { clear. induction l as [|v l IH]; intros r0 l0 R F; [rewrite List.app_nil_r; exact F|]. unfold rule_sets. cbn [fold_left]. fold (rule_sets (compiles compile) (fst (rule_set (compiles compile) r0 v)) l). pose proof (rule_reads compile r0 v) as Q. destruct (rule_set (compiles compile) r0 v) as [r' [|]]; cbn [fst].
      - destruct Q as (from & to & x & H1 & H2 & ->). replace (l0 ++ v :: l)%list with ((l0 ++ [v]) ++ l)%list by (rewrite <- app_assoc; reflexivity). apply IH; [intros u Hu; apply R; right; exact Hu|]. apply Forall2_app; [exact F|]. constructor; [exact H1|constructor].
      - destruct Q as [_ Q]. destruct (Q (R v (or_introl eq_refl))). }
    exact (G (all_of "r" sets) [] [] R (Forall2_nil _)).
  Qed.
  Theorem args_fail formal args : (forall n, formal n <> None -> flag_name n) -> (parse_flags compile formal args = None <-> forall sets rest, ~ line compile formal sets rest args).
  Proof.
    intros Nm. split.
    - intros H sets rest L. apply (flags_read compile formal Nm) in L. congruence.
    - intros H. destruct (parse_flags compile formal args) as [[sets rest]|] eqn:E; [|reflexivity]. apply (flags_read compile formal Nm) in E. destruct (H _ _ E).
  Qed.
End Says.

(* ---------- the commands ---------- *)
Theorem xsdgen_does (T Sp Log : Type) compile (sat : T -> T) (sas : Sp -> Sp) (ufn : T -> T) (D A : Type) (tree : D -> option elem) (targets : list D -> list string) (refused : list string -> list D -> bool) (generate : xconf T Sp Log -> list Z * list string -> list D -> run A * (list Z * list string)) (format : A -> string -> option D) (writable : string -> bool) (fuel : nat) (w : world T Sp Log D) (i : nat) (c : xconf T Sp Log) (args : list string) :
  nth_error (w_confs _ _ _ _ w) i = Some c ->
  args_x compile args = None /\ (forall sets rest, ~ line compile formal_x sets rest args) \/
  exists sets rest f w' r out, line compile formal_x sets rest args /\ args_x compile args = Some f /\ says_x compile sets rest f /\ said "o" "xsdgen_output.go" sets out /\
    gen_cli T Sp Log compile sat sas ufn D A tree targets refused generate format writable fuel w i f = Some (w', r) /\
    (r <> Ret tt -> w_files _ _ _ _ w' = w_files _ _ _ _ w) /\ (rest = [] -> r = Fail /\ w' = w) /\
    (r = Ret tt -> exists d, forall n, w_files _ _ _ _ w' n = if String.eqb n out then Some d else w_files _ _ _ _ w n).
Proof.
  intros Hc. destruct (parse_flags compile formal_x args) as [[sets rest]|] eqn:E.
  - right. apply (flags_read compile formal_x names_x) in E. destruct (flags_x_say compile sets rest args E) as [Ef S]. exists sets, rest, (flags_x compile sets rest).
    destruct (cli_does T Sp Log compile sat sas ufn D A tree targets refused generate format writable fuel w i (flags_x compile sets rest) c Hc) as (w' & r & G & H1 & H2 & _ & H3 & _). exists w', r, (fl_out (flags_x compile sets rest)).
    split; [exact E|]. split; [exact Ef|]. split; [exact S|]. destruct S as (S1 & _ & S3 & _). split; [exact S3|]. split; [exact G|]. split; [exact H1|]. split; [intros ->; destruct (H3 S1); auto|]. intros Hr. destruct (H2 Hr) as (a & d & _ & _ & H). exists d. exact H.
  - left. split; [unfold args_x; rewrite E; reflexivity|]. apply (args_fail compile formal_x args names_x). exact E.
Qed.
Theorem wsdlgen_does (T Sp Log : Type) compile (sat : T -> T) (sas : Sp -> Sp) (ufn : T -> T) (D A : Type) (targets : list D -> list string) (refused : list string -> list D -> bool) (generate : xconf T Sp Log -> list Z * list string -> list D -> run A * (list Z * list string)) (format : A -> string -> option D) (writable : string -> bool) (Def : Type) (wsdl_parse : D -> option Def) (emit : wconf Log -> Def -> A -> option A) (w : world T Sp Log D) (v : wconf Log) (args : list string) :
  args_w compile args = None /\ (forall sets rest, ~ line compile formal_w sets rest args) \/
  exists sets rest f out, line compile formal_w sets rest args /\ args_w compile args = Some f /\ says_w sets rest f /\ said "o" "wsdlgen_output.go" sets out /\
    forall w' v' r, wsdl_gen_cli T Sp Log compile sat sas ufn D A targets refused generate format writable Def wsdl_parse emit w v f = Some (w', v', r) ->
      (r <> Ret tt -> w_files _ _ _ _ w' = w_files _ _ _ _ w) /\
      (r = Ret tt -> rest <> [] /\ (forall n, In n rest -> w_files _ _ _ _ w n <> None) /\ exists d, forall n, w_files _ _ _ _ w' n = if String.eqb n out then Some d else w_files _ _ _ _ w n).
Proof.
  destruct (parse_flags compile formal_w args) as [[sets rest]|] eqn:E.
  - right. apply (flags_read compile formal_w names_w) in E. destruct (flags_w_say compile sets rest args E) as [Ef S]. exists sets, rest, (flags_w compile sets rest), (wf_out (flags_w compile sets rest)).
    split; [exact E|]. split; [exact Ef|]. split; [exact S|]. destruct S as (S1 & _ & _ & S3 & _). split; [exact S3|]. intros w' v' r G.
    destruct (wsdl_cli_does T Sp Log compile sat sas ufn D A targets refused generate format writable Def wsdl_parse emit w v _ w' v' r G) as [H1 H2]. split; [exact H1|]. intros Hr. destruct (H2 Hr) as ((a & d & _ & _ & H) & H3 & H4). rewrite S1 in H3, H4. split; [exact H3|]. split; [exact H4|]. exists d. exact H.
  - left. split; [unfold args_w; rewrite E; reflexivity|]. apply (args_fail compile formal_w args names_w). exact E.
Qed.
Theorem xsdparse_reads compile args ns files : args_p compile args = Some (ns, files) <-> exists sets, line compile formal_p sets files args /\ files <> [] /\ said "ns" "" sets ns.
Proof.
  assert (L : forall sets rest, line compile formal_p sets rest args -> fold_left (fun (_ : string) (s : string * string) => snd s) sets "" = last_of "ns" sets "").
  { intros sets rest L. pose proof (line_known compile formal_p _ _ _ L) as K. clear L. cut (forall d, fold_left (fun (_ : string) (s : string * string) => snd s) sets d = last_of "ns" sets d); [auto|]. unfold last_of.
    induction sets as [|[n v] sets IH]; intros d; [reflexivity|]. cbn [fold_left fst snd]. destruct (String.eqb n "ns") eqn:X; [|destruct (K n v (or_introl eq_refl)); unfold formal_p; rewrite X; reflexivity]. apply IH. intros a b H. apply (K a b). right. exact H. }
  assert (U : forall sets v v', said "ns" "" sets v -> said "ns" "" sets v' -> v = v').
  { intros sets v v' [(s1 & s2 & -> & H)|(-> & H)] [(t1 & t2 & E & G)|(-> & G)].
    - revert t1 E. induction s1 as [|x s1 IH]; intros [|y t1] E; cbn [app] in E; injection E as E1 E2.
      + congruence.
      + exfalso. apply (H v'). rewrite E2. apply in_or_app. right. left. reflexivity.
      + exfalso. apply (G v). rewrite <- E2. apply in_or_app. right. left. reflexivity.
      + exact (IH t1 E2).
    - destruct (G v). apply in_or_app. right. left. reflexivity.
    - destruct (H v'). rewrite E. apply in_or_app. right. left. reflexivity.
    - reflexivity. }
  unfold args_p. split.
  - destruct (parse_flags compile formal_p args) as [[sets [|x rest]]|] eqn:E; try discriminate. apply (flags_read compile formal_p names_p) in E. intros H. injection H as <- <-. exists sets. split; [exact E|]. split; [discriminate|]. rewrite (L _ _ E). apply last_said.
  - intros (sets & H1 & H2 & H3). rewrite (proj2 (flags_read compile formal_p names_p args sets files) H1). destruct files as [|x rest]; [congruence|]. rewrite (L _ _ H1). f_equal. f_equal. exact (U sets _ _ (last_said "ns" sets "") H3).
Qed.
