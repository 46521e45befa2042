(* Scanning lemmas: the decoder model reads back what Marshal writes. *)
From Verif Require Import Base ScopeModel ScopeSpec ScopeProofs TreeModel ParseModel DecodeModel MarshalSpec.
Local Open Scope string_scope.

Lemma take_while_app f a b : s_all f a = true ->
  (forall c r, b = String c r -> f c = false) -> take_while f (a ++ b) = (a, b).
Proof.
  induction a as [|c a IH]; cbn [s_all append]; intros Ha Hb.
  - destruct b as [|c r]; auto. cbn. rewrite (Hb c r eq_refl). auto.
  - apply andb_true_iff in Ha as [Hc Ha]. cbn [take_while]. rewrite Hc, IH; auto.
Qed.

Lemma take_while_len f s : String.length (fst (take_while f s)) + String.length (snd (take_while f s)) = String.length s.
Proof.
  induction s as [|c s IH]; auto. cbn [take_while]. destruct (f c); [|cbn; auto].
  destruct (take_while f s) as [a b]. cbn [fst snd String.length] in *. lia.
Qed.

Lemma letter_name_start c : letter c = true -> name_start_byte c = true.
Proof. unfold letter, name_start_byte, in_range. intros H. apply orb_true_iff. left. auto. Qed.

Lemma name_char_byte c : name_char c = true -> name_byte c = true.
Proof.
  unfold name_char, name_byte. intros H.
  rewrite !orb_true_iff in *. unfold in_range. intuition auto using letter_name_start.
Qed.

Lemma s_all_impl (f g : ascii -> bool) s : (forall c, f c = true -> g c = true) -> s_all f s = true -> s_all g s = true.
Proof. intros H. induction s; cbn; auto. rewrite !andb_true_iff. intros [? ?]; auto. Qed.

Lemma ncname_bytes s : ncname s = true -> s_all name_byte s = true /\
  exists c r, s = String c r /\ name_start_byte c = true.
Proof.
  destruct s as [|c s]; cbn; [discriminate|]. rewrite andb_true_iff. intros [Hc Hs]. split.
  - rewrite andb_true_iff. split; [apply name_char_byte; unfold name_char; rewrite Hc; auto|].
    eapply s_all_impl; [apply name_char_byte|auto].
  - exists c, s. split; auto. apply letter_name_start; auto.
Qed.

Definition breaks (b : string) := forall c r, b = String c r -> name_byte c = false.

Lemma take_name_nc n b : ncname n = true -> breaks b -> take_name (n ++ b) = Some (n, b).
Proof.
  intros Hn Hb. apply ncname_bytes in Hn as [Ha (c & r & -> & Hc)]. unfold take_name.
  rewrite take_while_app by auto. rewrite Hc. auto.
Qed.

Lemma take_name_qual p n b : ncname p = true -> ncname n = true -> breaks b ->
  take_name (p ++ ":" ++ n ++ b) = Some (p ++ ":" ++ n, b).
Proof.
  intros Hp Hn Hb. apply ncname_bytes in Hn as [Ha _]. apply ncname_bytes in Hp as [Hp (c & r & -> & Hc)].
  unfold take_name.
  replace (String c r ++ ":" ++ n ++ b) with ((String c r ++ ":" ++ n) ++ b) by (rewrite <- !sapp_assoc; auto).
  rewrite take_while_app; auto.
  - cbn [append]. rewrite Hc. auto.
  - rewrite s_all_app, Hp. cbn. auto.
Qed.

(* a written qualified name: an NCName, or two joined by a colon *)
Definition qname_ok (q : string) : Prop :=
  ncname q = true \/ exists p l, q = p ++ ":" ++ l /\ ncname p = true /\ ncname l = true.

Lemma take_name_ok q b : qname_ok q -> breaks b -> take_name (q ++ b) = Some (q, b).
Proof.
  intros [H|(p & l & -> & Hp & Hl)] Hb; [apply take_name_nc; auto|].
  rewrite <- !sapp_assoc. apply take_name_qual; auto.
Qed.

Lemma qname_ok_start q b : qname_ok q -> exists c r, q ++ b = String c r /\ name_start_byte c = true /\
  Ascii.eqb c ":" = false.
Proof.
  assert (G : forall n b', ncname n = true -> exists c r, n ++ b' = String c r /\ name_start_byte c = true /\ Ascii.eqb c ":" = false).
  { intros [|c n] b' Hn; [discriminate|]. exists c, (n ++ b'). split; auto. cbn in Hn.
    apply andb_true_iff in Hn as [Hc _]. split; [apply letter_name_start; auto|].
    destruct (Ascii.eqb c ":") eqn:E; auto. apply Ascii.eqb_eq in E; subst. vm_compute in Hc; discriminate. }
  intros [H|(p & l & -> & Hp & Hl)]; [apply G; auto|]. rewrite <- sapp_assoc. apply G; auto.
Qed.

Lemma skip_space_start c r : space_byte c = false -> skip_space (String c r) = String c r.
Proof. intros H. unfold skip_space. cbn. rewrite H. auto. Qed.

Lemma name_start_not_space c : name_start_byte c = true -> space_byte c = false.
Proof. destruct c as [[] [] [] [] [] [] [] []]; vm_compute; auto. Qed.
Lemma name_start_not_slash c : name_start_byte c = true -> Ascii.eqb c "/" = false.
Proof. destruct c as [[] [] [] [] [] [] [] []]; vm_compute; auto. Qed.
Lemma name_start_not_gt c : name_start_byte c = true -> Ascii.eqb c ">" = false.
Proof. destruct c as [[] [] [] [] [] [] [] []]; vm_compute; auto. Qed.

Lemma plain_byte_char c : plain_byte c = true -> char_byte c = true /\ Ascii.eqb c "<" = false /\
  Ascii.eqb c "&" = false /\ Ascii.eqb c "013" = false.
Proof. destruct c as [[] [] [] [] [] [] [] []]; vm_compute; auto; discriminate. Qed.

Lemma take_value_ok v rest : value_ok v = true -> forall fuel, String.length v < fuel ->
  take_value fuel """" (v ++ String """" rest) = Some (v, rest).
Proof.
  unfold value_ok. induction v as [|c v IH]; intros Hv [|fuel] Hf; try (cbn in Hf; lia).
  - reflexivity.
  - cbn [s_all] in Hv. apply andb_true_iff in Hv as [Hc Hv]. apply andb_true_iff in Hc as [Hp Hq].
    apply negb_true_iff in Hq. apply plain_byte_char in Hp as (H1 & H2 & H3 & H4).
    cbn [append take_value]. rewrite Hq, H2, H3, H1, H4. cbn [negb orb].
    rewrite IH; auto. cbn in Hf; lia.
Qed.

(* ---- attributes ---- *)
Definition attr_str (qv : string * string) : string :=
  " " ++ fst qv ++ "=""" ++ snd qv ++ """".
Definition attrs_str (l : list (string * string)) : string :=
  fold_right (fun qv s => attr_str qv ++ s) "" l.

Lemma breaks_eq s : breaks (String "=" s).
Proof. intros c r [= <- <-]. reflexivity. Qed.
Lemma breaks_space s : breaks (String " " s).
Proof. intros c r [= <- <-]. reflexivity. Qed.
Lemma breaks_gt s : breaks (String ">" s).
Proof. intros c r [= <- <-]. reflexivity. Qed.

Lemma take_attrs_ok l (sc : bool) rest : 
  (forall q v, In (q, v) l -> qname_ok q /\ value_ok v = true) ->
  forall fuel, List.length l < fuel ->
  take_attrs fuel (attrs_str l ++ (if sc then " />" else ">") ++ rest) = Some (l, sc, rest).
Proof.
  intros Hl. induction l as [|[q v] l IH]; intros [|fuel] Hf; try (cbn in Hf; lia).
  - destruct sc; reflexivity.
  - destruct (Hl q v (or_introl eq_refl)) as [Hq Hv].
    set (T := attrs_str l ++ (if sc then " />" else ">") ++ rest).
    assert (E : attrs_str ((q, v) :: l) ++ (if sc then " />" else ">") ++ rest =
                String " " (q ++ String "=" (String """" (v ++ String """" T)))).
    { cbn [attrs_str fold_right]. unfold attr_str at 1. cbn [fst snd].
      repeat (rewrite <- ?sapp_assoc; cbn [append]).
      reflexivity. }
    rewrite E. clear E. cbn [take_attrs].
    destruct (qname_ok_start q (String "=" (String """" (v ++ String """" T))) Hq) as (c & r & Ec & Hc & _).
    assert (Es : skip_space (String " " (q ++ String "=" (String """" (v ++ String """" T)))) =
                 q ++ String "=" (String """" (v ++ String """" T))).
    { unfold skip_space. cbn [take_while space_byte Ascii.eqb Bool.eqb orb].
      rewrite Ec. cbn [take_while]. rewrite (name_start_not_space _ Hc). auto. }
    rewrite Es, Ec. rewrite (name_start_not_slash _ Hc), (name_start_not_gt _ Hc). rewrite <- Ec.
    rewrite take_name_ok by (auto using breaks_eq).
    rewrite skip_space_start by reflexivity. cbn [Ascii.eqb Bool.eqb negb].
    rewrite skip_space_start by reflexivity. cbn [Ascii.eqb Bool.eqb orb].
    rewrite take_value_ok by (auto; rewrite slen_app; cbn; lia).
    unfold T. rewrite IH; auto.
    + intros q' v' Hin. apply Hl; cbn; auto.
    + cbn in Hf; lia.
Qed.

Lemma attrs_str_len l : List.length l <= String.length (attrs_str l).
Proof.
  induction l as [|[q v] l IH]; [auto|].
  change (attrs_str ((q, v) :: l)) with (attr_str (q, v) ++ attrs_str l).
  rewrite slen_app. unfold attr_str. cbn [append String.length List.length fst snd]. lia.
Qed.

(* ---- tokens ---- *)
Lemma raw_start q l (sc : bool) rest : qname_ok q ->
  (forall q' v, In (q', v) l -> qname_ok q' /\ value_ok v = true) ->
  raw_token ("<" ++ q ++ attrs_str l ++ (if sc then " />" else ">") ++ rest) = Some (RStart q l sc, rest).
Proof.
  intros Hq Hl. cbn [append].
  set (T := attrs_str l ++ (if sc then " />" else ">") ++ rest).
  destruct (qname_ok_start q T Hq) as (c & r & Ec & Hc & _).
  unfold raw_token. cbn [Ascii.eqb Bool.eqb]. rewrite Ec. rewrite (name_start_not_slash _ Hc). rewrite <- Ec.
  rewrite take_name_ok; auto.
  - unfold T at 2. rewrite take_attrs_ok; auto.
    unfold T. rewrite slen_app. pose proof (attrs_str_len l). lia.
  - unfold T. destruct l as [|[q' v] l]; [destruct sc; cbn [attrs_str fold_right append]; auto using breaks_space, breaks_gt|].
    cbn [attrs_str fold_right]. unfold attr_str. rewrite <- !sapp_assoc. apply breaks_space.
Qed.

Lemma raw_end q rest : qname_ok q -> raw_token ("</" ++ q ++ ">" ++ rest) = Some (REnd q, rest).
Proof.
  intros Hq. cbn [append]. unfold raw_token. cbn [Ascii.eqb Bool.eqb].
  rewrite take_name_ok by (auto using breaks_gt). rewrite skip_space_start by reflexivity.
  cbn [Ascii.eqb Bool.eqb]. auto.
Qed.

Lemma prefix_cons a p b s : String.prefix (String a p) (String b s) = Ascii.eqb a b && String.prefix p s.
Proof.
  cbn [String.prefix]. destruct (ascii_dec a b) as [->|Hne]; [rewrite Ascii.eqb_refl; auto|].
  apply Ascii.eqb_neq in Hne. rewrite Hne. auto.
Qed.
Lemma prefix_nil s : String.prefix "" s = true.
Proof. destruct s; auto. Qed.
Lemma prefix_app_lt s r : String.prefix "]]>" s = false -> String.prefix "]]>" (s ++ String "<" r) = false.
Proof.
  destruct s as [|a [|b [|c s]]]; cbn [append]; rewrite ?prefix_cons, ?prefix_nil; intros H;
    rewrite ?andb_false_r; auto.
Qed.

Lemma strip_app p s : strip p (p ++ s) = Some s.
Proof.
  unfold strip.
  assert (Hp : String.prefix p (p ++ s) = true).
  { induction p as [|c p IH]; cbn; [destruct s; auto|]. destruct (ascii_dec c c); auto. }
  rewrite Hp, slen_app, Nat.add_comm, Nat.add_sub. f_equal.
  induction p as [|c p IH]; cbn [append String.length substring].
  - clear Hp. induction s as [|c s IHs]; cbn; auto. f_equal; auto.
  - apply IH. cbn in Hp. destruct (ascii_dec c c); auto.
Qed.

Lemma take_entity_ok e s : In e entities -> exists d e', e = String "&" e' /\ take_entity (e' ++ s) = Some (d, s).
Proof.
  intros [<-|[<-|[<-|[<-|[<-|[]]]]]]; eexists _, _; (split; [reflexivity|]); unfold take_entity.
  - rewrite strip_app. reflexivity.
  - rewrite (strip_app "gt;"). reflexivity.
  - rewrite (strip_app "amp;"). reflexivity.
  - rewrite (strip_app "apos;"). reflexivity.
  - rewrite (strip_app "quot;"). reflexivity.
Qed.

Lemma take_text_ok c r : char_data c -> forall fuel, String.length c < fuel ->
  take_text fuel (c ++ String "<" r) = Some (String "<" r).
Proof.
  induction 1 as [|x s Hx Hp Hs IH|e s He Hs IH]; intros [|fuel] Hf; try (cbn in Hf; lia).
  - reflexivity.
  - cbn [append take_text]. apply plain_byte_char in Hx as (H1 & H2 & H3 & H4).
    rewrite H2, H3, H1. cbn [negb].
    change (String x (s ++ String "<" r)) with (String x s ++ String "<" r).
    rewrite (prefix_app_lt _ r Hp). apply IH. cbn in Hf; lia.
  - destruct (take_entity_ok e (s ++ String "<" r) He) as (d & e' & -> & E).
    rewrite <- sapp_assoc. cbn [append take_text Ascii.eqb Bool.eqb]. rewrite E.
    apply IH. rewrite slen_app in Hf. cbn in Hf. lia.
Qed.

Lemma raw_text c r : char_data c -> c <> "" ->
  raw_token (c ++ String "<" r) = Some (RText, String "<" r).
Proof.
  intros Hc Hne. unfold raw_token.
  assert (exists x y, c ++ String "<" r = String x y /\ Ascii.eqb x "<" = false) as (x & y & E & Hx).
  { destruct Hc as [|x s Hx|e s He].
    - congruence.
    - exists x, (s ++ String "<" r). split; auto. apply plain_byte_char in Hx; tauto.
    - destruct (take_entity_ok e "" He) as (d & e' & -> & _). exists "&"%char, ((e' ++ s) ++ String "<" r).
      split; auto. }
  rewrite E, Hx. rewrite <- E. rewrite take_text_ok; auto. rewrite slen_app; lia.
Qed.

(* ---- consumption: raw_token makes progress, so the fuel of raw_tokens never matters ---- *)
Lemma skip_space_len s : String.length (skip_space s) <= String.length s.
Proof. unfold skip_space. pose proof (take_while_len space_byte s). lia. Qed.

Lemma take_name_len s n r : take_name s = Some (n, r) -> String.length r < String.length s.
Proof.
  unfold take_name. pose proof (take_while_len name_byte s) as H.
  destruct (take_while name_byte s) as [[|c a] b]; [discriminate|].
  destruct (name_start_byte c); [|discriminate]. intros [= <- <-]. cbn in *. lia.
Qed.

Lemma strip_len p s r : strip p s = Some r -> String.length r <= String.length s.
Proof.
  unfold strip. destruct (String.prefix p s); [|discriminate]. intros [= <-].
  generalize (String.length p) as m, (String.length s - String.length p) as k.
  induction s as [|c s IH]; intros [|m] [|k]; cbn [substring String.length]; try lia.
  all: first [apply le_n_S, IH | apply Nat.le_trans with (String.length s); [apply IH | lia]].
Qed.

Lemma take_entity_len s d r : take_entity s = Some (d, r) -> String.length r <= String.length s.
Proof.
  unfold take_entity.
  destruct (strip "lt;" s) eqn:E1; [intros [= <- <-]; eapply strip_len; eauto|].
  destruct (strip "gt;" s) eqn:E2; [intros [= <- <-]; eapply strip_len; eauto|].
  destruct (strip "amp;" s) eqn:E3; [intros [= <- <-]; eapply strip_len; eauto|].
  destruct (strip "apos;" s) eqn:E4; [intros [= <- <-]; eapply strip_len; eauto|].
  destruct (strip "quot;" s) eqn:E5; [intros [= <- <-]; eapply strip_len; eauto|]. discriminate.
Qed.

Lemma take_value_len q : forall fuel s v r, take_value fuel q s = Some (v, r) -> String.length r < String.length s.
Proof.
  induction fuel as [|fuel IH]; intros [|c s] v r H; try discriminate. cbn [take_value] in H.
  destruct (Ascii.eqb c q); [injection H as <- <-; cbn; lia|].
  destruct (Ascii.eqb c "<"); [discriminate|]. destruct (Ascii.eqb c "&").
  - destruct (take_entity s) as [[d s']|] eqn:E; [|discriminate]. apply take_entity_len in E.
    destruct (take_value fuel q s') as [[v' r']|] eqn:E'; [|discriminate]. injection H as <- <-.
    apply IH in E'. cbn; lia.
  - destruct (negb (char_byte c) || Ascii.eqb c "013"); [discriminate|].
    destruct (take_value fuel q s) as [[v' r']|] eqn:E'; [|discriminate]. injection H as <- <-.
    apply IH in E'. cbn; lia.
Qed.

Lemma take_text_len : forall fuel s r, take_text fuel s = Some r -> String.length r <= String.length s.
Proof.
  induction fuel as [|fuel IH]; intros [|c s] r H; try discriminate; cbn [take_text] in H.
  - injection H as <-; auto.
  - destruct (Ascii.eqb c "<"); [injection H as <-; auto|].
    destruct (Ascii.eqb c "&").
    + destruct (take_entity s) as [[d s']|] eqn:E; [|discriminate]. apply take_entity_len in E.
      apply IH in H. cbn; lia.
    + destruct (negb (char_byte c)); [discriminate|]. destruct (String.prefix "]]>" (String c s)); [discriminate|].
      apply IH in H. cbn; lia.
Qed.

Lemma take_text_progress fuel c s r : Ascii.eqb c "<" = false -> take_text fuel (String c s) = Some r ->
  String.length r < S (String.length s).
Proof.
  destruct fuel as [|fuel]; intros Hc H; [discriminate|]. cbn [take_text] in H. rewrite Hc in H.
  destruct (Ascii.eqb c "&").
  - destruct (take_entity s) as [[d s']|] eqn:E; [|discriminate]. apply take_entity_len in E.
    apply take_text_len in H. lia.
  - destruct (negb (char_byte c)); [discriminate|]. destruct (String.prefix "]]>" (String c s)); [discriminate|].
    apply take_text_len in H. lia.
Qed.

Lemma take_attrs_len : forall fuel s l sc r, take_attrs fuel s = Some (l, sc, r) -> String.length r < String.length s.
Proof.
  induction fuel as [|fuel IH]; intros s l sc r H; [discriminate|]. cbn [take_attrs] in H.
  pose proof (skip_space_len s) as Hs.
  destruct (skip_space s) as [|c t]; [discriminate|]. cbn in Hs.
  destruct (Ascii.eqb c "/").
  { destruct t as [|d t]; [discriminate|]. destruct (Ascii.eqb d ">"); [|discriminate].
    injection H as <- <- <-. cbn in *; lia. }
  destruct (Ascii.eqb c ">"); [injection H as <- <- <-; lia|].
  destruct (take_name (String c t)) as [[n s2]|] eqn:En; [|discriminate]. apply take_name_len in En.
  pose proof (skip_space_len s2) as Hs2. destruct (skip_space s2) as [|e s3]; [discriminate|].
  destruct (negb (Ascii.eqb e "=")); [discriminate|].
  pose proof (skip_space_len s3) as Hs3. destruct (skip_space s3) as [|q s4]; [discriminate|].
  destruct (Ascii.eqb q """" || Ascii.eqb q "'"); [|discriminate].
  destruct (take_value (S (String.length s4)) q s4) as [[v s5]|] eqn:Ev; [|discriminate]. apply take_value_len in Ev.
  destruct (take_attrs fuel s5) as [[[l' sc'] r']|] eqn:Ea; [|discriminate]. injection H as <- <- <-.
  apply IH in Ea. cbn in *. lia.
Qed.

Lemma raw_token_len s t r : raw_token s = Some (t, r) -> String.length r < String.length s.
Proof.
  unfold raw_token. destruct s as [|c s1]; [discriminate|]. destruct (Ascii.eqb c "<") eqn:Ec.
  - destruct s1 as [|d s2]; [discriminate|]. destruct (Ascii.eqb d "/").
    + destruct (take_name s2) as [[n s3]|] eqn:En; [|discriminate]. apply take_name_len in En.
      pose proof (skip_space_len s3). destruct (skip_space s3) as [|e r']; [discriminate|].
      destruct (Ascii.eqb e ">"); [|discriminate]. intros [= <- <-]. cbn in *. lia.
    + destruct (take_name (String d s2)) as [[n s3]|] eqn:En; [|discriminate]. apply take_name_len in En.
      destruct (take_attrs (S (String.length s3)) s3) as [[[l sc] r']|] eqn:Ea; [|discriminate].
      apply take_attrs_len in Ea. intros [= <- <-]. cbn in *. lia.
  - destruct (take_text (S (String.length (String c s1))) (String c s1)) as [r'|] eqn:Et; [|discriminate].
    intros [= <- <-]. apply take_text_progress in Et; auto.
Qed.

Definition raws (s : string) : list (rawtok * nat) := raw_tokens (S (String.length s)) s.

Lemma raw_tokens_fuel : forall f1 f2 s, String.length s < f1 -> String.length s < f2 -> raw_tokens f1 s = raw_tokens f2 s.
Proof.
  induction f1 as [|f1 IH]; intros [|f2] s H1 H2; try lia. cbn [raw_tokens].
  destruct (raw_token s) as [[t r]|] eqn:E; auto. apply raw_token_len in E. f_equal. apply IH; lia.
Qed.

Lemma raws_eq s : raws s = match raw_token s with None => [] | Some (t, r) => (t, String.length r) :: raws r end.
Proof.
  unfold raws at 1. cbn [raw_tokens]. destruct (raw_token s) as [[t r]|] eqn:E; auto.
  f_equal. apply raw_token_len in E. apply raw_tokens_fuel; lia.
Qed.

Lemma raws_nil : raws "" = [].
Proof. reflexivity. Qed.
