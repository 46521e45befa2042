From Verif Require Import Base BuiltinModel BuiltinSpec Utf8 Decimal.
Local Open Scope string_scope.

Lemma builtins_in b : (0 <= b < 50)%Z <-> In b all_builtins.
Proof.
  unfold all_builtins. rewrite in_map_iff. split.
  - intros H. exists (Z.to_nat b). split; [lia|]. apply in_seq. lia.
  - intros (n & <- & H). apply in_seq in H. lia.
Qed.
Lemma names_table : map (fun b => (b, parse_builtin (b_name b))) all_builtins = map (fun b => (b, Some b)) all_builtins.
Proof. vm_compute. reflexivity. Qed.
Lemma map_eq_in {A B} (f g : A -> B) l x : map f l = map g l -> In x l -> f x = g x.
Proof.
  induction l as [|y l IH]; cbn [map In]; intros H Hx; [destruct Hx|]. injection H as H1 H2. destruct Hx as [->|Hx]; auto.
Qed.
Lemma parse_name b : (0 <= b < 50)%Z -> parse_builtin (b_name b) = Some b.
Proof. intros H. apply builtins_in in H. pose proof (map_eq_in _ _ _ b names_table H) as E. cbn beta in E. congruence. Qed.
Lemma parse_builtin_spec q b : parse_builtin q = Some b <-> (0 <= b < 50)%Z /\ b_name b = q.
Proof.
  split.
  - intros H. unfold parse_builtin in H. apply find_some in H as [H1 H2]. apply builtins_in in H1. apply xname_eqb_eq in H2. auto.
  - intros [H <-]. apply parse_name; auto.
Qed.
Lemma names_distinct a b : (0 <= a < 50)%Z -> (0 <= b < 50)%Z -> b_name a = b_name b -> a = b.
Proof. intros Ha Hb E. pose proof (parse_name a Ha) as H. rewrite E, parse_name in H by auto. congruence. Qed.
Lemma w3c_known n : In n w3c -> exists b, parse_builtin (mkName schemaNS n) = Some b.
Proof.
  assert (H : forallb (fun n => match parse_builtin (mkName schemaNS n) with Some _ => true | None => false end) w3c = true) by (vm_compute; reflexivity).
  rewrite forallb_forall in H. intros Hn. specialize (H n Hn). cbn beta in H. destruct (parse_builtin (mkName schemaNS n)) as [b|]; [eauto|discriminate].
Qed.
Lemma only_w3c n : (exists b, parse_builtin (mkName schemaNS n) = Some b) -> In n w3c.
Proof.
  intros [b H]. apply parse_builtin_spec in H as [Hb E]. apply builtins_in in Hb.
  assert (K : forallb (fun b => let q := b_name b in negb (String.eqb (nspace q) schemaNS) || existsb (String.eqb (nlocal q)) w3c) all_builtins = true) by (vm_compute; reflexivity).
  rewrite forallb_forall in K. specialize (K b Hb). cbn beta zeta in K. rewrite E in K. cbn [nspace nlocal] in K.
  rewrite String.eqb_refl in K. cbn [negb orb] in K. apply existsb_exists in K as (x & Hx & Ex). apply String.eqb_eq in Ex. subst. auto.
Qed.
Lemma xml_lang_unknown : forall s, parse_builtin (mkName "http://www.w3.org/XML/1998/namespace" s) = None.
Proof.
  intros s. destruct (parse_builtin (mkName _ s)) as [b|] eqn:E; [|reflexivity]. apply parse_builtin_spec in E as [Hb E]. apply builtins_in in Hb.
  assert (K : forallb (fun b => negb (String.eqb (nspace (b_name b)) "http://www.w3.org/XML/1998/namespace")) all_builtins = true) by (vm_compute; reflexivity).
  rewrite forallb_forall in K. specialize (K b Hb). cbn beta in K. rewrite E in K. discriminate.
Qed.
Lemma schema_entries q b : In (q, b) builtin_schema <-> (0 <= b < 44)%Z /\ q = b_name b.
Proof.
  unfold builtin_schema. rewrite in_map_iff. split.
  - intros (n & E & H). apply in_seq in H. apply pair_equal_spec in E as [<- <-]. split; [lia|auto].
  - intros [H ->]. exists (Z.to_nat b). split; [|apply in_seq; lia]. f_equal; [f_equal|]; lia.
Qed.
Lemma schema_omits : exists n, In n w3c /\ forall b, ~ In (mkName schemaNS n, b) builtin_schema.
Proof.
  exists "unsignedShort". split.
  - apply only_w3c. exists 44%Z. vm_compute. reflexivity.
  - intros b H. apply schema_entries in H as [H E]. assert (b = 44%Z); [|lia].
    apply names_distinct; [lia|lia|]. rewrite <- E. vm_compute. reflexivity.
Qed.

(* ---------- Go types ---------- *)
Lemma expr_defined b t : builtin_expr b = Returns (Some t) -> (0 <= b < 50)%Z.
Proof.
  unfold builtin_expr. destruct ((_ <? b) || (b <? 0))%Z eqn:E; [discriminate|].
  destruct (nth_error tbl (Z.to_nat b)) as [o|] eqn:En; [|discriminate]. intros _.
  assert (Z.to_nat b < List.length tbl) by (apply nth_error_Some; congruence). change (List.length tbl) with 50 in *. lia.
Qed.
Lemma expr_total b : (0 <= b < 50)%Z ->
  ((exists t, builtin_expr b = Returns (Some t)) <-> ~ (45 <= b <= 48)%Z).
Proof.
  intros Hb. apply builtins_in in Hb. revert b Hb.
  assert (K : forallb (fun b => Bool.eqb (match builtin_expr b with Returns (Some _) => true | _ => false end) (negb ((45 <=? b) && (b <=? 48))%Z)) all_builtins = true) by (vm_compute; reflexivity).
  intros b Hb. rewrite forallb_forall in K. specialize (K b Hb). cbn beta in K. apply eqb_prop in K.
  destruct (builtin_expr b) as [|[t|]]; split; intros H; try (destruct H as [x H]); try discriminate; try lia; eauto; exfalso; lia.
Qed.
Lemma expr_panics b : builtin_expr b = Panics <-> b = 50%Z.
Proof.
  split; [|intros ->; reflexivity]. unfold builtin_expr. destruct ((_ <? b) || (b <? 0))%Z eqn:E; [discriminate|].
  destruct (nth_error tbl (Z.to_nat b)) as [o|] eqn:En; [discriminate|]. intros _.
  apply nth_error_None in En. change (List.length tbl) with 50 in *. lia.
Qed.
Lemma ranges b lo hi : (0 <= b < 50)%Z -> xsd_range (nlocal (b_name b)) = Some (lo, hi) -> nlocal (b_name b) <> "byte" ->
  exists t lo' hi', builtin_expr b = Returns (Some t) /\ go_range t = Some (lo', hi') /\ (lo' <= lo)%Z /\ (hi <= hi')%Z.
Proof.
  intros Hb. apply builtins_in in Hb.
  assert (K : forallb (fun b => match xsd_range (nlocal (b_name b)) with
      | Some (lo, hi) => String.eqb (nlocal (b_name b)) "byte" ||
          match builtin_expr b with
          | Returns (Some t) => match go_range t with Some (lo', hi') => ((lo' <=? lo) && (hi <=? hi'))%Z | None => false end
          | _ => false end
      | None => true end) all_builtins = true) by (vm_compute; reflexivity).
  rewrite forallb_forall in K. specialize (K b Hb). cbn beta in K. intros E Nb. rewrite E in K.
  apply String.eqb_neq in Nb. rewrite Nb in K. cbn [orb] in K.
  destruct (builtin_expr b) as [|[t|]]; try discriminate. destruct (go_range t) as [[lo' hi']|] eqn:G; [|discriminate].
  exists t, lo', hi'. repeat split; auto; lia.
Qed.
Lemma byte_unsigned : exists b t lo hi lo' hi', (0 <= b < 50)%Z /\ builtin_expr b = Returns (Some t) /\
  xsd_range (nlocal (b_name b)) = Some (lo, hi) /\ go_range t = Some (lo', hi') /\ (lo < lo')%Z.
Proof.
  exists 15%Z, (GIdent "byte"), (-128)%Z, 127%Z, 0%Z, 255%Z. repeat split; try lia; vm_compute; reflexivity.
Qed.

Lemma go_types b : (0 <= b < 50)%Z -> nlocal (b_name b) <> "byte" -> nlocal (b_name b) <> "NOTATION" ->
  builtin_expr b = Returns (go_type (nlocal (b_name b))).
Proof.
  intros Hb. apply builtins_in in Hb. revert b Hb.
  assert (K : Forall (fun b => nlocal (b_name b) <> "byte" -> nlocal (b_name b) <> "NOTATION" ->
      builtin_expr b = Returns (go_type (nlocal (b_name b)))) all_builtins).
  { unfold all_builtins. cbn [map seq]. repeat constructor; intros H1 H2; try (vm_compute; reflexivity); exfalso; first [apply H1; vm_compute; reflexivity|apply H2; vm_compute; reflexivity]. }
  rewrite Forall_forall in K. exact K.
Qed.
Lemma notation_list : exists b, nlocal (b_name b) = "NOTATION" /\ ~ In "NOTATION" token_lists /\ builtin_expr b = Returns (Some (GArray "string")).
Proof.
  exists 9%Z. split; [vm_compute; reflexivity|]. split; [|vm_compute; reflexivity].
  intros H. cbn [In token_lists] in H. repeat destruct H as [H|H]; try discriminate. destruct H.
Qed.

(* ---------- list types ---------- *)
Lemma chain_end_builtin i b : chain_end i = IBuiltin b <-> derives i b.
Proof.
  split.
  - revert i. fix IH 1. intros [c|[j|]|] H; cbn [chain_end] in H; try discriminate.
    + injection H as ->. constructor.
    + constructor. apply IH. exact H.
  - induction 1; auto.
Qed.
Lemma codec_family b : (0 <= b < 50)%Z ->
  match list_codec b with Some c => if body_parses c then LOk c else LErr | None => LErr end =
  match family (nlocal (b_name b)) with Some c => LOk c | None => LErr end.
Proof.
  intros Hb. apply builtins_in in Hb. revert b Hb. rewrite <- Forall_forall. unfold all_builtins. cbn [map seq].
  repeat constructor; vm_compute; reflexivity.
Qed.
Lemma expr_family b : (0 <= b < 50)%Z ->
  builtin_expr b = Returns None <-> In (nlocal (b_name b)) xml_attrs.
Proof.
  intros Hb. apply builtins_in in Hb. revert b Hb.
  assert (K : forallb (fun b => Bool.eqb (match builtin_expr b with Returns None => true | _ => false end) (existsb (String.eqb (nlocal (b_name b))) xml_attrs)) all_builtins = true) by (vm_compute; reflexivity).
  intros b Hb. rewrite forallb_forall in K. specialize (K b Hb). cbn beta in K. apply eqb_prop in K. split.
  - intros H. rewrite H in K. symmetry in K. apply existsb_exists in K as (x & Hx & E). apply String.eqb_eq in E. subst. auto.
  - intros H. assert (E : existsb (String.eqb (nlocal (b_name b))) xml_attrs = true).
    { apply existsb_exists. exists (nlocal (b_name b)). split; auto. apply String.eqb_refl. }
    rewrite E in K. destruct (builtin_expr b) as [|[t|]]; try discriminate. auto.
Qed.
Lemma gen_list_spec i b : derives i b -> (0 <= b < 50)%Z ->
  gen_list (Some i) = match i, family (nlocal (b_name b)) with
    | IBuiltin _, Some c => if existsb (String.eqb (nlocal (b_name b))) xml_attrs then LErr else LOk c
    | _, Some c => LOk c
    | _, None => LErr end.
Proof.
  intros Hd Hb. pose proof (proj2 (chain_end_builtin i b) Hd) as He. unfold gen_list. rewrite He. cbn zeta.
  rewrite (codec_family b Hb). inversion Hd; subst.
  - pose proof (expr_family b Hb) as X. pose proof (expr_panics b) as P.
    destruct (existsb (String.eqb (nlocal (b_name b))) xml_attrs) eqn:E.
    + apply existsb_exists in E as (x & Hx & E). apply String.eqb_eq in E. subst x. rewrite (proj2 X Hx).
      destruct (family _); reflexivity.
    + destruct (builtin_expr b) as [|[t|]] eqn:Eb.
      * exfalso. assert (b = 50%Z) by (apply P; auto). lia.
      * destruct (family _); reflexivity.
      * exfalso. assert (H := proj1 X eq_refl). assert (E' : existsb (String.eqb (nlocal (b_name b))) xml_attrs = true).
        { apply existsb_exists. exists (nlocal (b_name b)). split; auto. apply String.eqb_refl. } congruence.
  - destruct (family _); reflexivity.
Qed.
Lemma gen_list_panic i : (forall b, derives i b -> (0 <= b < 50)%Z) -> (gen_list (Some i) = LPanic <-> forall b, ~ derives i b).
Proof.
  intros Hr. split.
  - intros H b Hd. rewrite (gen_list_spec i b Hd (Hr b Hd)) in H. destruct i, (family _); try discriminate.
    destruct (existsb _ _); discriminate.
  - intros H. unfold gen_list. destruct (chain_end i) as [b|o|] eqn:E.
    + apply chain_end_builtin in E. destruct (H b E).
    + destruct i; auto. cbn in E. discriminate.
    + destruct i; auto. cbn in E. discriminate.
Qed.
Lemma atomic_lists : exists n b, In n w3c /\ ~ In n token_lists /\ parse_builtin (mkName schemaNS n) = Some b /\
  gen_list (Some (IBuiltin b)) = LErr.
Proof.
  exists "positiveInteger", 36%Z. split; [apply only_w3c; exists 36%Z; vm_compute; reflexivity|]. split; [|split; vm_compute; reflexivity].
  intros H. cbn [In token_lists] in H. repeat destruct H as [H|H]; try discriminate. destruct H.
Qed.
