From Verif Require Import Base ScopeModel ScopeSpec ScopeProofs TreeModel TreeProofs ParseModel ParseSpec
  ParseProofs DecodeModel DecodeProofs MarshalModel MarshalSpec.
From Coq Require Import Sorted.
Local Open Scope string_scope.

(* ---------- what Marshal writes, as a string ---------- *)
Definition declq (p : string) : string := if String.eqb p "" then "xmlns" else "xmlns:" ++ p.
Definition raw_list (s : scope) (a : list xattr) (ds : scope) : list (string * string) :=
  (map (fun x => (prefix s (aname x), avalue x)) a ++ map (fun d => (declq (nlocal d), nspace d)) ds)%list.

Fixpoint mstr (ps : scope) (el : elem) : string :=
  match el with
  | Elem n a s c ch =>
      let q := prefix s n in
      "<" ++ q ++ attrs_str (raw_list s a (diff_scope_loop s ps)) ++
      match ch with
      | [] => match c with
              | EmptyString => " />"
              | _ => ">" ++ c ++ "</" ++ q ++ ">"
              end
      | _ => ">" ++ fold_right (fun e r => mstr s e ++ r) "" ch ++ "</" ++ q ++ ">"
      end
  end.
Definition mstrs (s : scope) (l : list elem) : string := fold_right (fun e r => mstr s e ++ r) "" l.

Lemma output_app a b : output (a ++ b)%list = output a ++ output b.
Proof. induction a as [|e a IH]; cbn [app output fold_right]; auto. fold (output (a ++ b)%list). rewrite IH. apply sapp_assoc. Qed.

Lemma output_cons e b : output (e :: b) = ev_text e ++ output b.
Proof. reflexivity. Qed.

Lemma attrs_str_app a b : attrs_str (a ++ b)%list = attrs_str a ++ attrs_str b.
Proof.
  induction a as [|x a IH]; auto. cbn [app]. 
  change (attrs_str (x :: (a ++ b)%list)) with (attr_str x ++ attrs_str (a ++ b)%list).
  change (attrs_str (x :: a)) with (attr_str x ++ attrs_str a). rewrite IH. apply sapp_assoc.
Qed.
Lemma attrs_str_cons x l : attrs_str (x :: l) = attr_str x ++ attrs_str l.
Proof. reflexivity. Qed.

Lemma sapp_sing c s : String c s = String c "" ++ s.
Proof. reflexivity. Qed.

Lemma output_start_tag n a s c ch ds :
  output (start_tag (Elem n a s c ch) ds) =
  "<" ++ prefix s n ++ attrs_str (raw_list s a ds) ++ match ch, c with [], EmptyString => " />" | _, _ => ">" end.
Proof.
  unfold start_tag. cbn [e_name e_scope e_attrs e_children e_content].
  rewrite output_app, !output_cons. cbn [output fold_right ev_text]. rewrite sapp_nil_r, <- sapp_assoc. f_equal. f_equal.
  rewrite output_app. unfold raw_list. rewrite attrs_str_app, <- sapp_assoc. f_equal.
  - induction a as [|x a IH]; auto. cbn [flat_map map]. rewrite output_app, IH, attrs_str_cons. reflexivity.
  - rewrite output_app. f_equal.
    + induction ds as [|d ds IH]; auto. cbn [flat_map map]. rewrite output_app, IH, attrs_str_cons. f_equal.
      unfold declq, attr_str. cbn [fst snd]. destruct (String.eqb (nlocal d) ""); reflexivity.
    + destruct ch, c; reflexivity.
Qed.

Lemma output_end_tag n a s c ch : output (end_tag (Elem n a s c ch)) = "</" ++ prefix s n ++ ">".
Proof. reflexivity. Qed.

Definition plain_enc := mkEncoder "" "" false.

Lemma diff_none s : diff_scope None s = diff_scope_loop s [].
Proof. destruct s; reflexivity. Qed.

Lemma eheight_child e n a s c ch : In e ch -> (eheight e + 1 <= eheight (Elem n a s c ch))%N.
Proof.
  cbn [eheight]. induction ch as [|x ch IH]; [intros []|]. intros [->|H]; cbn [fold_right]; [lia|].
  specialize (IH H). lia.
Qed.

Lemma encode_mstr : forall el ps depth, (depth + eheight el <= recursionLimit)%N ->
  output (encode plain_enc (Some ps) depth el) = mstr ps el.
Proof.
  induction el as [n a s c ch IH] using elem_ind'. intros ps depth H.
  cbn [encode mstr]. assert ((recursionLimit <? depth)%N = false) as -> by lia.
  rewrite output_app. unfold encode_open_tag. cbn [enc_pretty plain_enc app].
  rewrite app_nil_r, output_start_tag. cbn [e_children e_content e_scope diff_scope].
  destruct ch as [|x ch].
  - destruct c as [|b c]; cbn [output fold_right].
    + rewrite sapp_nil_r. auto.
    + unfold encode_close_tag. cbn [enc_pretty plain_enc app]. rewrite app_nil_r.
      change (fold_right (fun e r => ev_text e ++ r) "" (end_tag (Elem n a s (String b c) [])))
        with (output (end_tag (Elem n a s (String b c) []))).
      rewrite output_end_tag. cbn [ev_text]. rewrite <- !sapp_assoc. reflexivity.
  - rewrite output_app. unfold encode_close_tag. cbn [enc_pretty plain_enc app].
    rewrite app_nil_r, output_end_tag. rewrite <- !sapp_assoc. do 3 f_equal.
    change (fold_right (fun e r => mstr s e ++ r) "" (x :: ch)) with (mstrs s (x :: ch)).
    f_equal. f_equal.
    assert (Hd : forall e, In e (x :: ch) -> (depth + 1 + eheight e <= recursionLimit)%N).
    { intros e He. apply (eheight_child e n a s c) in He. lia. }
    clear H. induction (x :: ch) as [|e l IHl]; auto. cbn [flat_map mstrs fold_right].
    rewrite output_app. fold (mstrs s l). rewrite IHl; auto.
    + f_equal. apply IH; [|apply Hd]; cbn; auto.
    + intros e' He'. apply IH; cbn; auto.
    + intros e' He'. apply Hd; cbn; auto.
Qed.

Lemma marshal_mstr el : (eheight el <= recursionLimit)%N -> marshal el = mstr [] el.
Proof.
  intros H. unfold marshal, encode_events. rewrite <- (encode_mstr el [] 0) by lia.
  destruct el as [n a s c ch]. cbn [encode]. rewrite diff_none. reflexivity.
Qed.

(* ---------- names ---------- *)
Definition decls_ok (s : scope) := forall d, In d s -> decl_ok d.

Lemma ncname_nocolon p : ncname p = true -> s_in ":"%char p = false.
Proof.
  assert (G : forall s, s_all name_char s = true -> s_in ":"%char s = false).
  { induction s as [|c s IH]; auto. cbn [s_all s_in]. intros H. apply andb_true_iff in H as [Hc Hs].
    rewrite IH by auto. destruct (Ascii.eqb ":" c) eqn:E; auto. apply Ascii.eqb_eq in E. subst. vm_compute in Hc; discriminate. }
  destruct p as [|c p]; [discriminate|]. intros H. apply G. cbn in *. apply andb_true_iff in H as [Hc Hp].
  rewrite Hp. unfold name_char. rewrite Hc. auto.
Qed.

Lemma ncname_nonempty p : ncname p = true -> p <> "".
Proof. intros H ->. discriminate. Qed.

Lemma split_qual p l : s_in ":"%char p = false -> split_qname (p ++ ":" ++ l) = (p, l).
Proof. intros H. apply split_qname_parts. left. auto. Qed.
Lemma split_plain l : s_in ":"%char l = false -> split_qname l = ("", l).
Proof. intros H. apply split_qname_parts. right. auto. Qed.

Lemma prefix_form s n : decls_ok s -> ncname (nlocal n) = true -> nspace n <> xmlns_uri ->
  prefix s n <> "" ->
  prefix s n = nlocal n \/
  exists p, ncname p = true /\ p <> "xmlns" /\ prefix s n = p ++ ":" ++ nlocal n.
Proof.
  intros Hd Hl Hx Hp.
  destruct (string_dec (nspace n) "") as [E|E].
  { left. unfold prefix. rewrite E. auto. }
  destruct (string_dec (nspace n) xml_uri) as [E'|E'].
  { right. exists "xml". split; auto. split; [discriminate|]. unfold prefix. rewrite E'. reflexivity. }
  destruct (prefix_cases s n) as [[_ H]|[(Hnin & l1 & p & l2 & Es & _ & H)|[_ H]]]; auto.
  - apply ncname_nonempty; auto.
  - right. exists p.
    assert (Hin : In (mkName (nspace n) p) s) by (rewrite Es; apply in_or_app; cbn; auto).
    destruct (Hd _ Hin) as [[H0|[H0 H1]] _]; cbn in *.
    + subst. congruence.
    + split; auto. split; auto. intros ->. apply H1. right; auto.
  - congruence.
Qed.

Lemma resolve_empty_local s n : resolve s "" = n -> nlocal n = "".
Proof. unfold resolve, resolve_ns. cbn. intros <-. destruct (find_last _ s); auto. Qed.

Lemma name_ok_form s n : decls_ok s -> name_ok s n ->
  prefix s n = nlocal n \/
  exists p, ncname p = true /\ p <> "xmlns" /\ prefix s n = p ++ ":" ++ nlocal n.
Proof.
  intros Hd (Hl & _ & Hx & Hr). apply prefix_form; auto.
  intros E. rewrite E in Hr. apply resolve_empty_local in Hr. rewrite Hr in Hl. discriminate.
Qed.

Lemma name_ok_qname s n : decls_ok s -> name_ok s n -> qname_ok (prefix s n).
Proof.
  intros Hd H. destruct (name_ok_form s n Hd H) as [->|(p & Hp & _ & ->)]; destruct H as [Hl _].
  - left; auto.
  - right. exists p, (nlocal n). auto.
Qed.

Lemma lookup_xmluri s : decls_ok s -> lookup_ns s xmlLangURI = None.
Proof.
  intros Hd. unfold lookup_ns. destruct (find_last _ s) as [d|] eqn:E; auto.
  apply find_last_some in E as (l1 & l2 & -> & He & _). apply String.eqb_eq in He.
  destruct (Hd d) as [[H|[H _]] _]; [apply in_or_app; cbn; auto| |].
  - rewrite H in He. discriminate.
  - rewrite He in H. apply ncname_nocolon in H. vm_compute in H. discriminate.
Qed.

Lemma translate_resolve s q p l : decls_ok s -> split_qname q = (p, l) -> p <> "xmlns" ->
  (p = "" -> l <> "xmlns") -> translate s true (raw_name q) = resolve s q.
Proof.
  intros Hd Hq Hp Hl. unfold translate, raw_name, resolve, resolve_ns. rewrite Hq. cbn [nspace nlocal negb andb].
  apply String.eqb_neq in Hp. rewrite Hp. rewrite andb_false_r.
  destruct (String.eqb p "xml") eqn:E.
  - cbn [String.eqb andb]. cbn. rewrite (lookup_xmluri s Hd). reflexivity.
  - unfold lookup_ns.
    destruct (String.eqb p "" && String.eqb l "xmlns") eqn:E2.
    + apply andb_true_iff in E2 as [E2 E3]. apply String.eqb_eq in E2, E3. exfalso. apply Hl; auto.
    + destruct (find_last _ s); auto.
Qed.

Lemma name_ok_translate s n : decls_ok s -> name_ok s n -> translate s true (raw_name (prefix s n)) = n.
Proof.
  intros Hd H. destruct (name_ok_form s n Hd H) as [E|(p & Hp & Hx & E)]; destruct H as (Hl & Hn & _ & Hr).
  - transitivity (resolve s (prefix s n)); auto. apply (translate_resolve s _ "" (nlocal n)); auto; [|discriminate].
    rewrite E; apply split_plain, ncname_nocolon; auto.
  - transitivity (resolve s (prefix s n)); auto. apply (translate_resolve s _ p (nlocal n)); auto.
    rewrite E. apply split_qual, ncname_nocolon; auto.
Qed.

Lemma attr_ok_form s x : decls_ok s -> attr_ok s x ->
  (prefix s (aname x) = nlocal (aname x) /\ nspace (aname x) = "") \/
  exists p, ncname p = true /\ p <> "xmlns" /\ prefix s (aname x) = p ++ ":" ++ nlocal (aname x).
Proof.
  intros Hd (Hl & Hn & _ & Hx & _ & [H|[Hr Hc]]).
  - left. split; auto. unfold prefix. rewrite H. auto.
  - destruct (prefix_form s (aname x)) as [E|H]; auto.
    + intros E. rewrite E in Hc. discriminate.
    + rewrite E, ncname_nocolon in Hc by auto. discriminate.
Qed.

Lemma attr_ok_qname s x : decls_ok s -> attr_ok s x -> qname_ok (prefix s (aname x)).
Proof.
  intros Hd H. destruct (attr_ok_form s x Hd H) as [[-> _]|(p & Hp & _ & ->)]; destruct H as [Hl _].
  - left; auto.
  - right. eexists _, _; eauto.
Qed.

Lemma attr_ok_translate s x : decls_ok s -> attr_ok s x ->
  translate s false (raw_name (prefix s (aname x))) = aname x.
Proof.
  intros Hd H. destruct (attr_ok_form s x Hd H) as [[E Es]|(p & Hp & Hx & E)];
    destruct H as (Hl & Hn & _ & _ & _ & Hr).
  - rewrite E. unfold raw_name. rewrite split_plain by (apply ncname_nocolon; auto).
    unfold translate. cbn. destruct (aname x); cbn in *; subst; auto.
  - assert (Hq : split_qname (prefix s (aname x)) = (p, nlocal (aname x))).
    { rewrite E. apply split_qual, ncname_nocolon; auto. }
    destruct Hr as [Hs|[Hr _]].
    + exfalso. unfold prefix in E. rewrite Hs in E. cbn [String.eqb] in E.
      assert (Hc : s_in ":"%char (nlocal (aname x)) = false) by (apply ncname_nocolon; auto).
      rewrite E, s_in_app in Hc. cbn in Hc. rewrite orb_true_r in Hc. discriminate.
    + rewrite <- Hr at 2. rewrite <- (translate_resolve s _ p (nlocal (aname x))); auto.
      unfold translate, raw_name. rewrite Hq. cbn [nspace nlocal].
      assert (String.eqb p "" = false) as -> by (apply String.eqb_neq, ncname_nonempty; auto). auto.
Qed.

(* ---------- the attribute list of a tag ---------- *)
Definition decl_attr (d : xname) : xattr :=
  if String.eqb (nlocal d) "" then mkAttr (mkName "" "xmlns") (nspace d)
  else mkAttr (mkName "xmlns" (nlocal d)) (nspace d).
Definition tok_attrs (a : list xattr) (ds : scope) : list xattr := (a ++ map decl_attr ds)%list.

Lemma declq_raw d : decl_ok d ->
  raw_name (declq (nlocal d)) = if String.eqb (nlocal d) "" then mkName "" "xmlns" else mkName "xmlns" (nlocal d).
Proof.
  intros Hd. unfold declq. destruct (String.eqb (nlocal d) "") eqn:E; [reflexivity|].
  unfold raw_name. change "xmlns:" with ("xmlns" ++ ":"). rewrite <- sapp_assoc. rewrite split_qual; auto.
Qed.

Lemma raw_list_ok s a ds : decls_ok s -> (forall x, In x a -> attr_ok s x) -> decls_ok ds ->
  forall q v, In (q, v) (raw_list s a ds) -> qname_ok q /\ value_ok v = true.
Proof.
  intros Hs Ha Hds q v Hin. apply in_app_or in Hin as [Hin|Hin]; apply in_map_iff in Hin as (x & [= <- <-] & Hx).
  - split; [apply attr_ok_qname; auto|]. destruct (Ha x Hx) as (_ & _ & _ & _ & H & _); auto.
  - destruct (Hds x Hx) as [Hl Hv]. split; auto. unfold declq. destruct (String.eqb (nlocal x) "") eqn:E; [left; auto|].
    right. exists "xmlns", (nlocal x). split; auto. split; auto. apply String.eqb_neq in E. tauto.
Qed.

Lemma flat_map_nil {A B} (f : A -> list B) l : (forall x, In x l -> f x = []) -> flat_map f l = [].
Proof.
  induction l as [|x l IH]; intros H; auto. cbn [flat_map]. rewrite H by (cbn; auto). apply IH.
  intros; apply H; cbn; auto.
Qed.
Lemma flat_map_sing {A B} (f : A -> list B) (g : A -> B) l : (forall x, In x l -> f x = [g x]) -> flat_map f l = map g l.
Proof.
  induction l as [|x l IH]; intros H; auto. cbn [flat_map map]. rewrite H by (cbn; auto). cbn [app]. f_equal. apply IH.
  intros; apply H; cbn; auto.
Qed.
Lemma map_id_in {A} (f : A -> A) l : (forall x, In x l -> f x = x) -> map f l = l.
Proof. intros H. transitivity (map (fun x => x) l); [apply map_ext_in; auto|apply map_id]. Qed.
Lemma flat_map_map {A B C} (f : B -> list C) (g : A -> B) l : flat_map f (map g l) = flat_map (fun x => f (g x)) l.
Proof. induction l as [|x l IH]; auto. cbn [map flat_map]. rewrite IH. auto. Qed.

Lemma raw_decls_list s a ds : decls_ok s -> (forall x, In x a -> attr_ok s x) -> decls_ok ds ->
  raw_decls (raw_list s a ds) = ds.
Proof.
  intros Hs Ha Hds. unfold raw_decls, raw_list. rewrite flat_map_app.
  rewrite (flat_map_nil _ (map _ a)).
  - cbn [app]. rewrite flat_map_map. rewrite (flat_map_sing _ (fun d => d)), map_id; auto.
    intros d Hd. cbn [fst snd]. rewrite declq_raw by auto.
    destruct (String.eqb (nlocal d) "") eqn:E; cbn.
    + apply String.eqb_eq in E. destruct d; cbn in *; subst; auto.
    + destruct d; auto.
  - intros y Hy. apply in_map_iff in Hy as (x & <- & Hin). cbn [fst snd].
    assert (Hx : attr_ok s x) by auto.
    destruct (attr_ok_form s x Hs Hx) as [[E _]|(p & Hp & Hpx & E)]; destruct Hx as (Hn & Hl' & _).
    + rewrite E. unfold raw_name. rewrite split_plain by (apply ncname_nocolon; auto). cbn.
      apply String.eqb_neq in Hl'. rewrite Hl'. auto.
    + rewrite E. unfold raw_name. rewrite split_qual by (apply ncname_nocolon; auto). cbn [nspace nlocal].
      apply String.eqb_neq in Hpx. rewrite Hpx.
      assert (String.eqb p "" = false) as -> by (apply String.eqb_neq, ncname_nonempty; auto). auto.
Qed.

Lemma translated_attrs s a ds : decls_ok s -> (forall x, In x a -> attr_ok s x) -> decls_ok ds ->
  map (fun qv => mkAttr (translate s false (raw_name (fst qv))) (snd qv)) (raw_list s a ds) = tok_attrs a ds.
Proof.
  intros Hs Ha Hds. unfold raw_list, tok_attrs. rewrite map_app, !map_map. cbn [fst snd]. f_equal.
  - transitivity (map (fun x : xattr => x) a); [|apply map_id]. apply map_ext_in. intros x Hx. rewrite attr_ok_translate by auto. destruct x; auto.
  - apply map_ext_in. intros d Hd. rewrite declq_raw by auto. unfold decl_attr.
    destruct (String.eqb (nlocal d) ""); reflexivity.
Qed.

Lemma decls_of_tok s a ds : (forall x, In x a -> attr_ok s x) ->
  decls_of (tok_attrs a ds) = ds /\ attrs_of (tok_attrs a ds) = a.
Proof.
  intros Ha. unfold decls_of, attrs_of, tok_attrs.
  assert (H1 : forall x, In x a -> is_decl x = false).
  { intros x Hx. destruct (Ha x Hx) as (_ & H1 & H2 & _). unfold is_decl.
    apply String.eqb_neq in H1, H2. rewrite H1, H2. auto. }
  assert (H2 : forall d, is_decl (decl_attr d) = true).
  { intros d. unfold is_decl, decl_attr. destruct (String.eqb (nlocal d) ""); auto. }
  rewrite !filter_app, map_app. clear Ha. split.
  - assert (filter is_decl a = []) as ->.
    { induction a as [|x a IH]; auto. cbn. rewrite H1 by (cbn; auto). apply IH. intros; apply H1; cbn; auto. }
    cbn [map app]. induction ds as [|d ds IH]; auto. cbn [map filter]. rewrite H2. cbn [map]. rewrite IH. f_equal.
    unfold decl_of, decl_attr. destruct (String.eqb (nlocal d) "") eqn:E; cbn; [|destruct d; auto].
    apply String.eqb_eq in E. destruct d; cbn in *; subst; auto.
  - assert (filter (fun x => negb (is_decl x)) (map decl_attr ds) = []) as ->.
    { induction ds as [|d ds IH]; auto. cbn [map filter]. rewrite H2. auto. }
    rewrite app_nil_r. induction a as [|x a IH]; auto. cbn [filter]. rewrite H1 by (cbn; auto). cbn [negb].
    f_equal. apply IH. intros; apply H1; cbn; auto.
Qed.

(* ---------- the document Marshal writes ---------- *)
Section Doc.
  Variable total : nat.
  Definition etag (q : string) : string := "</" ++ q ++ ">".
  Fixpoint mdoc (ps : scope) (el : elem) (lft : nat) : doc :=
    match el with
    | Elem n a s c ch =>
        let A := tok_attrs a (diff_scope_loop s ps) in
        let tl := lft + String.length (etag (prefix s n)) in
        match ch with
        | [] => match c with
                | EmptyString => Doc n A (total - lft) [] (total - lft)
                | _ => Doc n A (total - (tl + String.length c)) [IOther (total - tl)] (total - lft)
                end
        | _ => Doc n A (total - (tl + String.length (mstrs s ch)))
                 ((fix go l := match l with
                   | [] => []
                   | e :: l' => IElem (mdoc s e (tl + String.length (mstrs s l'))) :: go l'
                   end) ch) (total - lft)
        end
    end.
  Fixpoint mdocs (s : scope) (tl : nat) (l : list elem) : list item :=
    match l with
    | [] => []
    | e :: l' => IElem (mdoc s e (tl + String.length (mstrs s l'))) :: mdocs s tl l'
    end.

  Lemma mdoc_eq ps n a s c ch lft : ch <> [] -> mdoc ps (Elem n a s c ch) lft =
    Doc n (tok_attrs a (diff_scope_loop s ps)) (total - (lft + String.length (etag (prefix s n)) + String.length (mstrs s ch)))
      (mdocs s (lft + String.length (etag (prefix s n))) ch) (total - lft).
  Proof.
    intros H. cbn [mdoc]. destruct ch as [|x ch]; [congruence|]. f_equal.
    generalize (lft + String.length (etag (prefix s n))) as tl. clear H.
    intros tl. cbn [mdocs]. f_equal. induction ch as [|e l IH]; auto. cbn [mdocs]. f_equal. auto.
  Qed.
End Doc.

Lemma diff_loop_app ps ds : diff_scope_loop (ps ++ ds)%list ps = ds.
Proof. induction ps as [|p ps IH]; cbn; [destruct ds; auto|]. rewrite xname_eqb_refl. auto. Qed.

Lemma mstr_eq ps n a ds c ch : mstr ps (Elem n a (ps ++ ds)%list c ch) =
  "<" ++ prefix (ps ++ ds)%list n ++ attrs_str (raw_list (ps ++ ds)%list a ds) ++
      match ch with
      | [] => match c with
              | EmptyString => " />"
              | _ => ">" ++ c ++ etag (prefix (ps ++ ds)%list n)
              end
      | _ => ">" ++ mstrs (ps ++ ds)%list ch ++ etag (prefix (ps ++ ds)%list n)
      end.
Proof. cbn [mstr]. rewrite diff_loop_app. reflexivity. Qed.

Lemma mstrs_cons s e l : mstrs s (e :: l) = mstr s e ++ mstrs s l.
Proof. reflexivity. Qed.

Lemma tokens_start total stack ns q l sc n r :
  tokens total stack ns ((RStart q l sc, n) :: r) =
      let ns' := (ns ++ raw_decls l)%list in
      let nm := translate ns' true (raw_name q) in
      let attrs := map (fun qv => mkAttr (translate ns' false (raw_name (fst qv))) (snd qv)) l in
      if sc then (TStart nm attrs, total - n) :: (TEnd nm, total - n) :: tokens total stack ns r
      else (TStart nm attrs, total - n) :: tokens total ((nm, ns) :: stack) ns' r.
Proof. reflexivity. Qed.

Lemma tokens_etag total stack ns s n rest : decls_ok s -> name_ok s n ->
  tokens total ((n, ns) :: stack) s (raws (etag (prefix s n) ++ rest)) =
  (TEnd n, total - String.length rest) :: tokens total stack ns (raws rest).
Proof.
  intros Hs Hn. rewrite raws_eq. unfold etag. rewrite <- !sapp_assoc.
  rewrite raw_end by (apply name_ok_qname; auto). cbn [tokens].
  rewrite name_ok_translate, xname_eqb_refl by auto. auto.
Qed.

Lemma writable_printable : forall el ps, writable ps el -> printable ps el.
Proof. induction el as [n a s c ch IH] using elem_ind'. intros ps Hw. inversion Hw; subst. constructor; auto. Qed.
Lemma mdoc_tokens total : forall el ps stack rest, printable ps el -> decls_ok ps ->
  tokens total stack ps (raws (mstr ps el ++ rest)) =
  (doc_toks (mdoc total ps el (String.length rest)) ++ tokens total stack ps (raws rest))%list.
Proof.
  induction el as [n a s c ch IH] using elem_ind'. intros ps stack rest Hw Hps.
  inversion Hw as [? ? ? ds ? ? Hds Hname Hattr Hcont Hch]; subst.
  assert (Hs : decls_ok (ps ++ ds)%list).
  { intros d Hd. apply in_app_or in Hd as [|]; auto. }
  assert (Hq : qname_ok (prefix (ps ++ ds)%list n)) by (apply name_ok_qname; auto).
  assert (Hl : forall q v, In (q, v) (raw_list (ps ++ ds)%list a ds) -> qname_ok q /\ value_ok v = true)
    by (apply raw_list_ok; auto).
  set (s := (ps ++ ds)%list) in *.
  assert (Ediff : diff_scope_loop s ps = ds) by (unfold s; apply diff_loop_app).
  assert (Hstart : forall (sc : bool) r,
    tokens total stack ps (raws ("<" ++ prefix s n ++ attrs_str (raw_list s a ds) ++ (if sc then " />" else ">") ++ r)) =
    if sc then (TStart n (tok_attrs a ds), total - String.length r) :: (TEnd n, total - String.length r) :: tokens total stack ps (raws r)
    else (TStart n (tok_attrs a ds), total - String.length r) :: tokens total ((n, ps) :: stack) s (raws r)).
  { intros sc r. rewrite raws_eq, raw_start by auto. rewrite tokens_start. cbv zeta.
    rewrite raw_decls_list by auto. fold s. rewrite name_ok_translate, translated_attrs by auto. reflexivity. }
  unfold s at 1. rewrite mstr_eq. fold s.
  destruct ch as [|x ch].
  - cbn [mdoc]. rewrite Ediff.
    destruct c as [|b c].
    + rewrite <- !sapp_assoc. specialize (Hstart true rest). cbn [append] in *. rewrite Hstart. reflexivity.
    + rewrite <- !sapp_assoc. rewrite (Hstart false).
      cbn [doc_toks flat_map item_toks app].
      rewrite !slen_app. f_equal.
      { f_equal. lia. }
      assert (Hc : char_data (String b c)) by auto.
      unfold etag at 1. rewrite <- !sapp_assoc. 
      rewrite raws_eq. change ("</" ++ prefix s n ++ ">" ++ rest) with (String "<" ("/" ++ prefix s n ++ ">" ++ rest)).
      rewrite raw_text by (auto; discriminate).
      change (String "<" ("/" ++ prefix s n ++ ">" ++ rest)) with ("</" ++ prefix s n ++ ">" ++ rest).
      replace ("</" ++ prefix s n ++ ">" ++ rest) with (etag (prefix s n) ++ rest) by (unfold etag; rewrite <- !sapp_assoc; auto).
      cbn [tokens]. rewrite tokens_etag by auto. rewrite slen_app. f_equal. f_equal. lia.
  - assert (Hne : x :: ch <> []) by discriminate.
    rewrite mdoc_eq by auto. remember (x :: ch) as l eqn:El. clear El.
    rewrite <- !sapp_assoc. rewrite (Hstart false). rewrite Ediff.
    cbn [doc_toks app]. rewrite !slen_app. f_equal.
    { f_equal. lia. }
    rewrite <- app_assoc. cbn [app].
    clear Hne Hw Hcont.
    set (T := etag (prefix s n) ++ rest).
    replace (String.length rest + String.length (etag (prefix s n))) with (String.length T) by (unfold T; rewrite slen_app; lia).
    induction l as [|e l IHl].
    + cbn [mstrs fold_right append mdocs flat_map app]. unfold T. apply tokens_etag; auto.
    + rewrite mstrs_cons, <- sapp_assoc. cbn [mdocs flat_map item_toks].
      rewrite IH; [|cbn; auto|apply Hch; cbn; auto|auto].
      rewrite slen_app. rewrite (Nat.add_comm (String.length (mstrs s l))).
      rewrite <- app_assoc. f_equal. apply IHl; intros; [apply IH|apply Hch]; cbn; auto.
Qed.

(* ---------- offsets ---------- *)
Lemma slice_mid a b c : slice (a ++ b ++ c) (String.length a) (String.length a + String.length b) = Some b.
Proof.
  unfold slice. rewrite !slen_app. rewrite (proj2 (Nat.leb_le _ _)) by lia. rewrite (proj2 (Nat.leb_le _ _)) by lia.
  cbn [andb]. rewrite Nat.add_comm, Nat.add_sub. f_equal.
  induction a as [|x a IH]; cbn [append String.length]; [|auto].
  induction b as [|x b IHb]; cbn [append String.length substring]; [destruct c; auto|]. f_equal; auto.
Qed.

Lemma mdoc_off total ps el lft : item_off (IElem (mdoc total ps el lft)) = total - lft.
Proof. destruct el as [n a s [|b c] [|x ch]]; reflexivity. Qed.

Lemma mdocs_end total s : forall l tl o, l <> [] -> end_pos o (mdocs total s tl l) = total - tl.
Proof.
  intros l. induction l as [|e l IH]; intros tl o Hl; [congruence|].
  cbn [mdocs]. rewrite end_pos_cons, mdoc_off. destruct l as [|e' l].
  - cbn. rewrite Nat.add_0_r. auto.
  - apply IH. discriminate.
Qed.

Lemma mdocs_in total s : forall l tl d, In (IElem d) (mdocs total s tl l) ->
  exists l1 e l2, l = (l1 ++ e :: l2)%list /\ d = mdoc total s e (tl + String.length (mstrs s l2)).
Proof.
  induction l as [|e l IH]; intros tl d H; [destruct H|destruct H as [H|H]].
  - injection H as <-. exists [], e, l. auto.
  - destruct (IH tl d H) as (l1 & e' & l2 & -> & ->). exists (e :: l1), e', l2. auto.
Qed.

Lemma mdoc_fits data : forall el ps lft, lft + String.length (mstr ps el) <= String.length data ->
  fits data (mdoc (String.length data) ps el lft).
Proof.
  induction el as [n a s c ch IH] using elem_ind'. intros ps lft H.
  assert (Hlen : match ch, c with [], EmptyString => True | [], _ => lft + String.length (etag (prefix s n)) + String.length c <= String.length data
     | _, _ => lft + String.length (etag (prefix s n)) + String.length (mstrs s ch) <= String.length data end).
  { cbn [mstr] in H. cbv zeta in H. destruct ch as [|x ch].
    - destruct c; [exact I|]. rewrite !slen_app in H. unfold etag. rewrite !slen_app. lia.
    - fold (mstrs s (x :: ch)) in H. rewrite !slen_app in H. unfold etag. rewrite !slen_app. lia. }
  destruct ch as [|x ch].
  - cbn [mdoc]. destruct c as [|b c].
    + constructor; unfold end_pos; cbn [map last]; [lia|lia|intros ? []].
    + constructor; unfold end_pos; cbn [map last item_off]; [lia|lia|intros ? [Hd|[]]; discriminate].
  - rewrite mdoc_eq by discriminate. constructor; rewrite ?mdocs_end by discriminate; try lia.
    intros d Hd. apply mdocs_in in Hd as (l1 & e & l2 & El & ->). apply IH.
    + rewrite El. apply in_or_app; cbn; auto.
    + rewrite El in Hlen. 
      assert (Hsp : String.length (mstrs s (l1 ++ e :: l2)%list) >= String.length (mstr s e) + String.length (mstrs s l2)).
      { clear. induction l1 as [|y l1 IHl]; cbn [app]; rewrite mstrs_cons, slen_app; lia. }
      destruct l1; cbn [app] in Hlen, Hsp; lia.
Qed.

Lemma mdoc_height total : forall el ps lft, height (mdoc total ps el lft) = eheight el.
Proof.
  induction el as [n a s c ch IH] using elem_ind'. intros ps lft.
  destruct ch as [|x ch]; [destruct c; reflexivity|].
  rewrite mdoc_eq by discriminate. rewrite height_eq. cbn [eheight].
  generalize (lft + String.length (etag (prefix s n))) as tl. intros tl.
  induction (x :: ch) as [|e l IHl]; auto. cbn [mdocs hmax fold_right]. rewrite IH by (cbn; auto).
  fold (hmax (mdocs total s tl l)). rewrite IHl by (intros; apply IH; cbn; auto). auto.
Qed.

(* ---------- the tree read back ---------- *)
Lemma tree_of_inv data D O s n a o items o' el :
  tree_of data D O s (Doc n a o items o') el ->
  exists ds c ch, sorted_decls D a ds /\ slice data o (end_pos o items) = Some c /\
    trees_of data D O (s ++ ds)%list items ch /\ el = Elem n (O a) (s ++ ds)%list c ch.
Proof. intros H. inversion H; subst. eexists _, _, _. eauto. Qed.

Lemma substring_0 k d : substring k 0 d = "".
Proof. revert k. induction d as [|y d IHd]; intros [|k]; cbn; auto. Qed.

Lemma mdoc_reread data : forall el ps ps' pre rest el', printable ps el ->
  data = pre ++ mstr ps el ++ rest ->
  tree_of data decls_of attrs_of ps' (mdoc (String.length data) ps el (String.length rest)) el' ->
  reread ps ps' el el'.
Proof.
  induction el as [n a s c ch IH] using elem_ind'. intros ps ps' pre rest el' Hw Hdata Ht.
  inversion Hw as [? ? ? ds ? ? Hds Hname Hattr Hcont Hch]; subst ps0 n0 a0 s c0 ch0.
  rewrite mstr_eq in Hdata. set (s := (ps ++ ds)%list) in *.
  assert (Ediff : diff_scope_loop s ps = ds) by (unfold s; apply diff_loop_app).
  destruct (decls_of_tok s a ds Hattr) as [Ed Ea].
  destruct ch as [|x ch].
  - cbn [mdoc] in Ht. rewrite Ediff in Ht.
    destruct c as [|b c].
    + apply tree_of_inv in Ht as (ds' & c' & ch' & [Hp Hsorted] & Hc & Htr & ->).
      rewrite Ea. rewrite Ed in Hp. inversion Htr; subst ch'.
      unfold s. constructor; auto; [|constructor].
      intros _. unfold slice, end_pos in Hc. cbn [map last] in Hc. rewrite Nat.leb_refl in Hc. cbn [andb] in Hc.
      destruct (_ <=? _)%nat; [|discriminate]. injection Hc as <-. rewrite Nat.sub_diag. apply substring_0.
    + apply tree_of_inv in Ht as (ds' & c' & ch' & [Hp Hsorted] & Hc & Htr & ->).
      rewrite Ea. rewrite Ed in Hp. inversion Htr as [|? ? ? ? Htr'|]; subst ch'. inversion Htr'; subst ch.
      unfold s. constructor; auto; [|constructor].
      intros _. unfold end_pos in Hc. cbn [map last item_off] in Hc.
      set (P := pre ++ "<" ++ prefix s n ++ attrs_str (raw_list s a ds) ++ ">") in *.
      assert (Hdata' : data = P ++ String b c ++ (etag (prefix s n) ++ rest)).
      { rewrite Hdata. unfold P. rewrite <- !sapp_assoc. auto. }
      rewrite Hdata' in Hc.
      rewrite !slen_app in Hc.
      replace (String.length P + (String.length (String b c) + (String.length (etag (prefix s n)) + String.length rest)) -
             (String.length rest + String.length (etag (prefix s n)) + String.length (String b c))) with (String.length P) in Hc by lia.
      replace (String.length P + (String.length (String b c) + (String.length (etag (prefix s n)) + String.length rest)) -
             (String.length rest + String.length (etag (prefix s n)))) with (String.length P + String.length (String b c)) in Hc by lia.
      rewrite slice_mid in Hc. congruence.
  - rewrite mdoc_eq in Ht by discriminate.
    remember (x :: ch) as l eqn:El.
    assert (Hne : l <> []) by (rewrite El; discriminate).
    clear El x ch.
    rewrite Ediff in Ht.
    apply tree_of_inv in Ht as (ds' & c' & ch' & [Hp Hsorted] & Hc & Htr & ->).
    rewrite Ea. rewrite Ed in Hp. unfold s at 1. constructor; auto; [congruence|].
    clear Hc Hne Hcont Hp Hsorted Hw. fold s.
    assert (Hd : exists P, data = P ++ mstrs s l ++ (etag (prefix s n) ++ rest)).
    { exists (pre ++ "<" ++ prefix s n ++ attrs_str (raw_list s a ds) ++ ">"). rewrite Hdata, <- !sapp_assoc. auto. }
    clear Hdata. destruct Hd as [P Hd].
    replace (String.length rest + String.length (etag (prefix s n))) with (String.length (etag (prefix s n) ++ rest)) in Htr by (rewrite slen_app; lia).
    revert Htr Hd. generalize (etag (prefix s n) ++ rest) as T. intros T. generalize (ps' ++ ds')%list as s'. intros s'.
    revert P ch'. induction l as [|e l IHl]; intros P ch' Htr Hd.
    + inversion Htr. constructor.
    + cbn [mdocs] in Htr. inversion Htr as [| |? ? e' ? ch'' He Hl]; subst ch'.
      rewrite mstrs_cons in *. constructor.
      * apply (IH e) with (pre := P) (rest := mstrs s l ++ T); cbn; auto.
        -- apply Hch; cbn; auto.
        -- rewrite Hd, <- !sapp_assoc. auto.
        -- rewrite (slen_app (mstrs s l)). rewrite (Nat.add_comm (String.length (mstrs s l))). auto.
      * apply (IHl ltac:(intros; eapply IH; cbn; eauto) ltac:(intros; apply Hch; cbn; auto) (P ++ mstr s e)); auto.
        rewrite Hd, <- !sapp_assoc. auto.
Qed.

Lemma round_trip sortns el : sorts sortns -> printable [] el -> (eheight el <= 3000)%N ->
  exists el' off, parse sortns (marshal el) (decode (marshal el)) = POk el' off [] /\ reread [] [] el el'.
Proof.
  intros Hs Hw Hh. rewrite marshal_mstr by auto.
  set (data := mstr [] el).
  assert (E : decode data = doc_toks (mdoc (String.length data) [] el 0)).
  { unfold decode. change (raw_tokens (S (String.length data)) data) with (raws data).
    pose proof (mdoc_tokens (String.length data) el [] [] "" Hw) as H.
    rewrite sapp_nil_r in H. fold data in H. rewrite H by (intros ? []).
    rewrite raws_nil. cbn [tokens]. rewrite app_nil_r. auto. }
  destruct (parse_complete sortns data Hs (mdoc (String.length data) [] el 0) [] []) as (el' & off & P & T).
  - intros ? ? ? [].
  - apply mdoc_fits. cbn. auto.
  - rewrite mdoc_height. auto.
  - exists el', off. rewrite E. cbn [app] in P. rewrite app_nil_r in P. split; auto.
    eapply (mdoc_reread data el [] [] "" ""); auto.
    cbn [append]. rewrite sapp_nil_r. auto.
Qed.
