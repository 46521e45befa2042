(* Parse reads back what MarshalIndent writes. *)
From Verif Require Import Base ScopeModel ScopeSpec ScopeProofs TreeModel TreeProofs ParseModel ParseSpec
  ParseProofs DecodeModel DecodeProofs MarshalModel MarshalSpec MarshalProofs MarshalProofs2.
From Coq Require Import Sorted.
Local Open Scope string_scope.

(* spaces, tabs and newlines *)
Definition space_byte (c : ascii) : bool := Ascii.eqb c " " || Ascii.eqb c "009" || Ascii.eqb c "010".
Definition spaces (s : string) : Prop := s_all space_byte s = true.

Lemma spaces_app a b : spaces a -> spaces b -> spaces (a ++ b).
Proof. unfold spaces. induction a as [|x a IH]; auto. cbn [append s_all]. rewrite !andb_true_iff. intros [X Y] B. auto. Qed.
Lemma spaces_times k s : spaces s -> spaces (times k s).
Proof. intros B. induction k; [reflexivity|]. cbn [times]. apply spaces_app; auto. Qed.
Lemma spaces_data s : spaces s -> char_data s.
Proof.
  induction s as [|x s IH]; [constructor|]. unfold spaces. cbn [s_all]. rewrite andb_true_iff. intros [X Y]. constructor; [| |apply IH; exact Y].
  - unfold space_byte in X. apply orb_true_iff in X as [X|X]; [apply orb_true_iff in X as [X|X]|]; apply Ascii.eqb_eq in X as ->; reflexivity.
  - unfold space_byte in X. apply orb_true_iff in X as [X|X]; [apply orb_true_iff in X as [X|X]|]; apply Ascii.eqb_eq in X as ->; reflexivity.
Qed.

Section Indent.
  Variable ind : string.
  Hypothesis Bind : spaces ind.
  Definition sep (d : nat) : string := newline ++ times d ind.
  Lemma sep_data d : char_data (sep d).
  Proof. apply spaces_data, spaces_app; [reflexivity|apply spaces_times, Bind]. Qed.
  Lemma sep_ne d : sep d <> "".
  Proof. discriminate. Qed.

  (* without the indentation before it and the newline after it *)
  Fixpoint istr (d : nat) (ps : scope) (el : elem) : string :=
    match el with
    | Elem n a s c ch =>
        "<" ++ prefix s n ++ attrs_str (raw_list s a (diff_scope_loop s ps)) ++
        match ch with
        | [] => match c with EmptyString => " />" | _ => ">" ++ c ++ etag (prefix s n) end
        | _ => ">" ++ fold_right (fun e r => sep (S d) ++ istr (S d) s e ++ r) "" ch ++ sep d ++ etag (prefix s n)
        end
    end.
  Definition istrs (d : nat) (s : scope) (l : list elem) : string := fold_right (fun e r => sep d ++ istr d s e ++ r) "" l.
  Lemma istrs_cons d s e l : istrs d s (e :: l) = sep d ++ istr d s e ++ istrs d s l.
  Proof. reflexivity. Qed.

  Lemma print_istr : forall el d ps, print_indented ind d (tag_of ps el) = times d ind ++ istr d ps el ++ newline.
  Proof.
    induction el as [n a s c ch IH] using elem_ind'. intros d ps. cbn [tag_of print_indented istr]. rewrite print_open_str. f_equal.
    destruct ch as [|x ch].
    - cbn [map]. destruct c as [|b c]; unfold etag; rewrite <- !sapp_assoc; reflexivity.
    - remember (x :: ch) as l eqn:El.
      assert (G : forall X Y : string, match map (tag_of s) l with [] => X | _ :: _ => Y end = Y) by (subst; auto). rewrite G.
      clear G El x ch.
      fold (istrs (S d) s l).
      assert (E : newline ++ String.concat "" (map (print_indented ind (S d)) (map (tag_of s) l)) = istrs (S d) s l ++ newline).
      { clear - IH. induction l as [|e l IHl]; [reflexivity|]. cbn [map]. rewrite concat_cons, istrs_cons, IH by (cbn; auto). unfold sep at 1.
        rewrite <- !sapp_assoc. rewrite IHl by (intros; apply IH; cbn; auto). reflexivity. }
      unfold etag, sep. rewrite <- !sapp_assoc. do 4 f_equal. rewrite sapp_assoc, E, <- !sapp_assoc. reflexivity.
  Qed.

  Section Doc.
    Variable total : nat.
    Fixpoint idoc (d : nat) (ps : scope) (el : elem) (lft : nat) : doc :=
      match el with
      | Elem n a s c ch =>
          let A := tok_attrs a (diff_scope_loop s ps) in
          let tl := lft + String.length (etag (prefix s n)) in
          match ch with
          | [] => match c with
                  | EmptyString => Doc n A (total - lft) [] (total - lft)
                  | _ => Doc n A (total - (tl + String.length c)) [IOther (total - tl)] (total - lft)
                  end
          | _ => let tl' := tl + String.length (sep d) in
                 Doc n A (total - (tl' + String.length (istrs (S d) s ch)))
                   ((fix go l := match l with
                     | [] => [IOther (total - tl)]
                     | e :: l' => IOther (total - (tl' + String.length (istrs (S d) s l') + String.length (istr (S d) s e))) ::
                                  IElem (idoc (S d) s e (tl' + String.length (istrs (S d) s l'))) :: go l'
                     end) ch) (total - lft)
          end
      end.
    Fixpoint idocs (d : nat) (s : scope) (tl tl' : nat) (l : list elem) : list item :=
      match l with
      | [] => [IOther (total - tl)]
      | e :: l' => IOther (total - (tl' + String.length (istrs d s l') + String.length (istr d s e))) ::
                   IElem (idoc d s e (tl' + String.length (istrs d s l'))) :: idocs d s tl tl' l'
      end.
    Lemma idoc_eq d ps n a s c ch lft : ch <> [] -> idoc d ps (Elem n a s c ch) lft =
      Doc n (tok_attrs a (diff_scope_loop s ps)) (total - (lft + String.length (etag (prefix s n)) + String.length (sep d) + String.length (istrs (S d) s ch)))
        (idocs (S d) s (lft + String.length (etag (prefix s n))) (lft + String.length (etag (prefix s n)) + String.length (sep d)) ch) (total - lft).
    Proof.
      intros H. cbn [idoc]. destruct ch as [|x ch]; [congruence|]. cbv zeta. f_equal.
      generalize (lft + String.length (etag (prefix s n)) + String.length (sep d)) as tl', (lft + String.length (etag (prefix s n))) as tl. clear H.
      intros tl' tl. cbn [idocs]. do 2 f_equal. induction ch as [|e l IH]; auto. cbn [idocs]. do 2 f_equal. auto.
    Qed.
  End Doc.

  Lemma istr_eq d ps n a ds c ch : istr d ps (Elem n a (ps ++ ds)%list c ch) =
    "<" ++ prefix (ps ++ ds)%list n ++ attrs_str (raw_list (ps ++ ds)%list a ds) ++
        match ch with
        | [] => match c with EmptyString => " />" | _ => ">" ++ c ++ etag (prefix (ps ++ ds)%list n) end
        | _ => ">" ++ istrs (S d) (ps ++ ds)%list ch ++ sep d ++ etag (prefix (ps ++ ds)%list n)
        end.
  Proof. cbn [istr]. rewrite diff_loop_app. reflexivity. Qed.
  Lemma istr_lt d ps el : exists r, istr d ps el = String "<" r.
  Proof. destruct el. eexists. reflexivity. Qed.

  (* the text before a tag *)
  Lemma tokens_text total stack ns t s r : char_data t -> t <> "" -> s = String "<" r ->
    tokens total stack ns (raws (t ++ s)) = (TOther, total - String.length s) :: tokens total stack ns (raws s).
  Proof. intros C N ->. rewrite raws_eq, raw_text by auto. reflexivity. Qed.

  Lemma idoc_tokens total : forall el d ps stack rest, printable ps el -> decls_ok ps ->
    tokens total stack ps (raws (istr d ps el ++ rest)) =
    (doc_toks (idoc total d ps el (String.length rest)) ++ tokens total stack ps (raws rest))%list.
  Proof.
    induction el as [n a s c ch IH] using elem_ind'. intros d ps stack rest Hw Hps.
    inversion Hw as [? ? ? ds ? ? Hds Hname Hattr Hcont Hch]; subst.
    assert (Hs : decls_ok (ps ++ ds)%list).
    { intros x Hd. apply in_app_or in Hd as [|]; auto. }
    assert (Hq : qname_ok (prefix (ps ++ ds)%list n)) by (apply name_ok_qname; auto).
    assert (Hl : forall q v, In (q, v) (raw_list (ps ++ ds)%list a ds) -> qname_ok q /\ value_ok v = true)
      by (apply raw_list_ok; auto).
    set (s := (ps ++ ds)%list) in *.
    assert (Ediff : diff_scope_loop s ps = ds) by (unfold s; apply diff_loop_app).
    assert (Hstart : forall (sc : bool) r,
      tokens total stack ps (raws ("<" ++ prefix s n ++ attrs_str (raw_list s a ds) ++ (if sc then " />" else ">") ++ r)) =
      if sc then (TStart n (tok_attrs a ds), total - String.length r) :: (TEnd n, total - String.length r) :: tokens total stack ps (raws r)
      else (TStart n (tok_attrs a ds), total - String.length r) :: tokens total ((n, ps) :: stack) s (raws r)).
    { intros sc r. rewrite raws_eq, raw_start by auto. rewrite tokens_start. cbv zeta.
      rewrite raw_decls_list by auto. fold s. rewrite name_ok_translate, translated_attrs by auto. reflexivity. }
    unfold s at 1. rewrite istr_eq. fold s.
    destruct ch as [|x ch].
    - cbn [idoc]. rewrite Ediff.
      destruct c as [|b c].
      + rewrite <- !sapp_assoc. specialize (Hstart true rest). cbn [append] in *. rewrite Hstart. reflexivity.
      + rewrite <- !sapp_assoc. rewrite (Hstart false).
        cbn [doc_toks flat_map item_toks app].
        rewrite !slen_app. f_equal.
        { f_equal. lia. }
        assert (Hc : char_data (String b c)) by auto.
        rewrite (tokens_text _ _ _ (String b c) (etag (prefix s n) ++ rest) ("/" ++ prefix s n ++ ">" ++ rest)); [|auto|discriminate|unfold etag; rewrite <- !sapp_assoc; reflexivity].
        rewrite tokens_etag by auto. rewrite slen_app. f_equal. f_equal. lia.
    - assert (Hne : x :: ch <> []) by discriminate.
      rewrite idoc_eq by auto. remember (x :: ch) as l eqn:El. clear El.
      rewrite <- !sapp_assoc. rewrite (Hstart false). rewrite Ediff.
      cbn [doc_toks app]. rewrite !slen_app. f_equal.
      { f_equal. lia. }
      rewrite <- app_assoc. cbn [app].
      clear Hne Hw Hcont.
      set (T := etag (prefix s n) ++ rest).
      assert (ET : String.length rest + String.length (etag (prefix s n)) = String.length T) by (unfold T; rewrite slen_app; lia).
      rewrite ET.
      induction l as [|e l IHl].
      + cbn [istrs fold_right append idocs flat_map app item_toks].
        rewrite (tokens_text _ _ _ (sep d) T ("/" ++ prefix s n ++ ">" ++ rest)); [|apply sep_data|discriminate|unfold T, etag; rewrite <- !sapp_assoc; reflexivity].
        f_equal. unfold T. apply tokens_etag; auto.
      + rewrite istrs_cons, <- !sapp_assoc. cbn [idocs flat_map item_toks].
        destruct (istr_lt (S d) s e) as (r & Er).
        rewrite (tokens_text _ _ _ (sep (S d)) (istr (S d) s e ++ istrs (S d) s l ++ sep d ++ T) (r ++ istrs (S d) s l ++ sep d ++ T)); [|apply sep_data|discriminate|rewrite Er; reflexivity].
        cbn [app]. f_equal. { f_equal. rewrite !slen_app. lia. }
        rewrite IH; [|cbn; auto|apply Hch; cbn; auto|auto].
        rewrite <- app_assoc. replace (String.length (istrs (S d) s l ++ sep d ++ T)) with (String.length T + String.length (sep d) + String.length (istrs (S d) s l)) by (rewrite !slen_app; lia).
        f_equal. apply IHl; intros; [apply IH|apply Hch]; cbn; auto.
  Qed.

  Lemma idocs_end total d s : forall l tl tl' o, end_pos o (idocs total d s tl tl' l) = total - tl.
  Proof.
    intros l. induction l as [|e l IH]; intros tl tl' o; [reflexivity|].
    cbn [idocs]. rewrite !end_pos_cons. apply IH.
  Qed.
  Lemma idocs_in total d s : forall l tl tl' x, In (IElem x) (idocs total d s tl tl' l) ->
    exists l1 e l2, l = (l1 ++ e :: l2)%list /\ x = idoc total d s e (tl' + String.length (istrs d s l2)).
  Proof.
    induction l as [|e l IH]; intros tl tl' x H; [destruct H as [H|[]]; discriminate|destruct H as [H|[H|H]]].
    - discriminate.
    - injection H as <-. exists [], e, l. auto.
    - destruct (IH tl tl' x H) as (l1 & e' & l2 & -> & ->). exists (e :: l1), e', l2. auto.
  Qed.
  Lemma idoc_fits data : forall el d ps lft, lft + String.length (istr d ps el) <= String.length data ->
    fits data (idoc (String.length data) d ps el lft).
  Proof.
    induction el as [n a s c ch IH] using elem_ind'. intros d ps lft H.
    destruct ch as [|x ch].
    - cbn [idoc istr] in *. destruct c as [|b c].
      + constructor; unfold end_pos; cbn [map last]; [lia|lia|intros ? []].
      + rewrite !slen_app in H. constructor; unfold end_pos; cbn [map last item_off]; [lia|lia|intros ? [Hd|[]]; discriminate].
    - assert (Hlen : lft + String.length (etag (prefix s n)) + String.length (sep d) + String.length (istrs (S d) s (x :: ch)) <= String.length data).
      { cbn [istr] in H. fold (istrs (S d) s (x :: ch)) in H. rewrite !slen_app in H. lia. }
      rewrite idoc_eq by discriminate. constructor; rewrite ?idocs_end; try lia.
      intros y Hd. apply idocs_in in Hd as (l1 & e & l2 & El & ->). apply IH.
      + rewrite El. apply in_or_app; cbn; auto.
      + rewrite El in Hlen.
        assert (Hsp : String.length (istrs (S d) s (l1 ++ e :: l2)%list) >= String.length (istr (S d) s e) + String.length (istrs (S d) s l2)).
        { clear. induction l1 as [|y l1 IHl]; cbn [app]; rewrite istrs_cons, !slen_app; lia. }
        lia.
  Qed.
  Lemma idoc_height total : forall el d ps lft, height (idoc total d ps el lft) = eheight el.
  Proof.
    induction el as [n a s c ch IH] using elem_ind'. intros d ps lft.
    destruct ch as [|x ch]; [destruct c; reflexivity|].
    rewrite idoc_eq by discriminate. rewrite height_eq. cbn [eheight].
    generalize (lft + String.length (etag (prefix s n)) + String.length (sep d)) as tl'. generalize (lft + String.length (etag (prefix s n))) as tl. intros tl tl'.
    induction (x :: ch) as [|e l IHl]; auto. cbn [idocs hmax fold_right]. rewrite IH by (cbn; auto).
    fold (hmax (idocs total (S d) s tl tl' l)). rewrite IHl by (intros; apply IH; cbn; auto). auto.
  Qed.

  Lemma idoc_reread data : forall el d ps ps' pre rest el', printable ps el ->
    data = pre ++ istr d ps el ++ rest ->
    tree_of data decls_of attrs_of ps' (idoc (String.length data) d ps el (String.length rest)) el' ->
    reread ps ps' el el'.
  Proof.
    induction el as [n a s c ch IH] using elem_ind'. intros d ps ps' pre rest el' Hw Hdata Ht.
    inversion Hw as [? ? ? ds ? ? Hds Hname Hattr Hcont Hch]; subst ps0 n0 a0 s c0 ch0.
    rewrite istr_eq in Hdata. set (s := (ps ++ ds)%list) in *.
    assert (Ediff : diff_scope_loop s ps = ds) by (unfold s; apply diff_loop_app).
    destruct (decls_of_tok s a ds Hattr) as [Ed Ea].
    destruct ch as [|x ch].
    - cbn [idoc] in Ht. rewrite Ediff in Ht.
      destruct c as [|b c].
      + apply tree_of_inv in Ht as (ds' & c' & ch' & [Hp Hsorted] & Hc & Htr & ->).
        rewrite Ea. rewrite Ed in Hp. inversion Htr; subst ch'.
        unfold s. constructor; auto; [|constructor].
        intros _. unfold slice, end_pos in Hc. cbn [map last] in Hc. rewrite Nat.leb_refl in Hc. cbn [andb] in Hc.
        destruct (_ <=? _)%nat; [|discriminate]. injection Hc as <-. rewrite Nat.sub_diag. apply substring_0.
      + apply tree_of_inv in Ht as (ds' & c' & ch' & [Hp Hsorted] & Hc & Htr & ->).
        rewrite Ea. rewrite Ed in Hp. inversion Htr as [|? ? ? ? Htr'|]; subst ch'. inversion Htr'; subst ch.
        unfold s. constructor; auto; [|constructor].
        intros _. unfold end_pos in Hc. cbn [map last item_off] in Hc.
        set (P := pre ++ "<" ++ prefix s n ++ attrs_str (raw_list s a ds) ++ ">") in *.
        assert (Hdata' : data = P ++ String b c ++ (etag (prefix s n) ++ rest)).
        { rewrite Hdata. unfold P. rewrite <- !sapp_assoc. auto. }
        rewrite Hdata' in Hc.
        rewrite !slen_app in Hc.
        replace (String.length P + (String.length (String b c) + (String.length (etag (prefix s n)) + String.length rest)) -
               (String.length rest + String.length (etag (prefix s n)) + String.length (String b c))) with (String.length P) in Hc by lia.
        replace (String.length P + (String.length (String b c) + (String.length (etag (prefix s n)) + String.length rest)) -
               (String.length rest + String.length (etag (prefix s n)))) with (String.length P + String.length (String b c)) in Hc by lia.
        rewrite slice_mid in Hc. congruence.
    - rewrite idoc_eq in Ht by discriminate.
      remember (x :: ch) as l eqn:El.
      assert (Hne : l <> []) by (rewrite El; discriminate).
      clear El x ch.
      rewrite Ediff in Ht.
      apply tree_of_inv in Ht as (ds' & c' & ch' & [Hp Hsorted] & Hc & Htr & ->).
      rewrite Ea. rewrite Ed in Hp. unfold s at 1. constructor; auto; [congruence|].
      clear Hc Hne Hcont Hp Hsorted Hw. fold s.
      assert (Hd : exists P, data = P ++ istrs (S d) s l ++ (sep d ++ etag (prefix s n) ++ rest)).
      { exists (pre ++ "<" ++ prefix s n ++ attrs_str (raw_list s a ds) ++ ">"). rewrite Hdata, <- !sapp_assoc. auto. }
      clear Hdata. destruct Hd as [P Hd].
      replace (String.length rest + String.length (etag (prefix s n)) + String.length (sep d)) with (String.length (sep d ++ etag (prefix s n) ++ rest)) in Htr by (rewrite !slen_app; lia).
      revert Htr Hd. generalize (sep d ++ etag (prefix s n) ++ rest) as T. intros T. generalize (ps' ++ ds')%list as s', (String.length rest + String.length (etag (prefix s n))) as tl. intros s' tl.
      revert P ch'. induction l as [|e l IHl]; intros P ch' Htr Hd.
      + inversion Htr as [|? ? ? ? Htr'|]; subst ch'. inversion Htr'. constructor.
      + cbn [idocs] in Htr. inversion Htr as [|? ? ? ? Htr'|]; subst ch'. inversion Htr' as [| |? ? e' ? ch'' He Hl]; subst ch.
        rewrite istrs_cons in *. constructor.
        * apply (IH e) with (d := S d) (pre := P ++ sep (S d)) (rest := istrs (S d) s l ++ T); cbn; auto.
          -- apply Hch; cbn; auto.
          -- rewrite Hd, <- !sapp_assoc. auto.
          -- rewrite (slen_app (istrs (S d) s l)). rewrite (Nat.add_comm (String.length (istrs (S d) s l))). auto.
        * apply (IHl ltac:(intros; eapply IH; cbn; eauto) ltac:(intros; apply Hch; cbn; auto) (P ++ sep (S d) ++ istr (S d) s e)); auto.
          rewrite Hd, <- !sapp_assoc. auto.
  Qed.

  Lemma indent_round_trip sortns pfx el : sorts sortns -> printable [] el -> (eheight el <= 3000)%N ->
    exists el' off rest, parse sortns (marshal_indent el pfx ind) (decode (marshal_indent el pfx ind)) = POk el' off rest /\ reread [] [] el el'.
  Proof.
    intros Hs Hw Hh. rewrite marshal_indent_print by auto. rewrite print_istr. cbn [times append].
    set (data := istr 0 [] el ++ newline).
    assert (E : decode data = (doc_toks (idoc (String.length data) 0 [] el 1) ++ tokens (String.length data) [] [] (raws newline))%list).
    { unfold decode. change (raw_tokens (S (String.length data)) data) with (raws data).
      pose proof (idoc_tokens (String.length data) el 0 [] [] newline Hw) as H. fold data in H. rewrite H by (intros ? []). reflexivity. }
    destruct (parse_complete sortns data Hs (idoc (String.length data) 0 [] el 1) [] (tokens (String.length data) [] [] (raws newline))) as (el' & off & P & T).
    - intros ? ? ? [].
    - apply idoc_fits. unfold data. rewrite slen_app. cbn [newline String.length]. lia.
    - rewrite idoc_height. auto.
    - exists el', off, (tokens (String.length data) [] [] (raws newline)). rewrite E. cbn [app] in P. split; auto.
      eapply (idoc_reread data el 0 [] [] "" newline); auto.
  Qed.
End Indent.

Lemma tidy_indent ind : forall el el' d ps, tidy ps el -> reread ps ps el el' -> istr ind d ps el' = istr ind d ps el.
Proof.
  induction el as [n a s c ch IH] using elem_ind'. intros el' d ps Ht Hr.
  apply reread_inv in Hr as (ds & ds' & c' & ch' & -> & -> & Hp & Hso & Hc & Hch).
  inversion Ht as [? ? ? ds0 ? ? Hss Htc E]; subst. match goal with H : (ps ++ _)%list = (ps ++ _)%list |- _ => apply app_inv_head in H; subst end.
  assert (ds' = ds) as -> by (symmetry; apply sorted_perm_eq; auto).
  assert (Em : istrs ind (S d) (ps ++ ds)%list ch' = istrs ind (S d) (ps ++ ds)%list ch).
  { clear - IH Hch Htc. revert ch' Hch. induction ch as [|x ch IHl]; intros ch' Hch; inversion Hch; subst; auto.
    rewrite !istrs_cons. do 2 f_equal.
    - apply IH; cbn; auto. apply Htc; cbn; auto.
    - apply IHl; auto; intros; [apply IH|apply Htc]; cbn; auto. }
  rewrite !istr_eq. destruct ch as [|x ch]; inversion Hch; subst.
  - rewrite (Hc eq_refl). auto.
  - rewrite Em. auto.
Qed.
Lemma indent_paths sortns pfx ind el : sorts sortns -> writable [] el -> (eheight el <= 3000)%N -> spaces ind ->
  exists el' off rest, parse sortns (marshal_indent el pfx ind) (decode (marshal_indent el pfx ind)) = POk el' off rest /\
  forall p e, sub el p = Some e ->
    exists e', sub el' p = Some e' /\ e_name e' = e_name e /\ e_attrs e' = e_attrs e /\
      List.length (e_children e') = List.length (e_children e) /\
      (e_children e = [] -> e_content e' = e_content e) /\
      forall q, resolve_ns (e_scope e') q = resolve_ns (e_scope e) q.
Proof.
  intros Hs Hw Hh B. destruct (indent_round_trip ind B sortns pfx el Hs (writable_printable _ _ Hw) Hh) as (el' & off & rest & P & R).
  exists el', off, rest. split; auto. intros p e He. eapply reread_at; eauto.
Qed.
Lemma indent_stable sortns pfx ind el : sorts sortns -> printable [] el -> tidy [] el -> (eheight el <= 3000)%N -> spaces ind ->
  exists el' off rest, parse sortns (marshal_indent el pfx ind) (decode (marshal_indent el pfx ind)) = POk el' off rest /\
    marshal el' = marshal el /\ forall pfx' ind', marshal_indent el' pfx' ind' = marshal_indent el pfx' ind'.
Proof.
  intros Hs Hw Ht Hh B. destruct (indent_round_trip ind B sortns pfx el Hs Hw Hh) as (el' & off & rest & P & R).
  exists el', off, rest. split; auto. pose proof (reread_height _ _ _ _ R) as H. split.
  - rewrite !marshal_mstr by (rewrite ?H; auto). apply (tidy_reread _ _ _ Ht R).
  - intros. rewrite !marshal_indent_print by (rewrite ?H; auto). rewrite !print_istr. do 2 f_equal. apply tidy_indent; auto.
Qed.
