(* SOAP arrays as slices. *)
From Verif Require Import Base ScopeModel ScopeProofs TreeModel EqualModel BuiltinModel CodecModel XsdModel XsdProofs TypesModel GenModel SgModel SgStruct SgProofs SgNames SgTags SgExamples SoapModel SoapSpec SoapProofs SoapExamples SliceModel SliceSpec.
Local Open Scope string_scope.

Section Run.
  Variables Item Err : Type.
  Variable eof : Err.
  Variable decode : xname -> list xattr -> list tok -> (Item + Err) * list tok.
  Notation read_items := (read_items Item Err eof decode).
  Lemma read_kids kids rs : Forall2 (reads Item Err decode) kids rs -> forall fuel tag acc l, nlocal tag = ",any" -> List.length kids < fuel ->
    read_items fuel tag acc (flat_map toks kids ++ TEnd :: l) = Some (acc ++ good_items Item Err rs, None, l)%list.
  Proof.
    intros F. induction F as [|k r kids rs H F IH]; intros [|fuel] tag acc l Ht Hf; cbn [List.length] in Hf; try lia.
    - cbn. rewrite app_nil_r. reflexivity.
    - destruct k as [|n a rest]; cbn [flat_map toks app].
      + cbn [SliceModel.read_items]. rewrite IH by (auto; lia). cbn [reads] in H. subst r. reflexivity.
      + destruct H as (v & -> & Hd). cbn [SliceModel.read_items]. rewrite Ht. change (negb (String.eqb ",any" ",any")) with false. cbn [andb]. rewrite <- app_assoc, Hd.
        rewrite IH by (auto; lia). unfold good_items. cbn [flat_map]. destruct v; cbn [app]; [rewrite <- app_assoc|]; reflexivity.
  Qed.
  Lemma unmarshal_items kids rs tag : Forall2 (reads Item Err decode) kids rs -> nlocal tag = ",any" ->
    unmarshal Item Err eof decode tag (flat_map toks kids ++ [TEnd]) = Items Item Err (good_items Item Err rs).
  Proof.
    intros F Ht. unfold unmarshal. rewrite (read_kids kids rs F _ tag [] [] Ht); [reflexivity|]. rewrite app_length. cbn [List.length].
    assert (List.length kids <= List.length (flat_map toks kids)); [|lia]. clear. induction kids as [|k kids IH]; cbn [flat_map List.length]; [lia|]. rewrite app_length. destruct k; cbn [toks List.length]; lia.
  Qed.
  Lemma read_all tag l : (forall n a l', List.length (snd (decode n a l')) <= List.length l') -> forall fuel acc, List.length l < fuel -> read_items fuel tag acc l <> None.
  Proof.
    intros Hd fuel. revert l. induction fuel as [|fuel IH]; intros l acc Hf; [lia|]. cbn [SliceModel.read_items]. destruct l as [|[n a| |] l']; cbn [List.length] in Hf; try discriminate.
    - assert (Sk : forall d l, List.length (skip d l) <= List.length l). { intros d l0. revert d. induction l0 as [|t l0 IHl]; intros d; cbn [skip List.length]; [lia|]. destruct t; [specialize (IHl (S d)); lia| |specialize (IHl d); lia]. destruct d; [lia|]. specialize (IHl d). lia. }
      destruct (negb (String.eqb (nlocal tag) ",any") && negb (xname_eqb tag n))%bool; [apply IH; specialize (Sk 0 l'); lia|]. specialize (Hd n a l'). destruct (decode n a l') as [r l2]. cbn [snd] in Hd. apply IH. lia.
    - apply IH. lia.
  Qed.
  Lemma unmarshal_ends tag content : (forall n a l', List.length (snd (decode n a l')) <= List.length l') -> unmarshal Item Err eof decode tag content <> Stuck Item Err.
  Proof.
    intros Hd. unfold unmarshal. pose proof (read_all tag content Hd (S (List.length content)) []) as H. destruct (read_items (S (List.length content)) tag [] content) as [[[l [e|]] [|t r]]|]; try discriminate. exfalso. apply H; auto.
  Qed.
  Variable encode : xname -> Item -> xname * list xattr * list tok.
  Lemma marshal_unmarshal sl name attrs items : nlocal (sl_tag sl) = ",any" -> (forall x, In x items -> inverse Item Err decode encode (out_tag (sl_tag sl)) x) ->
    exists content, marshal Item encode sl name attrs items = TStart name (attrs ++ array_attrs (sl_base sl)) :: content /\
      unmarshal Item Err eof decode (sl_tag sl) content = Items Item Err items.
  Proof.
    intros Ht H. eexists. split; [reflexivity|].
    set (kid x := let '(n, a, rest) := encode (out_tag (sl_tag sl)) x in Child n a rest).
    assert (E : flat_map (fun x => let '(n, a, rest) := encode (out_tag (sl_tag sl)) x in TStart n a :: rest) items = flat_map toks (map kid items)).
    { clear H. induction items as [|x items IH]; cbn [flat_map map]; auto. rewrite IH. f_equal. unfold kid. destruct (encode (out_tag (sl_tag sl)) x) as [[n a] rest]. reflexivity. }
    rewrite E, (unmarshal_items (map kid items) (map (fun x => Some (inl x)) items)); auto.
    - f_equal. clear. induction items as [|x items IH]; cbn; auto. unfold good_items in IH. rewrite IH. reflexivity.
    - clear E. induction items as [|x items IH]; cbn [map]; constructor; [|apply IH; intros y Hy; apply H; right; auto].
      specialize (H x (or_introl eq_refl)). unfold inverse, kid in *. destruct (encode (out_tag (sl_tag sl)) x) as [[n a] rest]. exists (inl x). auto.
  Qed.
End Run.

(* a struct that becomes a slice *)
Lemma slice_of_array public fa fe helpers st i c st' sps e : i < List.length st -> gen_complex public fa fe helpers st i c = Ret (st', sps) -> ct_mixed c = false ->
  filter_fields fa fe (inherit st c) = ([], [e]) -> find el_wild (ct_elems (inherit st c)) = Some e -> el_plural e = true ->
  forall n, type_name st' (el_type e) = Some n -> nlocal n <> "" ->
  exists sp x, sps = [sp] /\ to_slice st' sp = Ret (Some (mkSlice x (mkName "" ",any") n)) /\
    (if match el_type e with TB b => (b =? 0)%Z | _ => false end then x = EId "string" else expr_of public st' (el_type e) = Ret x).
Proof.
  intros Hi H Hm Hf Hw Hp n Hn Hl. pose proof (gen_complex_fields public fa fe helpers st i c st' sps H) as Q. cbn zeta in Q. rewrite Hf in Q.
  destruct Q as (Est & sp & cs & es & fs & -> & _ & _ & Ht & Hs & _ & _ & Hc & He & Ha). rewrite (Hc Hm) in Hs. inversion Ha; subst fs. inversion He as [|? f ? ? Hef Her]; subst es. inversion Her; subst. rewrite app_nil_r in Hs. cbn [app] in Hs.
  destruct Hef as [_ Hx]. pose proof (find_some _ _ Hw) as [_ Hwild]. unfold element_expr in Hx. rewrite Hwild, Hp in Hx. cbn [andb] in Hx.
  exists sp. unfold to_slice. rewrite Hs, Ht. unfold get_c, put_c. rewrite nth_error_set_nth, Nat.eqb_refl by auto. rewrite Hw. fold (put_c st i (inherit st c)). rewrite Hn.
  assert (En : (String.eqb (nspace n) "" && String.eqb (nlocal n) "")%bool = false) by (apply andb_false_iff; right; apply String.eqb_neq; auto). rewrite En.
  destruct Hx as (x0 & Hx0 & Hx). eexists. split; [reflexivity|]. rewrite Hx. cbn [tag_key andthen item_tag String.eqb]. split; [reflexivity|].
  destruct (match el_type e with TB b => (b =? 0)%Z | _ => false end); [reflexivity|exact Hx0].
Qed.
Lemma round_trip Item Err (eof : Err) decode encode sl name attrs items : nlocal (sl_tag sl) = ",any" ->
  (forall x, In x items -> inverse Item Err decode encode (mkName (nspace (sl_tag sl)) "item") x) ->
  exists content, marshal Item encode sl name attrs items = (TStart name (attrs ++ array_attrs (sl_base sl)) :: content)%list /\
    unmarshal Item Err eof decode (sl_tag sl) content = Items Item Err items.
Proof. intros Ht H. apply marshal_unmarshal; auto. intros x Hx. unfold out_tag. rewrite Ht. exact (H x Hx). Qed.
