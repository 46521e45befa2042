(* genComplexType makes structs that can be marshaled and unmarshaled. *)
From Verif Require Import Base ScopeModel TreeModel EqualModel EqualProofs BuiltinModel XsdModel XsdProofs TypesModel GenModel SgModel SgStruct SgProofs SgNames SgTags BindModel BindSpec BindProofs BindGen BindGenSpec.
Local Open Scope string_scope.

Lemma unquotable_app a b : unquotable (a ++ b) = (unquotable a || unquotable b)%bool.
Proof. unfold unquotable. rewrite !s_in_app. destruct (s_in """" a), (s_in """" b), (s_in "\" a), (s_in "\" b), (s_in "010" a), (s_in "010" b); reflexivity. Qed.
Lemma info_binds ns local flags name content : tag_of content = (ns, local :: flags) -> unquotable content = false -> name <> "XMLName" -> s_in ">" local = false -> forall i d e p,
  info_of i d name (quoted content) e p =
  (let omit := mem_str "omitempty" flags in
   let fname := if String.eqb local "" then name else local in
   match filter (fun f => negb (String.eqb f "omitempty")) flags with
   | [] => if (String.eqb local "" && negb (String.eqb ns ""))%bool then None else Some (mkInfo i d MElem ns fname omit e p)
   | ["attr"] => if (String.eqb local "" && negb (String.eqb ns ""))%bool then None else Some (mkInfo i d MAttr ns fname omit e p)
   | ["chardata"] => if (negb (String.eqb local "") || negb (String.eqb ns "") || omit)%bool then None else Some (mkInfo i d MText ns fname false e p)
   | ["any"] => if (negb (String.eqb local "") || negb (String.eqb ns ""))%bool then None else Some (mkInfo i d MAny ns fname omit e p)
   | _ => None
   end).
Proof. intros T U N G i d e p. unfold info_of. apply String.eqb_neq in N. rewrite N, content_quoted, T, G by exact U. reflexivity. Qed.
Lemma quoted_inj a b : quoted a = quoted b -> a = b.
Proof.
  unfold quoted. intros H. cbn [append] in H. injection H as H. apply (f_equal s_rev) in H. rewrite !s_rev_app in H. change (s_rev """") with """" in H. cbn [append] in H. injection H as H.
  apply (f_equal s_rev) in H. rewrite !s_rev_rev in H. exact H.
Qed.
Lemma text_says f : sf_tag f = quoted ",chardata" -> sf_name f <> "XMLName" -> exists x, says f x /\ fi_mode x = MText.
Proof. intros T N. unfold says. rewrite T. rewrite (info_binds "" "" ["chardata"] (sf_name f) ",chardata"); [|reflexivity|reflexivity|exact N|reflexivity]. eexists. split; reflexivity. Qed.
Lemma element_says e f : sf_tag f = (if el_wild e then quoted ",any" else element_tag e) -> (el_wild e = true -> sf_name f = if el_plural e then "Items" else "Item") -> sf_name f <> "XMLName" ->
  (el_wild e = false -> tag_ok (el_name e)) -> exists x, says f x /\ is_elem x = true /\ is_any x = el_wild e /\ fi_omit x = (negb (el_wild e) && (el_nillable e || el_optional e))%bool /\ fi_ns x = nspace (el_key e) /\ fi_name x = nlocal (el_key e).
Proof.
  intros T W N O. unfold says, el_key. rewrite T. destruct (el_wild e).
  - rewrite (info_binds "" "" ["any"] (sf_name f) ",any"); [|reflexivity|reflexivity|exact N|reflexivity]. eexists. split; [reflexivity|]. split; [reflexivity|]. split; [reflexivity|]. split; [reflexivity|]. split; [reflexivity|]. cbn [fi_name nlocal]. apply W. reflexivity.
  - destruct (O eq_refl) as (O1 & O2 & O3 & O4 & O5 & O6 & O7). destruct (element_binds e (conj O4 O6)) as (content & C1 & C2). rewrite C1.
    assert (U : unquotable content = false).
    { unfold element_tag in C1. apply quoted_inj in C1. rewrite <- C1, !unquotable_app, O2, O3. destruct (el_nillable e || el_optional e)%bool; reflexivity. }
    rewrite (info_binds _ _ _ (sf_name f) content C2 U N O7). apply String.eqb_neq in O1. rewrite O1. unfold omit. destruct (el_nillable e || el_optional e)%bool; (eexists; split; [reflexivity|]; repeat split; reflexivity).
Qed.
Lemma attribute_says a f : sf_tag f = attribute_tag a -> sf_name f <> "XMLName" -> tag_ok (at_name a) -> exists x, says f x /\ fi_mode x = MAttr /\ fi_ns x = nspace (at_key a) /\ fi_name x = nlocal (at_key a).
Proof.
  intros T N (O1 & O2 & O3 & O4 & O5 & O6 & O7). unfold says, at_key. rewrite T. destruct (attribute_binds a (conj O4 O6) O5) as (content & C1 & C2). rewrite C1.
  assert (U : unquotable content = false).
  { unfold attribute_tag in C1. apply quoted_inj in C1. rewrite <- C1, !unquotable_app, O3. destruct (existsb _ (at_attr a)), (at_optional a); rewrite ?unquotable_app, ?O2; reflexivity. }
  rewrite (info_binds _ _ _ (sf_name f) content C2 U N O7). apply String.eqb_neq in O1. rewrite O1. unfold omit. destruct (at_optional a); (eexists; split; [reflexivity|]; repeat split; reflexivity).
Qed.

Lemma table_names : forall b g, builtin_expr b = Returns (Some g) -> String.prefix "[]" (match g with GIdent n => n | GArray n => n end) = false.
Proof.
  intros b g. unfold builtin_expr. destruct (_ || _)%bool; [discriminate|]. destruct (nth_error tbl (Z.to_nat b)) as [t|] eqn:E; [|discriminate]. intros [= ->]. apply nth_error_In in E.
  assert (F : Forall (fun t => match t with Some (GIdent n) | Some (GArray n) => String.prefix "[]" n = false | None => True end) tbl) by (unfold tbl; repeat constructor).
  rewrite Forall_forall in F. specialize (F _ E). destruct g; exact F.
Qed.
Lemma helper_exprs b g : non_trivial b = true -> builtin_expr b = Returns (Some g) -> of_gotype g = EId "time.Time" \/ of_gotype g = EArr (EId "byte").
Proof.
  intros N E. unfold non_trivial in N. apply existsb_exists in N as (z & N & Ez). apply Z.eqb_eq in Ez as ->. cbn [In] in N. repeat (destruct N as [<-|N]; [vm_compute in E; injection E as <-; cbn; auto|]). destruct N.
Qed.
Lemma text_expr_id n : String.prefix "[]" n = false -> text_expr n = EId n.
Proof.
  destruct n as [|c n]; [reflexivity|]. destruct (Ascii.eqb_spec c "[") as [->|N].
  - destruct n as [|c' n]; [reflexivity|]. destruct (Ascii.eqb_spec c' "]") as [->|N']; [destruct n; discriminate|].
    intros _. destruct c' as [[] [] [] [] [] [] [] []]; try reflexivity; congruence.
  - intros _. destruct c as [[] [] [] [] [] [] [] []]; try reflexivity; congruence.
Qed.

Section Struct.
  Variable public : xname -> string.
  Variable fa : option (attribute -> bool).
  Variable fe : option (element -> bool).
  Variable helpers : list Z.
  Hypothesis Hpub : forall n, String.prefix "[]" (public n) = false.

  Lemma text_expr_of st t e : expr_of public st t = Ret e -> text_expr (expr_text e) = e.
  Proof.
    assert (P : forall n, text_expr (expr_text (EId (public n))) = EId (public n)) by (intros n; cbn [expr_text]; apply text_expr_id, Hpub).
    unfold expr_of. destruct t as [|b|n|j]; [destruct (type_name st TNil); [|discriminate]; intros [= <-]; apply P| | |].
    - destruct (builtin_expr b) as [|[g|]] eqn:E; try discriminate. intros [= <-]. apply table_names in E. destruct g as [n|n]; cbn [of_gotype expr_text]; [apply text_expr_id; exact E|]. cbn [append text_expr]. rewrite text_expr_id by exact E. reflexivity.
    - destruct (type_name st (TLink n)); [|discriminate]. intros [= <-]. apply P.
    - destruct (type_name st (TPtr j)); [|discriminate]. intros [= <-]. apply P.
  Qed.

  (* ---------- the overlays ---------- *)
  Definition over_fits (fs : list sfield) (o : override) : Prop :=
    exists f st, In f fs /\ sf_name f = ov_field o /\ sf_tag f = ov_tag o /\ expr_of public st (ov_type o) = Ret (sf_expr f) /\
      ov_to o = match ov_type o with TB b => if non_trivial b then helper_name b else expr_text (sf_expr f) | _ => expr_text (sf_expr f) end.
  Definition over_inv (g : gstate) : Prop :=
    (forall o, In o (g_over g) -> over_fits (g_fields g) o) /\ (NoDup (map sf_name (g_fields g)) -> NoDup (map ov_field (g_over g))).
  Lemma over_fits_app fs fs' o : over_fits fs o -> over_fits (fs ++ fs') o.
  Proof. intros (f & st & I & H). exists f, st. split; [apply in_or_app; left; exact I|exact H]. Qed.
  Lemma override_one st t d name tag l hs : override_for public helpers st t d name tag = Ret (l, hs) -> l = [] \/ exists o, l = [o].
  Proof.
    unfold override_for. destruct (_ || _)%bool; [|intros [= <- _]; auto]. destruct (expr_string public st t); cbn [andthen]; try discriminate. destruct t as [|b|n|j]; [| |intros [= <- _]; eauto|intros [= <- _]; eauto].
    - intros [= <- _]. eauto.
    - destruct (non_trivial b); [destruct (memb b helpers); [|discriminate]|]; intros [= <- _]; eauto.
  Qed.
  Lemma over_step g f taken st t d l hs hp : over_inv g -> override_for public helpers st t d (sf_name f) (sf_tag f) = Ret (l, hs) -> (l <> [] -> expr_of public st t = Ret (sf_expr f)) ->
    over_inv (mkG taken (g_fields g ++ [f]) (g_over g ++ l) hp).
  Proof.
    intros [V N] O E. destruct (override_spec _ _ _ _ _ _ _ _ _ O) as [S _]. split; cbn [g_fields g_over].
    - intros o Ho. apply in_app_or in Ho as [Ho|Ho]; [apply over_fits_app; exact (V o Ho)|]. destruct (S o Ho) as (S1 & S2 & S3 & S4 & S5 & S6).
      assert (El : expr_of public st t = Ret (sf_expr f)) by (apply E; intros ->; destruct Ho). exists f, st. split; [apply in_or_app; right; left; reflexivity|]. rewrite (S5 _ El) in S6. rewrite S3. auto.
    - rewrite !map_app. cbn [map]. intros Nd. assert (N1 : NoDup (map sf_name (g_fields g))) by (apply NoDup_remove_1 in Nd; rewrite app_nil_r in Nd; exact Nd).
      assert (N2 : ~ In (sf_name f) (map sf_name (g_fields g))) by (apply NoDup_remove_2 in Nd; rewrite app_nil_r in Nd; exact Nd).
      destruct (override_one _ _ _ _ _ _ _ O) as [->|[o ->]]; [cbn [map]; rewrite app_nil_r; auto|]. cbn [map]. apply nodup_snoc; [auto|]. destruct (S o (or_introl eq_refl)) as (S1 & _). rewrite S1. intros I. apply N2.
      apply in_map_iff in I as (o' & I1 & I2). destruct (V o' I2) as (f' & _ & F1 & F2 & _). rewrite <- I1, <- F2. apply in_map. exact F1.
  Qed.
  Lemma element_over st g e g' : (needs (el_type e) (el_default e) = true -> el_plural e = false /\ el_wild e = false) -> over_inv g -> element_field public helpers st g e = Ret g' -> over_inv g'.
  Proof.
    intros Hp K. unfold element_field. destruct (expr_of public st (el_type e)) as [y| | |] eqn:Ey; cbn [andthen]; try discriminate. destruct (element_name public (g_taken g) (el_name e)) as [taken name]. cbv zeta.
    match goal with |- context [mkField ?nm ?bs ?tg] => set (f := mkField nm bs tg) end.
    destruct (override_for public helpers st (el_type e) (el_default e) _ _) as [[l hs]| | |] eqn:O; cbn [andthen]; try discriminate. intros [= <-]. apply (over_step g f taken st (el_type e) (el_default e) l hs); [exact K|exact O|].
    intros L. cbn [fst] in L. destruct (override_list _ _ _ _ _ _ _ _ _ O) as [X _]. destruct (needs (el_type e) (el_default e)); [|destruct l; [congruence|discriminate]]. destruct (Hp eq_refl) as [P W]. unfold f. cbn [sf_expr]. rewrite P, W. exact Ey.
  Qed.
  Lemma attribute_over st g a g' : over_inv g -> attribute_field public helpers st g a = Ret g' -> over_inv g'.
  Proof.
    intros K. unfold attribute_field. destruct (expr_of public st (at_type a)) as [y| | |] eqn:Ey; cbn [andthen]; try discriminate. destruct (attribute_name public (g_taken g) (at_name a)) as [taken name]. cbv zeta.
    destruct (override_for public helpers st (at_type a) (at_default a) _ _) as [[l hs]| | |] eqn:O; cbn [andthen]; try discriminate. intros [= <-].
    apply (over_step g (mkField name y (attribute_tag a)) taken st (at_type a) (at_default a) l hs); [exact K|exact O|]. intros _. exact Ey.
  Qed.
  Lemma chardata_over st c g : chardata public helpers st c = Ret g -> over_inv g.
  Proof.
    assert (E0 : over_inv (mkG [] [] [] [])) by (split; [intros ? []|constructor]).
    unfold chardata. destruct (ct_mixed c); [|intros [= <-]; exact E0]. destruct (drill _ st (ct_base c)) as [b| | |]; cbn [andthen]; try discriminate.
    destruct (expr_of public st b) as [e| | |] eqn:E; cbn [andthen]; try discriminate. destruct b as [|z|n|i]; cbn [is_simple]; try discriminate.
    - destruct (z =? 0)%Z; [intros [= <-]; exact E0|]. change (unique [] "Value") with (["Value"], "Value"). cbv beta iota. destruct (non_trivial z) eqn:B; cbn [andthen].
      + destruct (override_for public helpers st (TB z) "" "Value" (quoted ",chardata")) as [[l hs]| | |] eqn:O; cbn [andthen]; try discriminate. intros [= <-].
        apply (over_step (mkG [] [] [] []) (mkField "Value" e (quoted ",chardata")) ["Value"] st (TB z) "" l hs hs E0 O). intros _. exact E.
      + intros [= <-]. split; [intros ? []|constructor].
    - destruct (match nth_error st i with Some (DS _) => true | _ => false end); [|discriminate]. intros [= <-]. split; [intros ? []|constructor].
  Qed.
  Lemma wild_names st els : forall g g', foldr (element_field public helpers st) g els = Ret g' ->
    exists fs, g_fields g' = (g_fields g ++ fs)%list /\ Forall2 (fun e f => el_wild e = true -> sf_name f = if el_plural e then "Items" else "Item") els fs.
  Proof.
    induction els as [|e els IH]; intros g g'; cbn [foldr]; [intros [= <-]; exists []; rewrite app_nil_r; split; [reflexivity|constructor]|].
    destruct (element_field public helpers st g e) as [x| | |] eqn:E; cbn [andthen]; try discriminate. intros H. apply IH in H as (fs & H1 & H2).
    unfold element_field in E. destruct (expr_of public st (el_type e)) as [y| | |]; cbn [andthen] in E; try discriminate. destruct (element_name public (g_taken g) (el_name e)) as [taken name]. cbv zeta in E.
    destruct (override_for public helpers st (el_type e) (el_default e) _ _) as [[l hs]| | |]; cbn [andthen] in E; try discriminate. injection E as <-. cbn [g_fields] in H1. eexists. split; [rewrite H1, <- app_assoc; reflexivity|].
    constructor; [|exact H2]. intros W. cbn [sf_name]. rewrite W. reflexivity.
  Qed.
  Lemma complex_over st i c st' sps : gen_complex public fa fe helpers st i c = Ret (st', sps) ->
    (forall e, In e (snd (filter_fields fa fe (inherit st c))) -> needs (el_type e) (el_default e) = true -> el_plural e = false /\ el_wild e = false) ->
    let (ats, els) := filter_fields fa fe (inherit st c) in
    exists sp cs es fs, sps = [sp] /\ sp_struct sp = Some (cs ++ es ++ fs)%list /\ Forall (fun f => sf_tag f = quoted ",chardata") cs /\ List.length cs <= 1 /\ (ct_mixed c = false -> cs = []) /\
      Forall2 (fun e f => sf_tag f = (if el_wild e then quoted ",any" else element_tag e) /\ (el_wild e = true -> sf_name f = if el_plural e then "Items" else "Item")) els es /\
      Forall2 (fun a f => sf_tag f = attribute_tag a /\ expr_of public st' (at_type a) = Ret (sf_expr f)) ats fs /\
      (forall o, In o (sp_overrides sp) -> over_fits (cs ++ es ++ fs) o) /\ (NoDup (map sf_name (cs ++ es ++ fs)) -> NoDup (map ov_field (sp_overrides sp))).
  Proof.
    intros H Hp. pose proof (gen_complex_fields public fa fe helpers st i c st' sps H) as G. cbv zeta in G. unfold gen_complex in H. destruct (chardata public helpers st c) as [g| | |] eqn:C; cbn [andthen] in H; try discriminate.
    destruct (filter_fields fa fe (inherit st c)) as [ats els]. cbn [snd] in Hp.
    destruct (foldr (element_field public helpers _) g els) as [g1| | |] eqn:E1; cbn [andthen] in H; try discriminate.
    destruct (foldr (attribute_field public helpers _) g1 ats) as [g2| | |] eqn:E2; cbn [andthen] in H; try discriminate. injection H as <- <-.
    assert (I : over_inv g2).
    { apply chardata_over in C. revert E2. apply (foldr_inv _ over_inv); [intros a b a' _; apply attribute_over|]. revert E1. apply (foldr_inv _ over_inv); [|exact C]. intros a b a' Hb. apply element_over. exact (Hp b Hb). }
    destruct (wild_names _ _ _ _ E1) as (ws & W1 & W2). destruct G as (_ & sp & cs & es & fs & G1 & _ & _ & _ & G2 & G3 & G4 & G4' & G5 & G6). injection G1 as <-. cbn [sp_struct] in G2. injection G2 as G2.
    eexists. exists cs, es, fs. split; [reflexivity|]. cbn [sp_struct sp_overrides]. rewrite <- G2. split; [reflexivity|]. split; [exact G3|]. split; [exact G4|]. split; [exact G4'|]. split; [|split; [exact G6|exact I]].
    (* the two descriptions are of the same fields *)
    pose proof (attribute_fields public helpers _ _ _ _ E2) as (fs' & A1 & A2). rewrite W1 in A1. pose proof (element_fields public helpers _ _ _ _ E1) as (es' & B1 & B2).
    assert (es' = ws) as -> by (rewrite W1 in B1; apply app_inv_head in B1; auto). rewrite A1 in G2.
    assert (Ln : List.length fs' = List.length fs) by (rewrite <- (Forall2_len _ _ _ A2), <- (Forall2_len _ _ _ G6); reflexivity).
    assert (Le : List.length ws = List.length es) by (rewrite <- (Forall2_len _ _ _ B2), <- (Forall2_len _ _ _ G5); reflexivity).
    rewrite <- app_assoc in G2. assert (ws = es) as ->; [|clear - W2 G5; revert W2; induction G5 as [|? ? ? ? [X _] _ IH]; intros W2; inversion W2; subst; constructor; auto].
    assert (Lg : List.length (g_fields g) = List.length cs) by (pose proof (f_equal (@List.length sfield) G2) as X; rewrite !app_length in X; lia).
    clear - G2 Lg Le. revert cs Lg G2. induction (g_fields g) as [|f gf IH]; intros [|k cs] Lg G2; try discriminate.
    - cbn [app] in G2. revert es Le G2. induction ws as [|w ws IHw]; intros [|z es] Le G2; try discriminate; [reflexivity|]. cbn [app] in G2. injection G2 as -> G2. f_equal. apply IHw; [cbn in Le; lia|exact G2].
    - cbn [app] in G2. injection G2 as -> G2. apply (IH cs); [cbn in Lg; lia|exact G2].
  Qed.

  (* ---------- the struct ---------- *)
  Variable exported : string -> bool.
  Variable structs : string -> option spec.
  Variable declares : xattr -> bool.
  Hypothesis Htime : structs "time.Time" = None.
  Hypothesis Hhelp : forall b, non_trivial b = true -> structs (helper_name b) = None.
  Lemma Forall2_nth {A B} (R : A -> B -> Prop) l m : Forall2 R l m -> forall j b, nth_error m j = Some b -> exists a, nth_error l j = Some a /\ R a b.
  Proof. induction 1; intros [|j] b E; try discriminate; cbn in *; [injection E as <-; eauto|eauto]. Qed.
  (* what the tags of the fields say: text, then elements, then attributes *)
  Definition tags_say (cs es : list sfield) (ats : list attribute) (els : list element) (st' : store) (fs : list sfield) : Prop :=
    forall j f x, nth_error fs j = Some f -> says f x ->
      (j < List.length cs /\ fi_mode x = MText /\ sf_tag f = quoted ",chardata") \/
      (List.length cs <= j /\ j < List.length cs + List.length es /\ is_elem x = true /\ exists e, nth_error els (j - List.length cs) = Some e /\ (is_any x = el_wild e) /\ fi_omit x = (negb (el_wild e) && (el_nillable e || el_optional e))%bool /\ fi_ns x = nspace (el_key e) /\ fi_name x = nlocal (el_key e)) \/
      (List.length cs + List.length es <= j /\ fi_mode x = MAttr /\ exists a, nth_error ats (j - List.length cs - List.length es) = Some a /\ fi_ns x = nspace (at_key a) /\ fi_name x = nlocal (at_key a) /\ expr_of public st' (at_type a) = Ret (sf_expr f)).
  Theorem generated_parts st i c st' sp : gen_complex public fa fe helpers st i c = Ret (st', [sp]) ->
    (let (ats, els) := filter_fields fa fe (inherit st c) in forall fs, sp_struct sp = Some fs -> clear_struct public exported structs declares st' ats els fs) ->
    let (ats, els) := filter_fields fa fe (inherit st c) in
    exists cs es fs' fs, fs = (cs ++ es ++ fs')%list /\ sp_struct sp = Some fs /\ List.length cs <= 1 /\ (ct_mixed c = false -> cs = []) /\ List.length es = List.length els /\ List.length fs' = List.length ats /\ tags_say cs es ats els st' fs /\ (forall f, In f fs -> exported (sf_name f) = true) /\ (forall f, In f fs -> exists x, says f x) /\ NoDup (map sf_name fs) /\
      (forall i j f g x y, nth_error fs i = Some f -> nth_error fs j = Some g -> says f x -> says g y -> i <> j ->
         (is_elem x = true -> is_elem y = true -> apart_names x y) /\ (is_attr x = true -> is_attr y = true -> apart_names x y) /\ ~ (is_text x = true /\ is_text y = true)) /\
      (forall o, In o (sp_overrides sp) -> exists f, In f fs /\ sf_name f = ov_field o /\ sf_tag f = ov_tag o /\
         fits structs marshaled_as (sf_expr f) (text_expr (ov_to o)) /\ (non_trivial_ty (ov_type o) = false -> text_expr (ov_to o) = sf_expr f)) /\
      NoDup (map ov_field (sp_overrides sp)) /\
      (forall f x, In f fs -> says f x -> shallow structs (sf_expr f) /\ (is_attr x = true -> plain_attr structs (sf_expr f)) /\ (is_text x = true -> leaf structs (sf_expr f) = true)) /\
      (forall f x a, In f fs -> says f x -> is_attr x = true -> declares a = true -> matches (aname a) x = false).
  Proof.
    intros G H. pose proof (complex_over st i c st' [sp] G) as K. destruct (filter_fields fa fe (inherit st c)) as [ats els]. cbn [snd] in K.
    assert (Fs : exists fs, sp_struct sp = Some fs).
    { unfold gen_complex in G. destruct (chardata public helpers st c) as [g| | |]; cbn [andthen] in G; try discriminate. destruct (filter_fields fa fe (inherit st c)) as [ats' els'].
      destruct (foldr (element_field public helpers _) g els') as [g1| | |]; cbn [andthen] in G; try discriminate. destruct (foldr (attribute_field public helpers _) g1 ats') as [g2| | |]; cbn [andthen] in G; try discriminate.
      injection G as _ <-. eexists. reflexivity. }
    destruct Fs as [fs0 Fs]. pose proof (H fs0 Fs) as Cl. destruct K as (sp' & cs & es & as' & E1 & E2 & E3 & E4 & E0 & E5 & E6 & E7 & E8); [exact (cs_over _ _ _ _ _ _ _ _ Cl)|].
    injection E1 as <-. assert (fs0 = cs ++ es ++ as')%list as -> by congruence. set (fs := (cs ++ es ++ as')%list) in *.
    (* what the fields say *)
    assert (Cs : forall j f, nth_error fs j = Some f -> j < List.length cs -> exists x, says f x /\ fi_mode x = MText /\ sf_tag f = quoted ",chardata").
    { intros j f J L. unfold fs in J. rewrite nth_error_app1 in J by exact L. apply nth_error_In in J as I. rewrite Forall_forall in E3. destruct (text_says f (E3 f I)) as (x & X1 & X2); [|eauto].
      apply (cs_exported _ _ _ _ _ _ _ _ Cl). unfold fs. apply in_or_app. left. exact I. }
    assert (Es : forall j f, nth_error fs j = Some f -> List.length cs <= j -> j < List.length cs + List.length es -> exists e x, nth_error els (j - List.length cs) = Some e /\ says f x /\ is_elem x = true /\ is_any x = el_wild e /\ fi_omit x = (negb (el_wild e) && (el_nillable e || el_optional e))%bool /\ fi_ns x = nspace (el_key e) /\ fi_name x = nlocal (el_key e)).
    { intros j f J L1 L2. assert (J' := J). unfold fs in J. rewrite nth_error_app2, nth_error_app1 in J by lia. destruct (Forall2_nth _ _ _ E5 _ _ J) as (e & A1 & A2 & A3).
      destruct (element_says e f A2 A3) as (x & X1 & X2 & X20 & X21 & X3 & X4); [apply (cs_exported _ _ _ _ _ _ _ _ Cl); exact (nth_error_In _ _ J')|intros W; exact (cs_etags _ _ _ _ _ _ _ _ Cl e (nth_error_In _ _ A1) W)|]. exists e, x. repeat (split; [assumption|]). assumption. }
    assert (As : forall j f, nth_error fs j = Some f -> List.length cs + List.length es <= j -> exists a x, nth_error ats (j - List.length cs - List.length es) = Some a /\ says f x /\ fi_mode x = MAttr /\ fi_ns x = nspace (at_key a) /\ fi_name x = nlocal (at_key a) /\ expr_of public st' (at_type a) = Ret (sf_expr f)).
    { intros j f J L. assert (J' := J). unfold fs in J. rewrite !nth_error_app2 in J by lia. destruct (Forall2_nth _ _ _ E6 _ _ J) as (a & A1 & A2 & A3).
      destruct (attribute_says a f A2) as (x & X1 & X2 & X3 & X4); [apply (cs_exported _ _ _ _ _ _ _ _ Cl); exact (nth_error_In _ _ J')|exact (cs_atags _ _ _ _ _ _ _ _ Cl a (nth_error_In _ _ A1))|]. exists a, x. repeat (split; [assumption|]). exact A3. }
    assert (Says : forall f x y, says f x -> says f y -> x = y) by (unfold says; congruence).
    assert (Cases : tags_say cs es ats els st' fs).
    { unfold tags_say. intros j f x J X. destruct (Nat.lt_ge_cases j (List.length cs)) as [L|L].
      - left. destruct (Cs j f J L) as (y & Y1 & Y2 & Y3). rewrite (Says f x y X Y1). auto.
      - right. destruct (Nat.lt_ge_cases j (List.length cs + List.length es)) as [L2|L2].
        + left. destruct (Es j f J L L2) as (e & y & Y0 & Y1 & Y2 & Y20 & Y21 & Y3 & Y4). rewrite (Says f x y X Y1). split; [exact L|]. split; [exact L2|]. split; [exact Y2|]. exists e. repeat (split; [assumption|]). assumption.
        + right. destruct (As j f J L2) as (a & y & Y0 & Y1 & Y2 & Y3 & Y4 & Y5). rewrite (Says f x y X Y1). eauto 10. }
    assert (Ap : forall x y n m, fi_ns x = nspace n -> fi_name x = nlocal n -> fi_ns y = nspace m -> fi_name y = nlocal m -> names_apart n m -> apart_names x y).
    { intros x y n m X1 X2 Y1 Y2 A. unfold apart_names. rewrite X1, X2, Y1, Y2. exact A. }
    exists cs, es, as', fs. split; [reflexivity|]. split; [exact E2|]. split; [exact E4|]. split; [exact E0|]. split; [symmetry; exact (Forall2_len _ _ _ E5)|]. split; [symmetry; exact (Forall2_len _ _ _ E6)|]. split; [exact Cases|].
    split; [|split; [|split; [|split; [|split; [|split; [|split]]]]]].
    - intros f I. apply (cs_exported _ _ _ _ _ _ _ _ Cl). exact I.
    - intros f I. destruct (In_nth_error _ _ I) as [j J]. destruct (Nat.lt_ge_cases j (List.length cs)) as [L|L]; [destruct (Cs j f J L) as (x & X & _); eauto|].
      destruct (Nat.lt_ge_cases j (List.length cs + List.length es)) as [L2|L2]; [destruct (Es j f J L L2) as (e & x & _ & X & _); eauto|destruct (As j f J L2) as (a & x & _ & X & _); eauto].
    - exact (cs_names _ _ _ _ _ _ _ _ Cl).
    - intros j k f g x y J K X Y D.
      destruct (Cases j f x J X) as [(P1 & P2 & _)|[(P1 & P2 & P3 & e & P4 & _ & _ & P5 & P6)|(P1 & P2 & a & P4 & P5 & P6 & _)]], (Cases k g y K Y) as [(Q1 & Q2 & _)|[(Q1 & Q2 & Q3 & e' & Q4 & _ & _ & Q5 & Q6)|(Q1 & Q2 & a' & Q4 & Q5 & Q6 & _)]];
        unfold is_elem, is_attr, is_text in *; try rewrite P2; try rewrite Q2; cbn [mode_eqb orb]; try (split; [discriminate|split; [discriminate|]]; intros [? ?]; discriminate); try lia.
      + split; [intros Z _; discriminate|]. split; [discriminate|]. intros [_ Z]. destruct (fi_mode y); discriminate.
      + split; [intros _ Z; discriminate|]. split; [intros _; discriminate|]. intros [Z _]. destruct (fi_mode x); discriminate.
      + split; [intros _ _|].
        * apply (Ap x y (el_key e) (el_key e') P5 P6 Q5 Q6). apply (cs_elems _ _ _ _ _ _ _ _ Cl (j - List.length cs) (k - List.length cs)); [rewrite nth_error_map, P4; reflexivity|rewrite nth_error_map, Q4; reflexivity|lia].
        * split; [intros Z|intros [Z _]]; destruct (fi_mode x); discriminate.
      + split; [intros _ Z; discriminate|]. split; [intros Z; destruct (fi_mode x); discriminate|]. intros [_ Z]. discriminate.
      + split; [intros Z; discriminate|]. split; [intros _ Z; destruct (fi_mode y); discriminate|]. intros [Z _]. discriminate.
      + split; [discriminate|]. split; [|intros [Z _]; discriminate]. intros _ _. apply (Ap x y (at_key a) (at_key a') P5 P6 Q5 Q6).
        apply (cs_attrs _ _ _ _ _ _ _ _ Cl (j - List.length cs - List.length es) (k - List.length cs - List.length es)); [rewrite nth_error_map, P4; reflexivity|rewrite nth_error_map, Q4; reflexivity|lia].
    - intros o Ho. destruct (E7 o Ho) as (f & sf & I & F1 & F2 & F3 & F4). exists f. repeat (split; [assumption|]). pose proof (text_expr_of _ _ _ F3) as Tx. rewrite F4.
      assert (Self : fits structs marshaled_as (sf_expr f) (text_expr (expr_text (sf_expr f))) /\ (non_trivial_ty (ov_type o) = false -> text_expr (expr_text (sf_expr f)) = sf_expr f)) by (rewrite Tx; split; [apply fits_refl; constructor|reflexivity]).
      destruct (ov_type o) as [|b|n|k]; try exact Self. destruct (non_trivial b) eqn:B; [|exact Self]. split; [|cbn [non_trivial_ty]; congruence].
      unfold expr_of in F3. destruct (builtin_expr b) as [|[g|]] eqn:Eb; try discriminate. injection F3 as F3. rewrite <- F3. destruct (helper_exprs b g B Eb) as [Eg|Eg].
      + unfold fits. rewrite Eg. cbn [leaf]. rewrite Htime. assert (T0 : text_expr (helper_name b) = EId (helper_name b)) by (apply text_expr_id; reflexivity). rewrite T0. cbn [leaf]. rewrite (Hhelp b B). split; [reflexivity|]. rewrite <- Eg. exact (ma_helper b g B Eb).
      + unfold fits. rewrite Eg. cbn [leaf]. rewrite String.eqb_refl. assert (T0 : text_expr (helper_name b) = EId (helper_name b)) by (apply text_expr_id; reflexivity). rewrite T0. cbn [leaf]. rewrite (Hhelp b B). split; [reflexivity|]. rewrite <- Eg. exact (ma_helper b g B Eb).
    - exact (E8 (cs_names _ _ _ _ _ _ _ _ Cl)).
    - intros f x I X. split; [exact (cs_shallow _ _ _ _ _ _ _ _ Cl f I)|]. destruct (In_nth_error _ _ I) as [j J]. unfold is_attr, is_text.
      destruct (Cases j f x J X) as [(P1 & P2 & P3)|[(P1 & P2 & P3 & e & P4 & _ & _ & P5 & P6)|(P1 & P2 & a & P4 & P5 & P6 & P7)]]; [rewrite P2|unfold is_elem in P3|rewrite P2].
      + split; [discriminate|]. intros _. exact (cs_text _ _ _ _ _ _ _ _ Cl f I P3).
      + destruct (fi_mode x); try discriminate P3; split; discriminate.
      + split; [|discriminate]. intros _. exact (cs_plain _ _ _ _ _ _ _ _ Cl a _ (nth_error_In _ _ P4) P7).
    - intros f x xa I X A D. destruct (In_nth_error _ _ I) as [j J]. unfold is_attr in A. destruct (Cases j f x J X) as [(P1 & P2 & P3)|[(P1 & P2 & P3 & e & P4 & _ & _ & P5 & P6)|(P1 & P2 & a & P4 & P5 & P6 & P7)]]; [rewrite P2 in A; discriminate| |].
      { unfold is_elem in P3. destruct (fi_mode x); discriminate. }
      unfold matches. rewrite P5, P6. unfold at_key. cbn [nspace nlocal]. destruct (String.eqb (nlocal (at_name a)) (nlocal (aname xa))) eqn:E; [|reflexivity]. apply String.eqb_eq in E.
      destruct (cs_decl _ _ _ _ _ _ _ _ Cl a xa (nth_error_In _ _ P4) D (eq_sym E)) as (D1 & D2 & D3). rewrite D1. cbn [andb]. apply String.eqb_neq in D2. rewrite D2. cbn [orb]. apply String.eqb_neq. congruence.
  Qed.
  Theorem generated_bindable st i c st' sp : gen_complex public fa fe helpers st i c = Ret (st', [sp]) ->
    (let (ats, els) := filter_fields fa fe (inherit st c) in forall fs, sp_struct sp = Some fs -> clear_struct public exported structs declares st' ats els fs) ->
    bindable exported structs declares marshaled_as sp.
  Proof.
    intros G H. pose proof (generated_parts st i c st' sp G H) as P. destruct (filter_fields fa fe (inherit st c)) as [ats els].
    destruct P as (cs & es & fs' & fs & _ & P2 & _ & _ & _ & _ & _ & P6 & P7 & P8 & P9 & P10 & P11 & P12 & P13).
    apply (fields_bindable exported structs declares marshaled_as sp fs); auto. intros t. constructor.
  Qed.
End Struct.
