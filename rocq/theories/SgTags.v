(* What a struct tag means to encoding/xml, and the overlay fields of UnmarshalXML and MarshalXML. *)
From Verif Require Import Base SortLib ScopeModel TreeModel EqualModel Utf8 Decimal BuiltinModel CodecModel XsdModel TypesModel GraphModel GenModel SgModel SgStruct SgProofs SgNames.
Local Open Scope string_scope.

(* encoding/xml, typeinfo.go, structFieldInfo: the name space ends at the first space, and the
   rest is split at commas: name and flags *)
Fixpoint split_at (c : ascii) (s : string) : list string :=
  match s with
  | "" => [""]
  | String d s' => if Ascii.eqb d c then "" :: split_at c s'
                   else match split_at c s' with w :: r => String d w :: r | [] => [s1 d] end
  end.
Definition tag_of (content : string) : string * list string :=
  match cut " "%char content with
  | Some (ns, rest) => (ns, split_at "," rest)
  | None => ("", split_at "," content)
  end.
(* the tag as a whole: xml:"content" *)
Definition binds (tag ns local : string) (flags : list string) : Prop :=
  exists content, tag = quoted content /\ tag_of content = (ns, local :: flags).

Lemma split_none c s : s_in c s = false -> split_at c s = [s].
Proof.
  induction s as [|d s IH]; cbn [s_in split_at]; [reflexivity|]. intros H. apply Bool.orb_false_iff in H as [H1 H2].
  assert (Ascii.eqb d c = false) as -> by (rewrite <- H1; try rewrite Ascii.eqb_sym; reflexivity). rewrite IH by exact H2. reflexivity.
Qed.
Lemma split_app c a b : s_in c a = false -> split_at c (a ++ String c b) = a :: split_at c b.
Proof.
  induction a as [|d a IH]; cbn [s_in append split_at]; [rewrite Ascii.eqb_refl; reflexivity|]. intros H. apply Bool.orb_false_iff in H as [H1 H2].
  assert (Ascii.eqb d c = false) as -> by (rewrite <- H1; try rewrite Ascii.eqb_sym; reflexivity). rewrite IH by exact H2. reflexivity.
Qed.
Definition tag_name (n : xname) : Prop := s_in " " (nspace n) = false /\ s_in "," (nlocal n) = false.
Definition omit (b : bool) : list string := if b then ["omitempty"] else [].
Lemma element_binds e : tag_name (el_name e) ->
  binds (element_tag e) (nspace (el_name e)) (nlocal (el_name e)) (omit (el_nillable e || el_optional e)).
Proof.
  intros [Hs Hl]. unfold element_tag. eexists. split; [reflexivity|]. unfold tag_of.
  set (o := (el_nillable e || el_optional e)%bool).
  change (" " ++ nlocal (el_name e) ++ (if o then ",omitempty" else "")) with (String " " (nlocal (el_name e) ++ (if o then ",omitempty" else ""))).
  rewrite (cut_app " " _ _ Hs). destruct o; cbn [omit].
  - change ",omitempty" with (String "," "omitempty"). rewrite split_app by exact Hl. reflexivity.
  - rewrite sapp_nil_r, split_none by exact Hl. reflexivity.
Qed.
(* whether the declaration says form="qualified" *)
Definition qualified (a : attribute) : bool :=
  existsb (fun x => (xname_eqb (aname x) (mkName "" "form") && String.eqb (avalue x) "qualified")%bool) (at_attr a).
Lemma attribute_binds a : tag_name (at_name a) -> s_in " " (nlocal (at_name a)) = false ->
  binds (attribute_tag a) (if qualified a then nspace (at_name a) else "") (nlocal (at_name a)) ("attr" :: omit (at_optional a)).
Proof.
  intros [Hs Hl] Hp. unfold attribute_tag. fold (qualified a). cbv zeta. eexists. split; [reflexivity|]. unfold tag_of.
  assert (R : split_at "," (nlocal (at_name a) ++ ",attr" ++ (if at_optional a then ",omitempty" else "")) = nlocal (at_name a) :: "attr" :: omit (at_optional a)).
  { change (",attr" ++ (if at_optional a then ",omitempty" else "")) with (String "," ("attr" ++ (if at_optional a then ",omitempty" else ""))).
    rewrite split_app by exact Hl. destruct (at_optional a); reflexivity. }
  destruct (qualified a).
  - change ((nspace (at_name a) ++ " ") ++ nlocal (at_name a) ++ ",attr" ++ (if at_optional a then ",omitempty" else ""))
      with ((nspace (at_name a) ++ " ") ++ (nlocal (at_name a) ++ ",attr" ++ (if at_optional a then ",omitempty" else ""))).
    rewrite <- sapp_assoc. change (" " ++ nlocal (at_name a) ++ ",attr" ++ (if at_optional a then ",omitempty" else ""))
      with (String " " (nlocal (at_name a) ++ ",attr" ++ (if at_optional a then ",omitempty" else ""))).
    rewrite (cut_app " " _ _ Hs), R. reflexivity.
  - match goal with |- context [cut " "%char ("" ++ ?x)] => change ("" ++ x) with x end. assert (N : cut " " (nlocal (at_name a) ++ ",attr" ++ (if at_optional a then ",omitempty" else "")) = None).
    { apply cut_none. rewrite !s_in_app, Hp. destruct (at_optional a); reflexivity. }
    rewrite N, R. reflexivity.
Qed.

(* ---------- overlays ---------- *)
(* the overlay field replaces a field of the same name and tag; from is that field's type *)
Definition overlays (fs : list sfield) (o : override) : Prop :=
  exists f, In f fs /\ sf_name f = ov_field o /\ sf_tag f = ov_tag o.
Definition converts (fs : list sfield) (o : override) : Prop :=
  exists f, In f fs /\ sf_name f = ov_field o /\ sf_tag f = ov_tag o /\ expr_text (sf_expr f) = ov_from o /\
    ov_to o = match ov_type o with TB b => if non_trivial b then helper_name b else ov_from o | _ => ov_from o end.
Lemma converts_overlays fs o : converts fs o -> overlays fs o.
Proof. intros [f [H1 [H2 [H3 _]]]]. exists f. auto. Qed.
Lemma converts_app fs fs' o : converts fs o -> converts (fs ++ fs') o.
Proof. intros [f [H1 H2]]. exists f. split; [apply in_or_app; left; exact H1|exact H2]. Qed.
Lemma overlays_app fs fs' o : overlays fs o -> overlays (fs ++ fs') o.
Proof. intros [f [H1 H2]]. exists f. split; [apply in_or_app; left; exact H1|exact H2]. Qed.
Section Overlay.
  Variable public : xname -> string.
  Variable fa : option (attribute -> bool).
  Variable fe : option (element -> bool).
  Variable helpers : list Z.

  Lemma override_spec st t d name tag l hs : override_for public helpers st t d name tag = Ret (l, hs) ->
    (forall o, In o l -> ov_field o = name /\ ov_tag o = tag /\ ov_type o = t /\ ov_default o = d /\
       (forall e, expr_of public st t = Ret e -> ov_from o = expr_text e) /\
       ov_to o = match t with TB b => if non_trivial b then helper_name b else ov_from o | _ => ov_from o end) /\
    (l <> [] <-> d <> "" \/ non_trivial_ty t = true) /\
    (forall b, In b hs <-> t = TB b /\ non_trivial b = true).
  Proof.
    unfold override_for. destruct (negb (String.eqb d "") || non_trivial_ty t)%bool eqn:E.
    - destruct (expr_string public st t) as [from| | |] eqn:X; cbn [andthen]; try discriminate. unfold expr_string in X.
      assert (F : forall e, expr_of public st t = Ret e -> from = expr_text e) by (intros e He; rewrite He in X; congruence).
      assert (D : d <> "" \/ non_trivial_ty t = true).
      { apply Bool.orb_true_iff in E as [E|E]; [left|right; exact E]. apply Bool.negb_true_iff, String.eqb_neq in E. exact E. }
      intros H. destruct t as [|b|n|i]; [| | |]; try destruct (non_trivial b) eqn:B; try destruct (memb b helpers); try discriminate; injection H as <- <-;
        (split; [intros o [<-|[]]; cbn [ov_field ov_tag ov_type ov_default ov_from ov_to]; repeat split; auto; try (rewrite B; reflexivity)|]);
        (split; [split; [intros _; exact D|discriminate]|]); intros z; cbn [In]; split; try (intros []; congruence); try (intros [[= ->] Hz]; congruence);
        try (intros [<-|[]]; auto); try (intros [[= <-] _]; auto).
    - intros [= <- <-]. apply Bool.orb_false_iff in E as [E1 E2]. apply Bool.negb_false_iff, String.eqb_eq in E1 as ->. split; [intros ? []|].
      split; [split; [congruence|intros [H|H]; congruence]|]. intros b. split; [intros []|]. intros [-> H]. cbn [non_trivial_ty] in E2. congruence.
  Qed.
  Definition good (P : list sfield -> override -> Prop) (g : gstate) : Prop := forall o, In o (g_over g) -> P (g_fields g) o.
  Lemma element_good st g e g' : good overlays g -> element_field public helpers st g e = Ret g' -> good overlays g'.
  Proof.
    intros K. unfold element_field. destruct (expr_of public st (el_type e)) as [y| | |] eqn:Ey; cbn [andthen]; try discriminate.
    destruct (element_name public (g_taken g) (el_name e)) as [taken name]. cbv zeta.
    set (nm := if el_wild e then if el_plural e then "Items" else "Item" else name). set (tg := if el_wild e then quoted ",any" else element_tag e).
    destruct (override_for public helpers st (el_type e) (el_default e) nm tg) as [[l hs]| | |] eqn:O; cbn [andthen]; try discriminate. intros [= <-].
    intros o Ho. cbn [g_over g_fields fst snd] in *. apply in_app_or in Ho as [Ho|Ho]; [apply overlays_app; exact (K o Ho)|].
    destruct (override_spec _ _ _ _ _ _ _ O) as [S _]. destruct (S o Ho) as [S1 [S2 _]]. eexists. split; [apply in_or_app; right; left; reflexivity|].
    cbn [sf_name sf_tag]. auto.
  Qed.
  Lemma element_converts st g e g' : el_plural e = false -> el_wild e = false -> good converts g -> element_field public helpers st g e = Ret g' -> good converts g'.
  Proof.
    intros Hp Hw K. unfold element_field. destruct (expr_of public st (el_type e)) as [y| | |] eqn:Ey; cbn [andthen]; try discriminate.
    destruct (element_name public (g_taken g) (el_name e)) as [taken name]. cbv zeta. rewrite Hp, Hw. cbn [andb].
    destruct (override_for public helpers st (el_type e) (el_default e) name (element_tag e)) as [[l hs]| | |] eqn:O; cbn [andthen]; try discriminate. intros [= <-].
    intros o Ho. cbn [g_over g_fields fst snd] in *. apply in_app_or in Ho as [Ho|Ho]; [apply converts_app; exact (K o Ho)|].
    destruct (override_spec _ _ _ _ _ _ _ O) as [S _]. destruct (S o Ho) as [S1 [S2 [S3 [S4 [S5 S6]]]]]. eexists. split; [apply in_or_app; right; left; reflexivity|].
    cbn [sf_name sf_tag sf_expr]. rewrite (S5 _ Ey), S3. rewrite (S5 _ Ey) in S6. auto.
  Qed.
  Lemma attribute_converts st g a g' (P : list sfield -> override -> Prop) : (forall fs o, converts fs o -> P fs o) -> (forall fs fs' o, P fs o -> P (fs ++ fs')%list o) ->
    good P g -> attribute_field public helpers st g a = Ret g' -> good P g'.
  Proof.
    intros HP HA K. unfold attribute_field. destruct (expr_of public st (at_type a)) as [y| | |] eqn:Ey; cbn [andthen]; try discriminate.
    destruct (attribute_name public (g_taken g) (at_name a)) as [taken name]. cbv zeta.
    destruct (override_for public helpers st (at_type a) (at_default a) name (attribute_tag a)) as [[l hs]| | |] eqn:O; cbn [andthen]; try discriminate. intros [= <-].
    intros o Ho. cbn [g_over g_fields fst snd] in *. apply in_app_or in Ho as [Ho|Ho]; [apply HA; exact (K o Ho)|].
    destruct (override_spec _ _ _ _ _ _ _ O) as [S _]. destruct (S o Ho) as [S1 [S2 [S3 [S4 [S5 S6]]]]]. apply HP. eexists. split; [apply in_or_app; right; left; reflexivity|].
    cbn [sf_name sf_tag sf_expr]. rewrite (S5 _ Ey), S3. rewrite (S5 _ Ey) in S6. auto.
  Qed.
  Lemma chardata_converts st c g : chardata public helpers st c = Ret g -> good converts g.
  Proof.
    unfold chardata. destruct (ct_mixed c); [|intros [= <-] ? []]. destruct (drill _ st (ct_base c)) as [b| | |]; cbn [andthen]; try discriminate.
    destruct (expr_of public st b) as [e| | |] eqn:E; cbn [andthen]; try discriminate. destruct b as [|z|n|i]; cbn [is_simple]; try discriminate.
    - destruct (z =? 0)%Z; [intros [= <-] ? []|]. destruct (non_trivial z) eqn:B; cbn [andthen]; [|intros [= <-] ? []].
      destruct (override_for public helpers st (TB z) "" "Value" (quoted ",chardata")) as [[l hs]| | |] eqn:O; cbn [andthen]; try discriminate.
      change (unique [] "Value") with (["Value"], "Value"). cbv beta iota. intros [= <-] o Ho. cbn [g_over g_fields fst] in *.
      destruct (override_spec _ _ _ _ _ _ _ O) as [S _]. destruct (S o Ho) as [S1 [S2 [S3 [S4 [S5 S6]]]]].
      eexists. split; [left; reflexivity|]. cbn [sf_name sf_tag sf_expr]. rewrite (S5 _ E), S3. rewrite (S5 _ E) in S6. auto.
    - destruct (match nth_error st i with Some (DS _) => true | _ => false end); [|discriminate]. intros [= <-] ? [].
  Qed.
  Lemma gen_complex_overlays st i c st' sps : gen_complex public fa fe helpers st i c = Ret (st', sps) ->
    exists sp fs, sps = [sp] /\ sp_struct sp = Some fs /\ (forall o, In o (sp_overrides sp) -> overlays fs o) /\
      ((forall e, In e (snd (filter_fields fa fe (inherit st c))) -> el_plural e = false /\ el_wild e = false) -> forall o, In o (sp_overrides sp) -> converts fs o).
  Proof.
    unfold gen_complex. destruct (chardata public helpers st c) as [g| | |] eqn:C; cbn [andthen]; try discriminate.
    destruct (filter_fields fa fe (inherit st c)) as [ats els]. cbn [snd]. intros H.
    destruct (foldr (element_field public helpers _) g els) as [g1| | |] eqn:E1; cbn [andthen] in H; try discriminate.
    destruct (foldr (attribute_field public helpers _) g1 ats) as [g2| | |] eqn:E2; cbn [andthen] in H; try discriminate. injection H as <- <-.
    apply chardata_converts in C. eexists. eexists. split; [reflexivity|]. split; [reflexivity|]. cbn [sp_overrides]. split.
    - revert E2. apply (foldr_inv _ (good overlays)). { intros a b a' _. apply attribute_converts; [apply converts_overlays|apply overlays_app]. }
      revert E1. apply (foldr_inv _ (good overlays)). { intros a b a' _. apply element_good. } intros o Ho. apply converts_overlays, C, Ho.
    - intros Hp. revert E2. apply (foldr_inv _ (good converts)). { intros a b a' _. apply attribute_converts; [auto|apply converts_app]. }
      revert E1. apply (foldr_inv _ (good converts)); [|exact C]. intros a b a' Hb. destruct (Hp b Hb). apply element_converts; assumption.
  Qed.
  (* which fields have an overlay: those with a default value or a non-trivial type, in order *)
  Definition needs (t : ty) (d : string) : bool := (negb (String.eqb d "") || non_trivial_ty t)%bool.
  Definition ov_key (o : override) := (ov_tag o, ov_type o, ov_default o).
  Definition helper_of (t : ty) : list Z := match t with TB b => if non_trivial b then [b] else [] | _ => [] end.
  Lemma override_list st t d name tag l hs : override_for public helpers st t d name tag = Ret (l, hs) ->
    map ov_key l = (if needs t d then [(tag, t, d)] else []) /\ hs = helper_of t.
  Proof.
    unfold override_for. fold (needs t d). destruct (needs t d) eqn:N.
    - destruct (expr_string public st t) as [from| | |]; cbn [andthen]; try discriminate.
      destruct t as [|b|n|i]; cbn [helper_of]; try (intros [= <- <-]; split; reflexivity).
      destruct (non_trivial b); [destruct (memb b helpers); [|discriminate]|]; intros [= <- <-]; split; reflexivity.
    - intros [= <- <-]. split; [reflexivity|]. unfold needs in N. apply Bool.orb_false_iff in N as [_ N]. destruct t as [|b|n|i]; try reflexivity. cbn [non_trivial_ty helper_of] in *. rewrite N. reflexivity.
  Qed.
  Lemma elements_overlaid st els : forall g g', foldr (element_field public helpers st) g els = Ret g' ->
    map ov_key (g_over g') = (map ov_key (g_over g) ++ map (fun e => (if el_wild e then quoted ",any" else element_tag e, el_type e, el_default e)) (filter (fun e => needs (el_type e) (el_default e)) els))%list /\
    g_help g' = (g_help g ++ flat_map (fun e => helper_of (el_type e)) els)%list.
  Proof.
    induction els as [|e els IH]; intros g g'; cbn [foldr filter map flat_map]; [intros [= <-]; rewrite !app_nil_r; auto|].
    destruct (element_field public helpers st g e) as [x| | |] eqn:E; cbn [andthen]; try discriminate. intros H. apply IH in H as [H1 H2].
    unfold element_field in E. destruct (expr_of public st (el_type e)) as [y| | |]; cbn [andthen] in E; try discriminate.
    destruct (element_name public (g_taken g) (el_name e)) as [taken name]. cbv zeta in E.
    destruct (override_for public helpers st (el_type e) (el_default e) _ _) as [[l hs]| | |] eqn:O; cbn [andthen] in E; try discriminate. injection E as <-.
    apply override_list in O as [O1 O2]. cbn [g_over g_help fst snd] in *. rewrite H1, H2, map_app, O1, O2, <- !app_assoc. destruct (needs (el_type e) (el_default e)); auto.
  Qed.
  Lemma attributes_overlaid st ats : forall g g', foldr (attribute_field public helpers st) g ats = Ret g' ->
    map ov_key (g_over g') = (map ov_key (g_over g) ++ map (fun a => (attribute_tag a, at_type a, at_default a)) (filter (fun a => needs (at_type a) (at_default a)) ats))%list /\
    g_help g' = (g_help g ++ flat_map (fun a => helper_of (at_type a)) ats)%list.
  Proof.
    induction ats as [|e els IH]; intros g g'; cbn [foldr filter map flat_map]; [intros [= <-]; rewrite !app_nil_r; auto|].
    destruct (attribute_field public helpers st g e) as [x| | |] eqn:E; cbn [andthen]; try discriminate. intros H. apply IH in H as [H1 H2].
    unfold attribute_field in E. destruct (expr_of public st (at_type e)) as [y| | |]; cbn [andthen] in E; try discriminate.
    destruct (attribute_name public (g_taken g) (at_name e)) as [taken name]. cbv zeta in E.
    destruct (override_for public helpers st (at_type e) (at_default e) _ _) as [[l hs]| | |] eqn:O; cbn [andthen] in E; try discriminate. injection E as <-.
    apply override_list in O as [O1 O2]. cbn [g_over g_help fst snd] in *. rewrite H1, H2, map_app, O1, O2, <- !app_assoc. destruct (needs (at_type e) (at_default e)); auto.
  Qed.
  Lemma gen_complex_overlaid st i c st' sps : gen_complex public fa fe helpers st i c = Ret (st', sps) -> ct_mixed c = false ->
    let (ats, els) := filter_fields fa fe (inherit st c) in
    exists sp, sps = [sp] /\
      map ov_key (sp_overrides sp) = (map (fun e => (if el_wild e then quoted ",any" else element_tag e, el_type e, el_default e)) (filter (fun e => needs (el_type e) (el_default e)) els) ++
        map (fun a => (attribute_tag a, at_type a, at_default a)) (filter (fun a => needs (at_type a) (at_default a)) ats))%list /\
      sp_helpers sp = (flat_map (fun e => helper_of (el_type e)) els ++ flat_map (fun a => helper_of (at_type a)) ats)%list.
  Proof.
    unfold gen_complex, chardata. intros H Hm. rewrite Hm in H. cbn [andthen] in H. destruct (filter_fields fa fe (inherit st c)) as [ats els].
    destruct (foldr (element_field public helpers _) _ els) as [g1| | |] eqn:E1; cbn [andthen] in H; try discriminate.
    destruct (foldr (attribute_field public helpers _) g1 ats) as [g2| | |] eqn:E2; cbn [andthen] in H; try discriminate. injection H as <- <-.
    apply elements_overlaid in E1 as [E1 F1]. apply attributes_overlaid in E2 as [E2 F2]. eexists. split; [reflexivity|]. cbn [sp_overrides sp_helpers].
    rewrite E2, F2, E1, F1. split; reflexivity.
  Qed.
End Overlay.
