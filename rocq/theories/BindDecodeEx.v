(* What follows from BindDecode.v, and cases. *)
From Verif Require Import Base ScopeModel TreeModel EqualModel BuiltinModel XsdModel TypesModel GenModel SgModel SgStruct SgTags SgExamples BindModel BindSpec BindProofs BindGen BindGenSpec BindStruct BindDecode BindExamples.
Local Open Scope string_scope.

Definition one_wildcard (els : list element) : Prop := forall a b e e', nth_error els a = Some e -> nth_error els b = Some e' -> el_wild e = true -> el_wild e' = true -> a = b.
Section Corollaries.
  Variable exported : string -> bool.
  Variable structs : string -> option spec.
  Variable Leaf : Type.
  Variable read : string -> Leaf -> string -> option Leaf.
  Variable zero : gexpr -> val Leaf.
  Variable public : xname -> string.
  Variable fa : option (attribute -> bool).
  Variable fe : option (element -> bool).
  Variable helpers : list Z.
  Variable declares : xattr -> bool.
  Hypothesis Hfree : names_free public structs.
  Notation unmarshal := (unmarshal exported structs Leaf read zero).
  Variables (n : string) (s : spec) (st : store) (i : nat) (c : complexT).
  Hypothesis Hs : structs n = Some s.
  Hypothesis Hg : generated_from public exported structs declares fa fe helpers s st i c.
  Definition length_ok (old : list (val Leaf)) : Prop := exists fs, sp_struct s = Some fs /\ List.length old = List.length fs.
  (* only the elements of each declaration, the attributes of each name and the text count *)
  Lemma only_these : let (ats, els) := filter_fields fa fe (inherit st c) in one_wildcard els ->
    forall m m' attrs attrs' kids kids' old, length_ok old ->
    (forall e, In e els -> filter (belongs els e) kids = filter (belongs els e) kids') ->
    (forall a, In a ats -> filter (fun x => named (at_key a) (aname x)) attrs = filter (fun x => named (at_key a) (aname x)) attrs') ->
    (ct_mixed c = true -> texts kids = texts kids') ->
    unmarshal (NElem m attrs kids) (EId n) (VStruct _ old) = unmarshal (NElem m' attrs' kids') (EId n) (VStruct _ old).
  Proof.
    pose proof (decoded exported structs Leaf read zero public fa fe helpers declares Hfree n s st i c Hs Hg) as D. destruct (filter_fields fa fe (inherit st c)) as [ats els]. intros W m m' attrs attrs' kids kids' old (fs0 & Lo1 & Lo) He Ha Ht.
    destruct (D W) as (fs & t & D1 & D2 & D3 & D4 & D5). assert (fs0 = fs) as -> by congruence.
    assert (Sv : forall j sl f w, nth_error (slots t els ats) j = Some sl -> nth_error fs j = Some f ->
      slot_value exported structs Leaf read zero els attrs kids (as_type s f) sl w = slot_value exported structs Leaf read zero els attrs' kids' (as_type s f) sl w).
    { intros j sl f w Hsl Hf. apply nth_error_In in Hsl. unfold slots in Hsl. rewrite !in_app_iff in Hsl. destruct Hsl as [Hsl|[Hsl|Hsl]].
      - assert (t <> 0) by (intros ->; destruct Hsl). apply repeat_spec in Hsl as ->. cbn [slot_value]. rewrite Ht; [reflexivity|]. destruct (ct_mixed c); [reflexivity|]. lia.
      - apply in_map_iff in Hsl as (e & <- & Hsl). cbn [slot_value]. rewrite (He e Hsl). reflexivity.
      - apply in_map_iff in Hsl as (a & <- & Hsl). cbn [slot_value]. rewrite (Ha a Hsl). reflexivity. }
    assert (Eq : forall v, unmarshal (NElem m attrs kids) (EId n) (VStruct _ old) = Some v <-> unmarshal (NElem m' attrs' kids') (EId n) (VStruct _ old) = Some v).
    { intros v. rewrite (D5 m attrs kids old v Lo), (D5 m' attrs' kids' old v Lo). split; intros (new & N1 & N2 & N3); exists new; (split; [exact N1|]); (split; [exact N2|]); intros j sl f w H1 H2 H3; destruct (N3 j sl f w H1 H2 H3) as (w' & W1 & W2); exists w'; (split; [exact W1|]); [rewrite <- (Sv j sl f w H1 H2)|rewrite (Sv j sl f w H1 H2)]; exact W2. }
    destruct (unmarshal (NElem m attrs kids) (EId n) (VStruct _ old)) as [v|]; [symmetry; apply Eq; reflexivity|]. destruct (unmarshal (NElem m' attrs' kids') (EId n) (VStruct _ old)) as [v|]; [|reflexivity]. apply Eq. reflexivity.
  Qed.
  Lemma swapped : let (ats, els) := filter_fields fa fe (inherit st c) in one_wildcard els ->
    forall m attrs k1 x ax kx y ay ky k2 old, length_ok old -> (forall e, In e els -> belongs els e (NElem x ax kx) = true -> belongs els e (NElem y ay ky) = false) ->
    unmarshal (NElem m attrs (k1 ++ NElem x ax kx :: NElem y ay ky :: k2)) (EId n) (VStruct _ old) = unmarshal (NElem m attrs (k1 ++ NElem y ay ky :: NElem x ax kx :: k2)) (EId n) (VStruct _ old).
  Proof.
    pose proof only_these as O. destruct (filter_fields fa fe (inherit st c)) as [ats els]. intros W m attrs k1 x ax kx y ay ky k2 old Lo H. apply (O W); auto.
    - intros e He. rewrite !filter_app. f_equal. cbn [filter]. specialize (H e He). destruct (belongs els e (NElem x ax kx)); [rewrite (H eq_refl); reflexivity|]. destruct (belongs els e (NElem y ay ky)); reflexivity.
    - intros _. unfold texts. rewrite !fold_right_app. reflexivity.
  Qed.
  Lemma unknown_element : let (ats, els) := filter_fields fa fe (inherit st c) in one_wildcard els ->
    forall m attrs k1 x ax kx k2 old, length_ok old -> (forall e, In e els -> el_wild e = false /\ named (el_key e) x = false) ->
    unmarshal (NElem m attrs (k1 ++ NElem x ax kx :: k2)) (EId n) (VStruct _ old) = unmarshal (NElem m attrs (k1 ++ k2)) (EId n) (VStruct _ old).
  Proof.
    pose proof only_these as O. destruct (filter_fields fa fe (inherit st c)) as [ats els]. intros W m attrs k1 x ax kx k2 old Lo H. apply (O W); auto.
    - intros e He. rewrite !filter_app. f_equal. cbn [filter belongs]. destruct (H e He) as [-> ->]. reflexivity.
    - intros _. unfold texts. rewrite !fold_right_app. reflexivity.
  Qed.
  Lemma unknown_attribute : let (ats, els) := filter_fields fa fe (inherit st c) in one_wildcard els ->
    forall m a1 x a2 kids old, length_ok old -> (forall a, In a ats -> named (at_key a) (aname x) = false) ->
    unmarshal (NElem m (a1 ++ x :: a2) kids) (EId n) (VStruct _ old) = unmarshal (NElem m (a1 ++ a2) kids) (EId n) (VStruct _ old).
  Proof.
    pose proof only_these as O. destruct (filter_fields fa fe (inherit st c)) as [ats els]. intros W m a1 x a2 kids old Lo H. apply (O W); auto.
    intros a Ha. rewrite !filter_app. f_equal. cbn [filter]. rewrite (H a Ha). reflexivity.
  Qed.
  Lemma nothing_required : let (ats, els) := filter_fields fa fe (inherit st c) in one_wildcard els -> ct_mixed c = false ->
    forall m old, length_ok old -> unmarshal (NElem m [] []) (EId n) (VStruct _ old) = Some (VStruct _ old).
  Proof.
    pose proof (decoded exported structs Leaf read zero public fa fe helpers declares Hfree n s st i c Hs Hg) as D. destruct (filter_fields fa fe (inherit st c)) as [ats els]. intros W Hm m old (fs0 & Lo1 & Lo).
    destruct (D W) as (fs & t & D1 & D2 & D3 & D4 & D5). assert (fs0 = fs) as -> by congruence. apply (D5 m [] [] old _ Lo). exists old. split; [reflexivity|]. split; [reflexivity|]. intros j sl f w H1 H2 H3. exists w. split; [exact H3|].
    rewrite (D4 Hm) in H1. unfold slots in H1. cbn [repeat app] in H1. apply nth_error_In in H1. rewrite in_app_iff in H1. destruct H1 as [H1|H1]; apply in_map_iff in H1 as (z & <- & _); reflexivity.
  Qed.
End Corollaries.

(* ---------- cases ---------- *)
Lemma order_wildcards : one_wildcard (ct_elems order_t).
Proof. intros a b e e' H _ We _. apply nth_error_In in H. cbn in H. repeat (destruct H as [<-|H]; [discriminate We|]). destruct H. Qed.
(* lines between other elements, one element unknown, another twice *)
Definition jumbled : node :=
  NElem (q "Order") [mkAttr (mkName "" "x") "y"; mkAttr (mkName "" "Id") "7"]
    [NElem (q "Item") [mkAttr (mkName "" "Qty") "3"] [NText "apples"]; NElem (q "Note") [] [NText "a"]; NText " "; NElem (q "Day") [] [NText "2020-01-02"];
     NElem (q "Extra") [] [NText "e"]; NElem (q "Item") [] [NText "pears"]; NElem (q "Note") [] [NText ""]].
Lemma jumbled_read : unmarshal upper shop_structs string untxt shop_zero jumbled (EId "Order") (shop_zero (EId "Order")) = Some an_order.
Proof. vm_compute. reflexivity. Qed.
(* an element that is not repeated in the schema, but in the document *)
Definition single_t := ct_of "T" (TB 0) [el_of "Item" (TPtr 1)] [] false.
Definition single_spec := Eval vm_compute in spec_of (gen_complex ident None None [] [DC single_t; DC line_t] 0 single_t).
Definition single_structs (n : string) : option spec := if String.eqb n "T" then Some single_spec else if String.eqb n "Line" then Some line_spec else None.
Definition single_zero (e : gexpr) : val string :=
  match e with EId n => if String.eqb n "T" then VStruct _ [VStruct _ [VLeaf _ ""; VLeaf _ ""]] else if String.eqb n "Line" then VStruct _ [VLeaf _ ""; VLeaf _ ""] else VLeaf _ ""
  | EArr _ => VSlice _ [] end.
Lemma merged : exists k1 k2, k1 = NElem (q "Item") [mkAttr (mkName "" "Qty") "3"] [NText "apples"] /\ k2 = NElem (q "Item") [] [NText "pears"] /\
  (exists st', gen_complex ident None None [] [DC single_t; DC line_t] 0 single_t = Ret (st', [single_spec])) /\
  unmarshal upper single_structs string untxt single_zero (NElem (q "T") [] [k1; k2]) (EId "T") (single_zero (EId "T")) = Some (VStruct _ [VStruct _ [VLeaf _ "pears"; VLeaf _ "3"]]).
Proof. eexists. eexists. split; [reflexivity|]. split; [reflexivity|]. split; [eexists; vm_compute; reflexivity|]. vm_compute. reflexivity. Qed.
