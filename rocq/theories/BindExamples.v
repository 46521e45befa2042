(* Cases for the theorems in PropsBind.v, and values that are not read back as they were. *)
From Verif Require Import Base ScopeModel TreeModel EqualModel BuiltinModel XsdModel TypesModel GenModel SgModel SgStruct SgTags SgExamples BindModel BindSpec BindProofs BindGen BindGenSpec BindStruct BindOrder.
Local Open Scope string_scope.

Lemma generated_round_trip (public : xname -> string) (fa : option (attribute -> bool)) (fe : option (element -> bool)) (helpers : list Z) (exported : string -> bool) (structs : string -> option spec) (declares : xattr -> bool)
    (Leaf : Type) (print : string -> Leaf -> string) (read : string -> Leaf -> string -> option Leaf) (zero_leaf : string -> Leaf) (is_empty : string -> Leaf -> bool) (zero : gexpr -> val Leaf) (good : string -> Leaf -> Prop) (clean : string -> string) :
  names_free public structs -> all_generated public exported structs declares fa fe helpers -> zero_ok structs Leaf zero_leaf zero ->
  (forall from to x, marshaled_as from to -> good to x -> read to (zero_leaf from) (clean (print to x)) = Some x) ->
  (forall t x, good t x -> is_empty t x = true -> x = zero_leaf t) ->
  forall n v name d, has_type structs Leaf good (EId n) v ->
    exists y, marshal exported structs Leaf print is_empty v name (EId n) = [y] /\
      forall y', reads_back declares clean d y y' -> unmarshal exported structs Leaf read zero y' (EId n) (zero (EId n)) = Some v.
Proof.
  intros (F1 & F2 & F3) G Z C E n v name d T. apply (round_trip exported structs Leaf print read zero_leaf is_empty zero good declares clean marshaled_as); auto; [constructor|].
  intros m s. exact (gen_bindable public fa fe helpers exported structs declares F1 F2 F3 G m s).
Qed.
Lemma generated_written (public : xname -> string) (fa : option (attribute -> bool)) (fe : option (element -> bool)) (helpers : list Z) (exported : string -> bool) (structs : string -> option spec) (declares : xattr -> bool)
    (Leaf : Type) (print : string -> Leaf -> string) (is_empty : string -> Leaf -> bool) (good : string -> Leaf -> Prop) :
  names_free public structs -> all_generated public exported structs declares fa fe helpers ->
  forall st i c n s l name, structs n = Some s -> generated_from public exported structs declares fa fe helpers s st i c -> ct_mixed c = false ->
  has_type structs Leaf good (EId n) (VStruct Leaf l) ->
  let (ats, els) := filter_fields fa fe (inherit st c) in
  exists fs attrs blocks, sp_struct s = Some fs /\ marshal exported structs Leaf print is_empty (VStruct Leaf l) name (EId n) = [NElem name attrs (concat blocks)] /\
    Forall2 (block_of Leaf is_empty) (fields_last (combine (combine els fs) l)) blocks.
Proof. intros (F1 & F2 & F3) G st i c n s l name. exact (written public fa fe helpers exported structs declares Leaf print is_empty good F1 F2 F3 G st i c n s l name). Qed.
Lemma in_order {A B} (l : list (element * A * B)) : Forall (fun x => replaced (fst (fst x)) = false) l -> fields_last l = l.
Proof.
  intros H. unfold fields_last. assert (E : filter (fun x => negb (replaced (fst (fst x)))) l = l /\ filter (fun x => replaced (fst (fst x))) l = []); [|destruct E as [-> ->]; apply app_nil_r].
  induction H as [|x l H _ [IH1 IH2]]; [auto|]. cbn [filter]. rewrite H. cbn [negb]. rewrite IH1, IH2. auto.
Qed.

(* ---------- values of Go types as the text they are written as ---------- *)
Definition txt (t : string) (x : string) : string := x.
Definition untxt (t : string) (old s : string) : option string := Some s.
Definition nothing (t : string) : string := "".
Definition no_text (t x : string) : bool := String.eqb x "".
Definition any_text (t x : string) : Prop := True.
(* identifiers are not types of slices *)
Definition ident (n : xname) : string := if String.prefix "[]" (nlocal n) then "X" else nlocal n.
Lemma ident_ok n : String.prefix "[]" (ident n) = false.
Proof. unfold ident. destruct (String.prefix "[]" (nlocal n)) eqn:E; [reflexivity|exact E]. Qed.
(* upper case first *)
Definition upper (s : string) : bool := match s with String c _ => (Nat.leb 65 (Ascii.nat_of_ascii c) && Nat.leb (Ascii.nat_of_ascii c) 90)%bool | "" => false end.
(* encoding/xml writes xmlns="...", and xmlns:p="..." only for attributes with a name space; read it gives these names *)
Definition xmlns (a : xattr) : bool := (String.eqb (nspace (aname a)) "" && String.eqb (nlocal (aname a)) "xmlns")%bool.
Definition xmlns_p (a : xattr) : bool := (xmlns a || String.eqb (nspace (aname a)) "xmlns")%bool.

(* an order: a date, lines with text and an attribute, an optional note *)
Definition opt (e : element) : element := mkElement (el_doc e) (el_name e) (el_wild e) (el_type e) (el_abstract e) (el_plural e) true (el_nillable e) (el_default e) (el_attr e) (el_scope e).
Definition line_t := ct_of "Line" (TB 38) [] [at_of "Qty" (TB 28)] true.
Definition order_t := ct_of "Order" (TB 0) [el_of "Day" (TB 16); many (el_of "Item" (TPtr 1)); opt (el_of "Note" (TB 38))] [at_of "Id" (TB 38)] false.
Definition shop_st : store := [DC order_t; DC line_t].
Definition spec_of (r : run (store * list spec)) : spec := match r with Ret (_, [s]) => s | _ => mkSpec "" "" None None [] TNil [] end.
Definition order_spec := Eval vm_compute in spec_of (gen_complex ident None None [16%Z] shop_st 0 order_t).
Definition line_spec := Eval vm_compute in spec_of (gen_complex ident None None [16%Z] shop_st 1 line_t).
Definition shop_structs (n : string) : option spec := if String.eqb n "Order" then Some order_spec else if String.eqb n "Line" then Some line_spec else None.
Definition shop_zero (e : gexpr) : val string :=
  match e with
  | EId n => if String.eqb n "Order" then VStruct _ [VLeaf _ ""; VSlice _ []; VLeaf _ ""; VLeaf _ ""] else if String.eqb n "Line" then VStruct _ [VLeaf _ ""; VLeaf _ ""] else VLeaf _ ""
  | EArr e' => if leaf shop_structs (EArr e') then VLeaf _ "" else VSlice _ []
  end.
Definition apart_b (n m : xname) : bool :=
  (negb (String.eqb (nlocal n) (nlocal m)) || (negb (String.eqb (nspace n) "") && negb (String.eqb (nspace m) "") && negb (String.eqb (nspace n) (nspace m))))%bool.
Fixpoint all_apart_b (l : list xname) : bool := match l with [] => true | n :: l' => (forallb (apart_b n) l' && all_apart_b l')%bool end.
Lemma apart_b_ok n m : apart_b n m = true -> names_apart n m /\ names_apart m n.
Proof.
  unfold apart_b, names_apart. intros H. apply Bool.orb_true_iff in H as [H|H].
  - apply Bool.negb_true_iff, String.eqb_neq in H. split; left; congruence.
  - apply andb_true_iff in H as [H H3]. apply andb_true_iff in H as [H1 H2]. apply Bool.negb_true_iff, String.eqb_neq in H1, H2, H3. split; right; repeat (split; [assumption|]); congruence.
Qed.
Lemma all_apart_ok l : all_apart_b l = true -> all_apart l.
Proof.
  induction l as [|a l IH]; intros H; [intros [|i] j n m E; discriminate|]. cbn [all_apart_b] in H. apply andb_true_iff in H as [H1 H2]. rewrite forallb_forall in H1.
  intros [|i] [|j] n m E1 E2 N; cbn [nth_error] in *; [congruence| | |exact (IH H2 i j n m E1 E2 ltac:(congruence))].
  - injection E1 as <-. exact (proj1 (apart_b_ok a m (H1 m (nth_error_In _ _ E2)))).
  - injection E2 as <-. exact (proj2 (apart_b_ok a n (H1 n (nth_error_In _ _ E1)))).
Qed.
Ltac each := let H := fresh in intros ? H; repeat (destruct H as [<-|H]; [|]); [..|destruct H].
Ltac tags := split; [discriminate|]; repeat (split; [reflexivity|]); reflexivity.
(* names of the helper types begin with xsd *)
Lemma helpers_free b : non_trivial b = true -> shop_structs (helper_name b) = None.
Proof.
  unfold non_trivial. intros H. apply existsb_exists in H as (x & H & E). apply Z.eqb_eq in E as <-. repeat (destruct H as [<-|H]; [vm_compute; reflexivity|]). destruct H.
Qed.
Lemma shop_free : names_free ident shop_structs.
Proof. split; [exact ident_ok|]. split; [reflexivity|exact helpers_free]. Qed.
Lemma order_generated : generated_from ident upper shop_structs xmlns None None [16%Z] order_spec shop_st 0 order_t.
Proof.
  eexists. split; [vm_compute; reflexivity|]. rewrite SgProofs.filter_fields_none. intros fs [= <-]. constructor.
  - each; split; first [reflexivity|discriminate].
  - cbn [map sf_name]. repeat constructor; cbn [In]; intuition discriminate.
  - each; intros _; tags.
  - each; tags.
  - apply all_apart_ok. reflexivity.
  - apply all_apart_ok. reflexivity.
  - each; intros H; first [split; reflexivity|discriminate H].
  - each; exact I.
  - intros a x [<-|[]] E. vm_compute in E. injection E as <-. left. reflexivity.
  - each; intros H; discriminate H.
  - intros a x [<-|[]] D E. cbn in E. exfalso. unfold xmlns in D. rewrite E in D. rewrite Bool.andb_false_r in D. discriminate D.
Qed.
Lemma line_generated : generated_from ident upper shop_structs xmlns None None [16%Z] line_spec shop_st 1 line_t.
Proof.
  eexists. split; [vm_compute; reflexivity|]. rewrite SgProofs.filter_fields_none. intros fs [= <-]. constructor.
  - each; split; first [reflexivity|discriminate].
  - cbn [map sf_name]. repeat constructor; cbn [In]; intuition discriminate.
  - each.
  - each; tags.
  - apply all_apart_ok. reflexivity.
  - apply all_apart_ok. reflexivity.
  - each.
  - each; exact I.
  - intros a x [<-|[]] E. vm_compute in E. injection E as <-. left. reflexivity.
  - each; intros H; reflexivity.
  - intros a x [<-|[]] D E. cbn in E. exfalso. unfold xmlns in D. rewrite E in D. rewrite Bool.andb_false_r in D. discriminate D.
Qed.
Lemma shop_generated : all_generated ident upper shop_structs xmlns None None [16%Z].
Proof.
  intros n s. unfold shop_structs. destruct (String.eqb n "Order"); [intros [= <-]; exists shop_st, 0, order_t; exact order_generated|].
  destruct (String.eqb n "Line"); [intros [= <-]; exists shop_st, 1, line_t; exact line_generated|discriminate].
Qed.
Lemma shop_zero_ok : zero_ok shop_structs string nothing shop_zero.
Proof.
  split; [|split].
  - intros [n|e]; cbn [leaf shop_zero]; [unfold shop_structs; destruct (String.eqb n "Order"); [discriminate|]; destruct (String.eqb n "Line"); [discriminate|reflexivity]|intros H; rewrite H; reflexivity].
  - intros e H. cbn [shop_zero]. rewrite H. reflexivity.
  - intros n s fs. unfold shop_structs. cbn [shop_zero]. destruct (String.eqb n "Order"); [intros [= <-] [= <-]; reflexivity|]. destruct (String.eqb n "Line"); [intros [= <-] [= <-]; reflexivity|discriminate].
Qed.
Notation L := (VLeaf string).
Definition line (t q : string) : val string := VStruct _ [L t; L q].
Definition an_order : val string := VStruct _ [L "2020-01-02"; VSlice _ [line "apples" "3"; line "pears" ""]; L ""; L "7"].
Ltac typed := first [apply ht_leaf; [reflexivity|exact I]|eapply ht_struct; [reflexivity|reflexivity|repeat (constructor; [typed|]); constructor]|apply ht_slice; [reflexivity|repeat (constructor; [typed|]); constructor]].
Lemma order_typed : has_type shop_structs string any_text (EId "Order") an_order.
Proof. typed. Qed.
Definition q (l : string) : xname := mkName "urn:a" l.
Definition order_written : node :=
  NElem (q "Order") [mkAttr (mkName "" "Id") "7"]
    [NElem (q "Item") [mkAttr (mkName "" "Qty") "3"] [NText "apples"]; NElem (q "Item") [] [NText "pears"]; NElem (q "Day") [] [NText "2020-01-02"]].
Lemma order_marshals : marshal upper shop_structs string txt no_text an_order (q "Order") (EId "Order") = [order_written].
Proof. vm_compute. reflexivity. Qed.
(* with a declaration on the root element, and text between elements *)
Definition order_read : node :=
  NElem (q "Order") [mkAttr (mkName "" "xmlns") "urn:a"; mkAttr (mkName "" "Id") "7"]
    [NText " "; NElem (q "Item") [mkAttr (mkName "" "Qty") "3"] [NText "apples"]; NElem (q "Item") [] [NText "pea"; NText "rs"]; NText " "; NElem (q "Day") [] [NText "2020-01-02"]].
Ltac back := match goal with
  | |- reads_back ?dc ?cl ?d (NElem ?n ?a ?k) (NElem _ ?a' ?k') => refine (rb_elem dc cl d n a k a' k' _ _ _); [reflexivity|cbn [elements filter is_element]; repeat (constructor; [back|]); constructor|first [intros _; vm_compute; reflexivity|let H := fresh in intros (? & H); cbn [In] in H; repeat (destruct H as [H|H]; [discriminate H|]); destruct H]]
  end.
Lemma order_reads_back : reads_back xmlns id "" order_written order_read.
Proof. unfold order_written, order_read. back. Qed.
Lemma order_unmarshals : unmarshal upper shop_structs string untxt shop_zero order_read (EId "Order") (shop_zero (EId "Order")) = Some an_order.
Proof. vm_compute. reflexivity. Qed.
Lemma text_codec : forall from to x, marshaled_as from to -> any_text to x -> untxt to (nothing from) (id (txt to x)) = Some x.
Proof. reflexivity. Qed.
Lemma text_empty : forall t x, any_text t x -> no_text t x = true -> x = nothing t.
Proof. intros t x _ H. apply String.eqb_eq. exact H. Qed.

(* ---------- values that are not read back ---------- *)
(* one struct, its fields given, and the zero value of its type *)
Definition one_structs (s : spec) (n : string) : option spec := if String.eqb n "T" then Some s else None.
Definition one_zero (s : spec) (l : list (val string)) (e : gexpr) : val string :=
  match e with
  | EId n => if String.eqb n "T" then VStruct _ l else VLeaf _ ""
  | EArr e' => if leaf (one_structs s) (EArr e') then VLeaf _ "" else VSlice _ []
  end.
Lemma one_zero_ok s fs l : sp_struct s = Some fs -> l = map (fun f => one_zero s l (sf_expr f)) fs -> zero_ok (one_structs s) string nothing (one_zero s l).
Proof.
  intros H1 H2. split; [|split].
  - intros [n|e]; cbn [leaf one_zero]; [unfold one_structs; destruct (String.eqb n "T"); [discriminate|reflexivity]|intros H; rewrite H; reflexivity].
  - intros e H. cbn [one_zero]. rewrite H. reflexivity.
  - intros n s' fs'. unfold one_structs at 1. cbn [one_zero]. destruct (String.eqb n "T"); [|discriminate]. intros [= <-] E. rewrite H1 in E. injection E as <-. f_equal. exact H2.
Qed.
(* the struct of a type, a value of it, what is read of what is written *)
Definition lost (public : xname -> string) (declares : xattr -> bool) (c : complexT) : Prop :=
  exists s st' zero v y y', gen_complex public None None [] [DC c] 0 c = Ret (st', [s]) /\ zero_ok (one_structs s) string nothing zero /\
    has_type (one_structs s) string any_text (EId "T") v /\
    marshal upper (one_structs s) string txt no_text v (q "T") (EId "T") = [y] /\ reads_back declares id "" y y' /\
    unmarshal upper (one_structs s) string untxt zero y' (EId "T") (zero (EId "T")) <> Some v.
Ltac zeroes l := match goal with |- zero_ok (one_structs ?s) _ _ _ => exact (one_zero_ok s _ l eq_refl eq_refl) end.
(* a name that does not begin with an upper case letter *)
Lemma unexported_lost : lost ident xmlns (ct_of "T" (TB 0) [el_of "_id" (TB 38)] [] false).
Proof.
  eexists. eexists. eexists. exists (VStruct _ [L "7"]). eexists. eexists. split; [vm_compute; reflexivity|]. split; [zeroes [L ""]|]. split; [typed|]. split; [vm_compute; reflexivity|]. split; [instantiate (1 := NElem (q "T") [] []); back|vm_compute; discriminate].
Qed.
(* a repeated list: every item becomes a list of its own *)
Lemma nested_lost : lost ident xmlns (ct_of "T" (TB 0) [many (el_of "Tokens" (TB 8))] [] false).
Proof.
  eexists. eexists. eexists. exists (VStruct _ [VSlice _ [VSlice _ [L "a"; L "b"]]]). eexists. eexists. split; [vm_compute; reflexivity|]. split; [zeroes [VSlice string []]|]. split; [typed|]. split; [vm_compute; reflexivity|]. split; [instantiate (1 := NElem (q "T") [] [NElem (q "Tokens") [] [NText "a"]; NElem (q "Tokens") [] [NText "b"]]); back|vm_compute; discriminate].
Qed.
(* the prefix that is declared for the second attribute is the name of the first *)
Definition in_space (a : attribute) : attribute := mkAttribute (mkName "urn:x/Lang" (nlocal (at_name a))) (at_doc a) (at_type a) (at_default a) (at_optional a) [mkAttr (mkName "" "form") "qualified"] (at_scope a).
Lemma declaration_lost : lost ident xmlns_p (ct_of "T" (TB 0) [] [at_of "Lang" (TB 38); in_space (at_of "Code" (TB 38))] false).
Proof.
  eexists. eexists. eexists. exists (VStruct _ [L "en"; L "1"]). eexists. eexists. split; [vm_compute; reflexivity|]. split; [zeroes [L ""; L ""]|]. split; [typed|]. split; [vm_compute; reflexivity|]. split; [instantiate (1 := NElem (q "T") [mkAttr (mkName "" "Lang") "en"; mkAttr (mkName "xmlns" "Lang") "urn:x/Lang"; mkAttr (mkName "urn:x/Lang" "Code") "1"] []); back|vm_compute; discriminate].
Qed.

(* ---------- order and number of elements ---------- *)
Definition node_name (n : node) : xname := match n with NElem m _ _ => m | NText _ => mkName "" "" end.
(* a sequence of a date and a name: the name is written first *)
Lemma date_last : exists s st' v a k, let c := ct_of "T" (TB 0) [el_of "Day" (TB 16); el_of "Name" (TB 38)] [] false in
  gen_complex ident None None [16%Z] [DC c] 0 c = Ret (st', [s]) /\ has_type (one_structs s) string any_text (EId "T") v /\
  marshal upper (one_structs s) string txt no_text v (q "T") (EId "T") = [NElem (q "T") a k] /\
  map el_key (ct_elems c) = [q "Day"; q "Name"] /\ map node_name k = [q "Name"; q "Day"].
Proof.
  eexists. eexists. exists (VStruct _ [L "2020-01-02"; L "x"]). eexists. eexists. cbv zeta. split; [vm_compute; reflexivity|]. split; [typed|]. split; [vm_compute; reflexivity|]. split; reflexivity.
Qed.
(* optional elements with nothing in them: the text is left out, binary data are not *)
Lemma binary_kept : exists s st' v a k, let c := ct_of "T" (TB 0) [opt (el_of "Data" (TB 13)); opt (el_of "Note" (TB 38))] [] false in
  gen_complex ident None None [13%Z] [DC c] 0 c = Ret (st', [s]) /\ has_type (one_structs s) string any_text (EId "T") v /\
  v = VStruct _ [L ""; L ""] /\ no_text "[]byte" "" = true /\
  marshal upper (one_structs s) string txt no_text v (q "T") (EId "T") = [NElem (q "T") a k] /\ map node_name k = [q "Data"].
Proof.
  eexists. eexists. exists (VStruct _ [L ""; L ""]). eexists. eexists. cbv zeta. split; [vm_compute; reflexivity|]. split; [typed|]. split; [reflexivity|]. split; [reflexivity|]. split; [vm_compute; reflexivity|]. reflexivity.
Qed.
Lemma generated_in_order (public : xname -> string) (fa : option (attribute -> bool)) (fe : option (element -> bool)) (helpers : list Z) (exported : string -> bool) (structs : string -> option spec) (declares : xattr -> bool)
    (Leaf : Type) (print : string -> Leaf -> string) (is_empty : string -> Leaf -> bool) (good : string -> Leaf -> Prop) :
  names_free public structs -> all_generated public exported structs declares fa fe helpers ->
  forall st i c n s l name, structs n = Some s -> generated_from public exported structs declares fa fe helpers s st i c -> ct_mixed c = false ->
  has_type structs Leaf good (EId n) (VStruct Leaf l) ->
  let (ats, els) := filter_fields fa fe (inherit st c) in (forall e, In e els -> non_trivial_ty (el_type e) = false) ->
  exists fs attrs blocks, sp_struct s = Some fs /\ marshal exported structs Leaf print is_empty (VStruct Leaf l) name (EId n) = [NElem name attrs (concat blocks)] /\
    Forall2 (fun e b => Forall (fun k => exists a kids, k = NElem (el_key e) a kids) b) els blocks.
Proof.
  intros F G st i c n s l name H1 H2 H3 H4. pose proof (generated_written public fa fe helpers exported structs declares Leaf print is_empty good F G st i c n s l name H1 H2 H3 H4) as W.
  assert (Len : forall fs, sp_struct s = Some fs -> List.length fs = List.length l).
  { intros fs Hfs. inversion H4 as [| |n' s' fs1 l' G1 G2 G3]; subst. rewrite H1 in G1. injection G1 as <-. rewrite Hfs in G2. injection G2 as <-. exact (Forall2_len _ _ _ G3). }
  assert (Els : let (ats, els) := filter_fields fa fe (inherit st c) in forall fs, sp_struct s = Some fs -> List.length els <= List.length fs).
  { destruct H2 as (st' & G1 & G2). destruct F as (F1 & F2 & F3). pose proof (generated_parts public fa fe helpers F1 exported structs declares F2 F3 st i c st' s G1 G2) as P. destruct (filter_fields fa fe (inherit st c)) as [ats els].
    destruct P as (cs & es & fs' & fs0 & P1 & P2 & _ & _ & P5 & _). intros fs Hfs. rewrite P2 in Hfs. injection Hfs as <-. rewrite P1, !app_length, P5. lia. }
  destruct (filter_fields fa fe (inherit st c)) as [ats els]. intros Hn. destruct W as (fs & attrs & blocks & W1 & W2 & W3). exists fs, attrs, blocks. split; [exact W1|]. split; [exact W2|].
  specialize (Len fs W1). specialize (Els fs W1). rewrite in_order in W3.
  - clear - W3 Len Els. revert fs l blocks W3 Len Els. induction els as [|e els IH]; intros [|f fs] [|v l] blocks W3 Len Els; cbn [combine List.length] in *; try lia; [inversion W3; constructor..|].
    inversion W3 as [|x b xs bs B W]; subst. constructor; [apply B|]. apply (IH fs l bs W); lia.
  - apply Forall_forall. intros [[e f] v] Hx. apply in_combine_l, in_combine_l in Hx. exact (Hn e Hx).
Qed.
