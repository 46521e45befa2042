(* Slices of SOAP arrays: cases and counterexamples. *)
From Verif Require Import Base ScopeModel ScopeProofs TreeModel EqualModel EqualProofs BuiltinModel XsdModel TypesModel GenModel SgModel SgStruct SgProofs SgNames SgTags SgExamples SoapModel SoapSpec SoapProofs SoapExamples SliceModel SliceSpec SliceProofs.
Local Open Scope string_scope.

(* only structs with one field of slice type are changed, and the tag of the field is never seen *)
Lemma slice_shape st s sl : to_slice st s = Ret (Some sl) -> sl_tag sl = mkName "" ",any" /\
  exists f i c w, sp_struct s = Some [f] /\ sf_expr f = EArr (sl_item sl) /\ sp_type s = TPtr i /\ nth_error st i = Some (DC c) /\
    In w (ct_elems c) /\ el_wild w = true /\ type_name st (el_type w) = Some (sl_base sl).
Proof.
  unfold to_slice. destruct (sp_struct s) as [[|f [|? ?]]|]; try discriminate. destruct (sf_expr f) eqn:Ef; try discriminate. destruct (sp_type s) as [| | |i] eqn:Et; try discriminate.
  destruct (get_c st i) as [c|] eqn:Ec; [|discriminate]. destruct (find el_wild (ct_elems c)) as [w|] eqn:Ew; [|discriminate]. destruct (type_name st (el_type w)) as [n|] eqn:En; [|discriminate].
  destruct (String.eqb (nspace n) "" && String.eqb (nlocal n) "")%bool; [discriminate|]. cbn [tag_key andthen]. intros [= <-]. split; [reflexivity|]. cbn [sl_item sl_base].
  apply find_some in Ew as [W1 W2]. exists f, i, c, w. unfold get_c in Ec. destruct (nth_error st i) as [[s0|c0]|] eqn:E; try discriminate. injection Ec as <-. auto 10.
Qed.
(* the attribute written by MarshalXML names the item type, if read where it was written *)
Lemma split_ns1 s : split_qname ("ns1:" ++ s) = ("ns1", s).
Proof. reflexivity. Qed.
Lemma trim_brackets m : trim_suffix "[]" (m ++ "[]") = m.
Proof.
  destruct (trim_suffix_spec "[]" (m ++ "[]")) as [H|[_ H]]; [|exfalso; exact (H m eq_refl)]. apply (f_equal s_rev) in H. rewrite !s_rev_app in H. cbn [s_rev] in H. injection H as H. apply (f_equal s_rev) in H. rewrite !s_rev_rev in H. auto.
Qed.
Lemma array_attr_names base s : trim_space (nlocal base ++ "[]") = nlocal base ++ "[]" ->
  forall v, In (mkAttr (mkName soap_wsdlNS "arrayType") v) (array_attrs base) -> In (mkAttr (mkName "" "xmlns:ns1") (nspace base)) (array_attrs base) /\
    item_name (resolve (s ++ [mkName (nspace base) "ns1"])%list v) = base.
Proof.
  intros Ht v [H|[H|[]]]; [discriminate|]. injection H as <-. split; [left; reflexivity|]. unfold resolve, resolve_ns. match goal with |- context [split_qname ?x] => change (split_qname x) with ("ns1", nlocal base ++ "[]") end. change (String.eqb "ns1" "xml") with false. change (String.eqb "ns1" "xmlns") with false. cbv iota.
  rewrite find_last_app. cbn [find_last nlocal]. rewrite String.eqb_refl. cbn [fst]. change (item_name (mkName (nspace base) (nlocal base ++ "[]")) = base). unfold item_name. cbn [nspace]. change (nlocal (mkName (nspace base) (nlocal base ++ "[]"))) with (nlocal base ++ "[]"). rewrite Ht, trim_brackets. destruct base; reflexivity.
Qed.

(* a shop's prices *)
Definition after (r : run (store * list spec)) : option (gexpr * xname * xname) :=
  match r with Ret (st, [s]) => match to_slice st s with Ret (Some sl) => Some (sl_item sl, sl_tag sl, sl_base sl) | _ => None end | _ => None end.
Definition prices : store := [DC (ct_of "Prices" (TPtr 1) [items_e (TPtr 2)] [] false); DC (ct_of "Array" (TB 0) [any_el true] [] false); DC price_c].
Lemma prices_slice : exists st' sps, gen_complex nlocal None None [] prices 0 (ct_of "Prices" (TPtr 1) [items_e (TPtr 2)] [] false) = Ret (st', sps) /\
  filter_fields None None (inherit prices (ct_of "Prices" (TPtr 1) [items_e (TPtr 2)] [] false)) = ([], [items_e (TPtr 2)]) /\
  find el_wild (ct_elems (inherit prices (ct_of "Prices" (TPtr 1) [items_e (TPtr 2)] [] false))) = Some (items_e (TPtr 2)) /\ el_plural (items_e (TPtr 2)) = true /\
  type_name st' (el_type (items_e (TPtr 2))) = Some (mkName "urn:a" "Price") /\
  after (Ret (st', sps)) = Some (EId "Price", mkName "" ",any", mkName "urn:a" "Price").
Proof. eexists. eexists. split; [vm_compute; reflexivity|]. repeat (split; [vm_compute; reflexivity|]). vm_compute. reflexivity. Qed.
(* items of a type with a helper: the methods are there twice *)
Definition dates_c : complexT := ct_of "Dates" (TB 0) [items_e (TB 16)] [] false.
Lemma methods_twice : exists st' s sl, gen_complex nlocal None None [16%Z] [DC dates_c] 0 dates_c = Ret (st', [s]) /\ to_slice st' s = Ret (Some sl) /\ sl_base sl = mkName schemaNS "date" /\
  methods_after s (Some sl) = ["MarshalXML"; "UnmarshalXML"; "MarshalXML"; "UnmarshalXML"].
Proof. eexists. eexists. eexists. split; [vm_compute; reflexivity|]. split; [vm_compute; reflexivity|]. split; vm_compute; reflexivity. Qed.
Lemma methods_once : forall s sl, sp_overrides s = [] -> NoDup (methods_after s (Some sl)).
Proof. intros s sl H. unfold methods_after, spec_methods. rewrite H. cbn [app]. constructor; [intros [E|[]]; discriminate|]. constructor; [intros []|constructor]. Qed.
(* a type whose one remaining field has a name: the name is lost *)
Definition only_price (e : element) : bool := negb (String.eqb (nlocal (el_name e)) "Price").
Definition mixed_c : complexT := ct_of "Basket" (TB 0) [many (el_of "Price" (TPtr 1)); any_el true] [] false.
Lemma name_lost : exists st' s f sl, gen_complex nlocal None (Some only_price) [] [DC mixed_c; DC price_c] 0 mixed_c = Ret (st', [s]) /\ sp_struct s = Some [f] /\
  sf_tag f = quoted "urn:a Price" /\ to_slice st' s = Ret (Some sl) /\ sl_item sl = EId "Price" /\ sl_tag sl = mkName "" ",any" /\ out_tag (sl_tag sl) = mkName "" "item" /\
  sl_base sl = mkName schemaNS "anyType".
Proof. eexists. eexists. eexists. eexists. split; [vm_compute; reflexivity|]. split; [reflexivity|]. repeat (split; [vm_compute; reflexivity|]). vm_compute. reflexivity. Qed.

(* items that are numbers of end tags: one is written as <item/> repeated *)
Section Toy.
  (* an item is a name; an item called bad cannot be read *)
  Definition d_one (n : xname) (a : list xattr) (l : list tok) : (string + string) * list tok :=
    (if String.eqb (nlocal n) "bad" then inr "bad item" else inl (match a with x :: _ => avalue x | [] => "" end), skip 0 l).
  Definition e_one (n : xname) (x : string) : xname * list xattr * list tok := (n, [mkAttr (mkName "" "v") x], [TOther; TEnd]).
  Lemma one_inverse n x : nlocal n <> "bad" -> inverse string string d_one e_one n x.
  Proof. intros H. unfold inverse, e_one. intros l. unfold d_one. rewrite (proj2 (String.eqb_neq _ _) H). reflexivity. Qed.
  Lemma dropped : exists kids rs x, Forall2 (reads string string d_one) kids rs /\ In (Some (inr x)) rs /\
    unmarshal string string "EOF" d_one (mkName "" ",any") (flat_map toks kids ++ [TEnd])%list = Items string string ["1"; "3"] /\ List.length kids = 4.
  Proof.
    exists [Child (mkName "" "item") [mkAttr (mkName "" "v") "1"] [TEnd]; Text; Child (mkName "" "bad") [] [TOther; TEnd]; Child (mkName "" "item") [mkAttr (mkName "" "v") "3"] [TEnd]],
      [Some (inl "1"); None; Some (inr "bad item"); Some (inl "3")], "bad item".
    split; [|split; [right; right; left; reflexivity|split; vm_compute; reflexivity]].
    constructor; [exists (inl "1"); split; reflexivity|]. constructor; [reflexivity|]. constructor; [exists (inr "bad item"); split; reflexivity|]. constructor; [exists (inl "3"); split; reflexivity|]. constructor.
  Qed.
  (* an error inside of an item that leaves its end tag to be read: the array ends there *)
  Definition d_early (n : xname) (a : list xattr) (l : list tok) : (string + string) * list tok := if String.eqb (nlocal n) "bad" then (inr "bad item", l) else d_one n a l.
  Lemma early : unmarshal string string "EOF" d_early (mkName "" ",any") [TStart (mkName "" "bad") []; TEnd; TStart (mkName "" "item") []; TEnd; TEnd] = Not_consumed string string.
  Proof. vm_compute. reflexivity. Qed.
End Toy.
(* and all of these are *)
Lemma slice_all st s f x i c p w q n : sp_struct s = Some [f] -> sf_expr f = EArr x -> sp_type s = TPtr i -> nth_error st i = Some (DC c) ->
  ct_elems c = (p ++ w :: q)%list -> (forall e, In e p -> el_wild e = false) -> el_wild w = true -> type_name st (el_type w) = Some n -> n <> mkName "" "" ->
  to_slice st s = Ret (Some (mkSlice x (mkName "" ",any") n)).
Proof.
  intros H1 H2 H3 H4 H5 H6 H7 H8 H9. unfold to_slice. rewrite H1, H2, H3. unfold get_c. rewrite H4, H5.
  assert (F : find el_wild (p ++ w :: q)%list = Some w). { clear - H6 H7. induction p as [|e p IH]; cbn [app find]; [rewrite H7; reflexivity|]. rewrite (H6 e (or_introl eq_refl)). apply IH. intros e' He. apply H6. right. exact He. }
  rewrite F, H8. assert (E : (String.eqb (nspace n) "" && String.eqb (nlocal n) "")%bool = false).
  { destruct (String.eqb (nspace n) "" && String.eqb (nlocal n) "")%bool eqn:E; auto. apply andb_prop in E as [E1 E2]. apply String.eqb_eq in E1, E2. exfalso. apply H9. destruct n as [a b]; cbn [nspace nlocal] in *; subst; reflexivity. }
  rewrite E. reflexivity.
Qed.
