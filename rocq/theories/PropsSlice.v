(* C78: SOAPArrayAsSlice, for all types; the generated methods for all streams of tokens, with the
   decoding and encoding of single items as arbitrary functions. *)
From Verif Require Import Base ScopeModel TreeModel EqualModel BuiltinModel XsdModel TypesModel SgModel SgStruct SgNames SgExamples SoapModel SoapExamples SliceModel SliceSpec SliceProofs SliceExamples.
Local Open Scope string_scope.

(* C78: a type whose only field is a repeated wildcard of a named type becomes a slice of that type *)
Theorem C78_slice public fa fe helpers st i c st' sps e : i < List.length st -> gen_complex public fa fe helpers st i c = Ret (st', sps) -> ct_mixed c = false ->
  filter_fields fa fe (inherit st c) = ([], [e]) -> find el_wild (ct_elems (inherit st c)) = Some e -> el_plural e = true ->
  forall n, type_name st' (el_type e) = Some n -> nlocal n <> "" ->
  exists sp x, sps = [sp] /\ to_slice st' sp = Ret (Some (mkSlice x (mkName "" ",any") n)) /\
    (if match el_type e with TB b => (b =? 0)%Z | _ => false end then x = EId "string" else expr_of public st' (el_type e) = Ret x).
Proof. exact (slice_of_array public fa fe helpers st i c st' sps e). Qed.
Print Assumptions C78_slice.
Example C78_slice_case : exists st' sps, gen_complex nlocal None None [] prices 0 (ct_of "Prices" (TPtr 1) [items_e (TPtr 2)] [] false) = Ret (st', sps) /\
  filter_fields None None (inherit prices (ct_of "Prices" (TPtr 1) [items_e (TPtr 2)] [] false)) = ([], [items_e (TPtr 2)]) /\
  find el_wild (ct_elems (inherit prices (ct_of "Prices" (TPtr 1) [items_e (TPtr 2)] [] false))) = Some (items_e (TPtr 2)) /\ el_plural (items_e (TPtr 2)) = true /\
  type_name st' (el_type (items_e (TPtr 2))) = Some (mkName "urn:a" "Price") /\
  after (Ret (st', sps)) = Some (EId "Price", mkName "" ",any", mkName "urn:a" "Price").
Proof. exact prices_slice. Qed.
(* C78: nothing else does: a struct that is changed has one field, of slice type, and comes from a type with a wildcard *)
Theorem C78_only st s sl : to_slice st s = Ret (Some sl) -> sl_tag sl = mkName "" ",any" /\
  exists f i c w, sp_struct s = Some [f] /\ sf_expr f = EArr (sl_item sl) /\ sp_type s = TPtr i /\ nth_error st i = Some (DC c) /\
    In w (ct_elems c) /\ el_wild w = true /\ type_name st (el_type w) = Some (sl_base sl).
Proof. exact (slice_shape st s sl). Qed.
Print Assumptions C78_only.
(* C78: and every such struct does, if the first wildcard is of a named type *)
Theorem C78_all st s f x i c p w q n : sp_struct s = Some [f] -> sf_expr f = EArr x -> sp_type s = TPtr i -> nth_error st i = Some (DC c) ->
  ct_elems c = (p ++ w :: q)%list -> (forall e, In e p -> el_wild e = false) -> el_wild w = true -> type_name st (el_type w) = Some n -> n <> mkName "" "" ->
  to_slice st s = Ret (Some (mkSlice x (mkName "" ",any") n)).
Proof. exact (slice_all st s f x i c p w q n). Qed.
Print Assumptions C78_all.
(* C78: UnmarshalXML: the items are those of the children that can be decoded, in their order, and there is no error *)
Theorem C78_unmarshal Item Err (eof : Err) decode kids rs tag : Forall2 (reads Item Err decode) kids rs -> nlocal tag = ",any" ->
  unmarshal Item Err eof decode tag (flat_map toks kids ++ [TEnd])%list = Items Item Err (good_items Item Err rs).
Proof. exact (unmarshal_items Item Err eof decode kids rs tag). Qed.
Print Assumptions C78_unmarshal.
(* C78: what MarshalXML writes, UnmarshalXML reads *)
Theorem C78_round_trip Item Err (eof : Err) decode encode sl name attrs items : nlocal (sl_tag sl) = ",any" ->
  (forall x, In x items -> inverse Item Err decode encode (mkName (nspace (sl_tag sl)) "item") x) ->
  exists content, marshal Item encode sl name attrs items = (TStart name (attrs ++ array_attrs (sl_base sl)) :: content)%list /\
    unmarshal Item Err eof decode (sl_tag sl) content = Items Item Err items.
Proof. exact (round_trip Item Err eof decode encode sl name attrs items). Qed.
Print Assumptions C78_round_trip.
Example C78_inverse_case n x : nlocal n <> "bad" -> inverse string string d_one e_one n x.
Proof. exact (one_inverse n x). Qed.
(* C78: UnmarshalXML returns, whatever there is to be read *)
Theorem C78_returns Item Err (eof : Err) decode tag content : (forall n a l', List.length (snd (decode n a l')) <= List.length l') -> unmarshal Item Err eof decode tag content <> Stuck Item Err.
Proof. exact (unmarshal_ends Item Err eof decode tag content). Qed.
Print Assumptions C78_returns.
(* C78: the attribute arrayType that is written is the one HandleSOAPArrayType reads: it names the type of the items *)
Theorem C78_array_type base s : trim_space (nlocal base ++ "[]") = nlocal base ++ "[]" ->
  forall v, In (mkAttr (mkName soap_wsdlNS "arrayType") v) (array_attrs base) -> In (mkAttr (mkName "" "xmlns:ns1") (nspace base)) (array_attrs base) /\
    item_name (resolve (s ++ [mkName (nspace base) "ns1"])%list v) = base.
Proof. exact (array_attr_names base s). Qed.
Print Assumptions C78_array_type.
Example C78_array_type_case : trim_space ("Price" ++ "[]") = "Price" ++ "[]" /\ In (mkAttr (mkName soap_wsdlNS "arrayType") "ns1:Price[]") (array_attrs (mkName "urn:a" "Price")).
Proof. exact (conj eq_refl (or_intror (or_introl eq_refl))). Qed.
(* C78: one of each method, if no field has another representation *)
Theorem C78_methods s sl : sp_overrides s = [] -> NoDup (methods_after s (Some sl)).
Proof. exact (methods_once s sl). Qed.
Print Assumptions C78_methods.
(* C78: otherwise two: the code generated for an array of dates does not compile *)
Theorem C78_methods_refuted : exists st' s sl, gen_complex nlocal None None [16%Z] [DC dates_c] 0 dates_c = Ret (st', [s]) /\ to_slice st' s = Ret (Some sl) /\ sl_base sl = mkName schemaNS "date" /\
  methods_after s (Some sl) = ["MarshalXML"; "UnmarshalXML"; "MarshalXML"; "UnmarshalXML"].
Proof. exact methods_twice. Qed.
Print Assumptions C78_methods_refuted.
(* C78: the name in the tag of the field is not used *)
Theorem C78_names_refuted : exists st' s f sl, gen_complex nlocal None (Some only_price) [] [DC mixed_c; DC price_c] 0 mixed_c = Ret (st', [s]) /\ sp_struct s = Some [f] /\
  sf_tag f = quoted "urn:a Price" /\ to_slice st' s = Ret (Some sl) /\ sl_item sl = EId "Price" /\ sl_tag sl = mkName "" ",any" /\ out_tag (sl_tag sl) = mkName "" "item" /\
  sl_base sl = mkName schemaNS "anyType".
Proof. exact name_lost. Qed.
Print Assumptions C78_names_refuted.
(* C78: an item that cannot be decoded is left out without an error *)
Theorem C78_errors_refuted : exists kids rs x, Forall2 (reads string string d_one) kids rs /\ In (Some (inr x)) rs /\
  unmarshal string string "EOF" d_one (mkName "" ",any") (flat_map toks kids ++ [TEnd])%list = Items string string ["1"; "3"] /\ List.length kids = 4.
Proof. exact dropped. Qed.
Print Assumptions C78_errors_refuted.
Example C78_early : unmarshal string string "EOF" d_early (mkName "" ",any") [TStart (mkName "" "bad") []; TEnd; TStart (mkName "" "item") []; TEnd; TEnd] = Not_consumed string string.
Proof. exact early. Qed.
