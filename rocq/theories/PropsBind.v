(* Values of the generated types, written by encoding/xml and read again. *)
From Verif Require Import Base ScopeModel TreeModel EqualModel BuiltinModel XsdModel TypesModel GenModel SgModel SgStruct SgTags SgExamples BindModel BindSpec BindGenSpec BindDecode BindExamples BindDecodeEx.
Local Open Scope string_scope.

(* ---------- C81 ---------- *)
Theorem C81_round_trip (public : xname -> string) (fa : option (attribute -> bool)) (fe : option (element -> bool)) (helpers : list Z)
    (exported : string -> bool) (structs : string -> option spec) (declares : xattr -> bool)
    (Leaf : Type) (print : string -> Leaf -> string) (read : string -> Leaf -> string -> option Leaf) (zero_leaf : string -> Leaf)
    (is_empty : string -> Leaf -> bool) (zero : gexpr -> val Leaf) (good : string -> Leaf -> Prop) (clean : string -> string) :
  names_free public structs -> all_generated public exported structs declares fa fe helpers -> zero_ok structs Leaf zero_leaf zero ->
  (forall from to x, marshaled_as from to -> good to x -> read to (zero_leaf from) (clean (print to x)) = Some x) ->
  (forall t x, good t x -> is_empty t x = true -> x = zero_leaf t) ->
  forall n v name d, has_type structs Leaf good (EId n) v ->
    exists y, marshal exported structs Leaf print is_empty v name (EId n) = [y] /\
      forall y', reads_back declares clean d y y' -> unmarshal exported structs Leaf read zero y' (EId n) (zero (EId n)) = Some v.
Proof. exact (generated_round_trip public fa fe helpers exported structs declares Leaf print read zero_leaf is_empty zero good clean). Qed.
Print Assumptions C81_round_trip.
Example C81_case : names_free ident shop_structs /\ all_generated ident upper shop_structs xmlns None None [16%Z] /\ zero_ok shop_structs string nothing shop_zero /\
  has_type shop_structs string any_text (EId "Order") an_order /\
  marshal upper shop_structs string txt no_text an_order (q "Order") (EId "Order") = [order_written] /\ reads_back xmlns id "" order_written order_read /\
  unmarshal upper shop_structs string untxt shop_zero order_read (EId "Order") (shop_zero (EId "Order")) = Some an_order.
Proof. exact (conj shop_free (conj shop_generated (conj shop_zero_ok (conj order_typed (conj order_marshals (conj order_reads_back order_unmarshals)))))). Qed.
Theorem C81_unexported_refuted : lost ident xmlns (ct_of "T" (TB 0) [el_of "_id" (TB 38)] [] false).
Proof. exact unexported_lost. Qed.
Print Assumptions C81_unexported_refuted.
Theorem C81_nested_refuted : lost ident xmlns (ct_of "T" (TB 0) [many (el_of "Tokens" (TB 8))] [] false).
Proof. exact nested_lost. Qed.
Print Assumptions C81_nested_refuted.
Theorem C81_declaration_refuted : lost ident xmlns_p (ct_of "T" (TB 0) [] [at_of "Lang" (TB 38); in_space (at_of "Code" (TB 38))] false).
Proof. exact declaration_lost. Qed.
Print Assumptions C81_declaration_refuted.

(* ---------- C82 ---------- *)
Theorem C82_elements (public : xname -> string) (fa : option (attribute -> bool)) (fe : option (element -> bool)) (helpers : list Z)
    (exported : string -> bool) (structs : string -> option spec) (declares : xattr -> bool)
    (Leaf : Type) (print : string -> Leaf -> string) (is_empty : string -> Leaf -> bool) (good : string -> Leaf -> Prop) :
  names_free public structs -> all_generated public exported structs declares fa fe helpers ->
  forall st i c n s l name, structs n = Some s -> generated_from public exported structs declares fa fe helpers s st i c -> ct_mixed c = false ->
  has_type structs Leaf good (EId n) (VStruct Leaf l) ->
  let (ats, els) := filter_fields fa fe (inherit st c) in
  exists fs attrs blocks, sp_struct s = Some fs /\ marshal exported structs Leaf print is_empty (VStruct Leaf l) name (EId n) = [NElem name attrs (concat blocks)] /\
    Forall2 (block_of Leaf is_empty) (fields_last (combine (combine els fs) l)) blocks.
Proof. exact (generated_written public fa fe helpers exported structs declares Leaf print is_empty good). Qed.
Print Assumptions C82_elements.
Theorem C82_in_order (public : xname -> string) (fa : option (attribute -> bool)) (fe : option (element -> bool)) (helpers : list Z)
    (exported : string -> bool) (structs : string -> option spec) (declares : xattr -> bool)
    (Leaf : Type) (print : string -> Leaf -> string) (is_empty : string -> Leaf -> bool) (good : string -> Leaf -> Prop) :
  names_free public structs -> all_generated public exported structs declares fa fe helpers ->
  forall st i c n s l name, structs n = Some s -> generated_from public exported structs declares fa fe helpers s st i c -> ct_mixed c = false ->
  has_type structs Leaf good (EId n) (VStruct Leaf l) ->
  let (ats, els) := filter_fields fa fe (inherit st c) in (forall e, In e els -> non_trivial_ty (el_type e) = false) ->
  exists fs attrs blocks, sp_struct s = Some fs /\ marshal exported structs Leaf print is_empty (VStruct Leaf l) name (EId n) = [NElem name attrs (concat blocks)] /\
    Forall2 (fun e b => Forall (fun k => exists a kids, k = NElem (el_key e) a kids) b) els blocks.
Proof. exact (generated_in_order public fa fe helpers exported structs declares Leaf print is_empty good). Qed.
Print Assumptions C82_in_order.
Example C82_case : generated_from ident upper shop_structs xmlns None None [16%Z] order_spec shop_st 0 order_t /\ ct_mixed order_t = false /\
  marshal upper shop_structs string txt no_text an_order (q "Order") (EId "Order") = [order_written].
Proof. exact (conj order_generated (conj eq_refl order_marshals)). Qed.
Theorem C82_dates_in_order_refuted : exists s st' v a k, let c := ct_of "T" (TB 0) [el_of "Day" (TB 16); el_of "Name" (TB 38)] [] false in
  gen_complex ident None None [16%Z] [DC c] 0 c = Ret (st', [s]) /\ has_type (one_structs s) string any_text (EId "T") v /\
  marshal upper (one_structs s) string txt no_text v (q "T") (EId "T") = [NElem (q "T") a k] /\
  map el_key (ct_elems c) = [q "Day"; q "Name"] /\ map node_name k = [q "Name"; q "Day"].
Proof. exact date_last. Qed.
Print Assumptions C82_dates_in_order_refuted.
Theorem C82_optional_left_out_refuted : exists s st' v a k, let c := ct_of "T" (TB 0) [opt (el_of "Data" (TB 13)); opt (el_of "Note" (TB 38))] [] false in
  gen_complex ident None None [13%Z] [DC c] 0 c = Ret (st', [s]) /\ has_type (one_structs s) string any_text (EId "T") v /\
  v = VStruct _ [VLeaf _ ""; VLeaf _ ""] /\ no_text "[]byte" "" = true /\
  marshal upper (one_structs s) string txt no_text v (q "T") (EId "T") = [NElem (q "T") a k] /\ map node_name k = [q "Data"].
Proof. exact binary_kept. Qed.
Print Assumptions C82_optional_left_out_refuted.

(* ---------- C83 ---------- *)
Theorem C83_decoded (exported : string -> bool) (structs : string -> option spec) (Leaf : Type) (read : string -> Leaf -> string -> option Leaf) (zero : gexpr -> val Leaf)
    (public : xname -> string) (fa : option (attribute -> bool)) (fe : option (element -> bool)) (helpers : list Z) (declares : xattr -> bool) n s st i c :
  names_free public structs -> structs n = Some s -> generated_from public exported structs declares fa fe helpers s st i c ->
  let (ats, els) := filter_fields fa fe (inherit st c) in one_wildcard els ->
  exists fs t, sp_struct s = Some fs /\ List.length fs = t + List.length els + List.length ats /\ t <= 1 /\ (ct_mixed c = false -> t = 0) /\
  forall m attrs kids old v, List.length old = List.length fs ->
    (unmarshal exported structs Leaf read zero (NElem m attrs kids) (EId n) (VStruct _ old) = Some v <->
     exists new, v = VStruct _ new /\ List.length new = List.length old /\
       forall j sl f w, nth_error (slots t els ats) j = Some sl -> nth_error fs j = Some f -> nth_error old j = Some w ->
         exists w', nth_error new j = Some w' /\ slot_value exported structs Leaf read zero els attrs kids (as_type s f) sl w = Some w').
Proof. exact (fun F => decoded exported structs Leaf read zero public fa fe helpers declares F n s st i c). Qed.
Print Assumptions C83_decoded.
(* elements of different declarations may change places *)
Theorem C83_order_irrelevant (exported : string -> bool) (structs : string -> option spec) (Leaf : Type) (read : string -> Leaf -> string -> option Leaf) (zero : gexpr -> val Leaf)
    (public : xname -> string) (fa : option (attribute -> bool)) (fe : option (element -> bool)) (helpers : list Z) (declares : xattr -> bool) n s st i c :
  names_free public structs -> structs n = Some s -> generated_from public exported structs declares fa fe helpers s st i c ->
  let (ats, els) := filter_fields fa fe (inherit st c) in one_wildcard els ->
  forall m attrs k1 x ax kx y ay ky k2 old, length_ok Leaf s old -> (forall e, In e els -> belongs els e (NElem x ax kx) = true -> belongs els e (NElem y ay ky) = false) ->
  unmarshal exported structs Leaf read zero (NElem m attrs (k1 ++ NElem x ax kx :: NElem y ay ky :: k2)) (EId n) (VStruct _ old) =
  unmarshal exported structs Leaf read zero (NElem m attrs (k1 ++ NElem y ay ky :: NElem x ax kx :: k2)) (EId n) (VStruct _ old).
Proof. exact (fun F => swapped exported structs Leaf read zero public fa fe helpers declares F n s st i c). Qed.
Print Assumptions C83_order_irrelevant.
Theorem C83_unknown_element (exported : string -> bool) (structs : string -> option spec) (Leaf : Type) (read : string -> Leaf -> string -> option Leaf) (zero : gexpr -> val Leaf)
    (public : xname -> string) (fa : option (attribute -> bool)) (fe : option (element -> bool)) (helpers : list Z) (declares : xattr -> bool) n s st i c :
  names_free public structs -> structs n = Some s -> generated_from public exported structs declares fa fe helpers s st i c ->
  let (ats, els) := filter_fields fa fe (inherit st c) in one_wildcard els ->
  forall m attrs k1 x ax kx k2 old, length_ok Leaf s old -> (forall e, In e els -> el_wild e = false /\ named (el_key e) x = false) ->
  unmarshal exported structs Leaf read zero (NElem m attrs (k1 ++ NElem x ax kx :: k2)) (EId n) (VStruct _ old) =
  unmarshal exported structs Leaf read zero (NElem m attrs (k1 ++ k2)) (EId n) (VStruct _ old).
Proof. exact (fun F => unknown_element exported structs Leaf read zero public fa fe helpers declares F n s st i c). Qed.
Print Assumptions C83_unknown_element.
Theorem C83_unknown_attribute (exported : string -> bool) (structs : string -> option spec) (Leaf : Type) (read : string -> Leaf -> string -> option Leaf) (zero : gexpr -> val Leaf)
    (public : xname -> string) (fa : option (attribute -> bool)) (fe : option (element -> bool)) (helpers : list Z) (declares : xattr -> bool) n s st i c :
  names_free public structs -> structs n = Some s -> generated_from public exported structs declares fa fe helpers s st i c ->
  let (ats, els) := filter_fields fa fe (inherit st c) in one_wildcard els ->
  forall m a1 x a2 kids old, length_ok Leaf s old -> (forall a, In a ats -> named (at_key a) (aname x) = false) ->
  unmarshal exported structs Leaf read zero (NElem m (a1 ++ x :: a2) kids) (EId n) (VStruct _ old) =
  unmarshal exported structs Leaf read zero (NElem m (a1 ++ a2) kids) (EId n) (VStruct _ old).
Proof. exact (fun F => unknown_attribute exported structs Leaf read zero public fa fe helpers declares F n s st i c). Qed.
Print Assumptions C83_unknown_attribute.
(* a required element or attribute that is missing is not an error *)
Theorem C83_nothing_required (exported : string -> bool) (structs : string -> option spec) (Leaf : Type) (read : string -> Leaf -> string -> option Leaf) (zero : gexpr -> val Leaf)
    (public : xname -> string) (fa : option (attribute -> bool)) (fe : option (element -> bool)) (helpers : list Z) (declares : xattr -> bool) n s st i c :
  names_free public structs -> structs n = Some s -> generated_from public exported structs declares fa fe helpers s st i c ->
  let (ats, els) := filter_fields fa fe (inherit st c) in one_wildcard els -> ct_mixed c = false ->
  forall m old, length_ok Leaf s old -> unmarshal exported structs Leaf read zero (NElem m [] []) (EId n) (VStruct _ old) = Some (VStruct _ old).
Proof. exact (fun F => nothing_required exported structs Leaf read zero public fa fe helpers declares F n s st i c). Qed.
Print Assumptions C83_nothing_required.
Example C83_case : names_free ident shop_structs /\ shop_structs "Order" = Some order_spec /\ generated_from ident upper shop_structs xmlns None None [16%Z] order_spec shop_st 0 order_t /\
  one_wildcard (ct_elems order_t) /\ unmarshal upper shop_structs string untxt shop_zero jumbled (EId "Order") (shop_zero (EId "Order")) = Some an_order.
Proof. exact (conj shop_free (conj eq_refl (conj order_generated (conj order_wildcards jumbled_read)))). Qed.
(* the second occurrence of an element does not replace the first *)
Theorem C83_last_occurrence_refuted : exists k1 k2, k1 = NElem (q "Item") [mkAttr (mkName "" "Qty") "3"] [NText "apples"] /\ k2 = NElem (q "Item") [] [NText "pears"] /\
  (exists st', gen_complex ident None None [] [DC single_t; DC line_t] 0 single_t = Ret (st', [single_spec])) /\
  unmarshal upper single_structs string untxt single_zero (NElem (q "T") [] [k1; k2]) (EId "T") (single_zero (EId "T")) = Some (VStruct _ [VStruct _ [VLeaf _ "pears"; VLeaf _ "3"]]).
Proof. exact merged. Qed.
Print Assumptions C83_last_occurrence_refuted.
