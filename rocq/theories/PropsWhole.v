(* Values of all the types of a generated file, written by encoding/xml and read again. *)
From Verif Require Import Base SortLib ScopeModel TreeModel EqualModel BuiltinModel XsdModel TypesModel TypesSpec GenModel SgModel SgStruct SgTags SgExamples SgFlatSpec SgExpandSpec SgGen SgGenSpec SgGenExamples SgOrderSpec SgShapeSpec BindModel BindSpec BindGenSpec BindDecode BindExamples BindDecodeEx WholeSpec WholeBind WholeExamples.
Local Open Scope string_scope.

(* ---------- C92 ---------- *)
Theorem C92_round_trip (public : xname -> string) (exported : string -> bool) (declares : xattr -> bool) (fa : option (attribute -> bool)) (fe : option (element -> bool)) (ft : option (xname -> bool)) (allow : option (list xname))
    (helpers : list Z) (h : nat -> nat) (st : store) (schemas : list (list ty)) :
  (forall b, non_trivial b = true -> memb b helpers = true) -> (forall a t, filtered fa (retype_at a t) = filtered fa a) -> (forall e t, filtered fe (retype_el e t) = filtered fe e) ->
  generable h st -> wild_named st -> firm fa st -> (forall i, h i <= N.to_nat 1000) -> (forall types t, In types schemas -> In t types -> known st t) -> go_names public ->
  exists c, gen public fa fe ft allow helpers false st schemas = Ret (inr c) /\ (clear_code public exported declares fa fe st (co_decls c) ->
    forall (Leaf : Type) (print : string -> Leaf -> string) (read : string -> Leaf -> string -> option Leaf) (zero_leaf : string -> Leaf) (is_empty : string -> Leaf -> bool) (zero : gexpr -> val Leaf) (good : string -> Leaf -> Prop) (clean : string -> string),
    zero_ok (structs_of (co_decls c)) Leaf zero_leaf zero ->
    (forall from to x, marshaled_as from to -> good to x -> read to (zero_leaf from) (clean (print to x)) = Some x) ->
    (forall t x, good t x -> is_empty t x = true -> x = zero_leaf t) ->
    forall n v name d, has_type (structs_of (co_decls c)) Leaf good (EId n) v ->
      exists y, marshal exported (structs_of (co_decls c)) Leaf print is_empty v name (EId n) = [y] /\
        forall y', reads_back declares clean d y y' -> unmarshal exported (structs_of (co_decls c)) Leaf read zero y' (EId n) (zero (EId n)) = Some v).
Proof. exact (whole_round_trip public exported declares fa fe ft allow helpers h st schemas). Qed.
Print Assumptions C92_round_trip.
Theorem C92_elements (public : xname -> string) (exported : string -> bool) (declares : xattr -> bool) (fa : option (attribute -> bool)) (fe : option (element -> bool)) (ft : option (xname -> bool)) (allow : option (list xname))
    (helpers : list Z) (h : nat -> nat) (st : store) (schemas : list (list ty)) :
  (forall b, non_trivial b = true -> memb b helpers = true) -> (forall a t, filtered fa (retype_at a t) = filtered fa a) -> (forall e t, filtered fe (retype_el e t) = filtered fe e) ->
  generable h st -> wild_named st -> firm fa st -> (forall i, h i <= N.to_nat 1000) -> (forall types t, In types schemas -> In t types -> known st t) -> go_names public ->
  exists c, gen public fa fe ft allow helpers false st schemas = Ret (inr c) /\ (clear_code public exported declares fa fe st (co_decls c) ->
    forall (Leaf : Type) (print : string -> Leaf -> string) (is_empty : string -> Leaf -> bool) (good : string -> Leaf -> Prop) n s i ct es ats l name,
    structs_of (co_decls c) n = Some s -> sp_type s = TPtr i -> nth_error st i = Some (DC ct) -> ct_mixed ct = false -> inherits st i es ats ->
    has_type (structs_of (co_decls c)) Leaf good (EId n) (VStruct Leaf l) ->
    exists els fs attrs blocks, Forall2 (el_for fa st) (filter (fun e => negb (filtered fe e)) es) els /\ sp_struct s = Some fs /\
      marshal exported (structs_of (co_decls c)) Leaf print is_empty (VStruct Leaf l) name (EId n) = [NElem name attrs (concat blocks)] /\
      Forall2 (block_of Leaf is_empty) (fields_last (combine (combine els fs) l)) blocks).
Proof. exact (whole_written public exported declares fa fe ft allow helpers h st schemas). Qed.
Print Assumptions C92_elements.
Theorem C92_decoded (public : xname -> string) (exported : string -> bool) (declares : xattr -> bool) (fa : option (attribute -> bool)) (fe : option (element -> bool)) (ft : option (xname -> bool)) (allow : option (list xname))
    (helpers : list Z) (h : nat -> nat) (st : store) (schemas : list (list ty)) :
  (forall b, non_trivial b = true -> memb b helpers = true) -> (forall a t, filtered fa (retype_at a t) = filtered fa a) -> (forall e t, filtered fe (retype_el e t) = filtered fe e) ->
  generable h st -> wild_named st -> firm fa st -> (forall i, h i <= N.to_nat 1000) -> (forall types t, In types schemas -> In t types -> known st t) -> go_names public ->
  exists c, gen public fa fe ft allow helpers false st schemas = Ret (inr c) /\ (clear_code public exported declares fa fe st (co_decls c) ->
    forall (Leaf : Type) (read : string -> Leaf -> string -> option Leaf) (zero : gexpr -> val Leaf) n s i ct es ats,
    structs_of (co_decls c) n = Some s -> sp_type s = TPtr i -> nth_error st i = Some (DC ct) -> inherits st i es ats -> one_wildcard (filter (fun e => negb (filtered fe e)) es) ->
    exists els ats' fs t, Forall2 (el_for fa st) (filter (fun e => negb (filtered fe e)) es) els /\ Forall2 (at_for fa st) (filter (fun a => negb (filtered fa a)) ats) ats' /\ sp_struct s = Some fs /\
    List.length fs = t + List.length els + List.length ats' /\ t <= 1 /\ (ct_mixed ct = false -> t = 0) /\
    forall m attrs kids old v, List.length old = List.length fs ->
      (unmarshal exported (structs_of (co_decls c)) Leaf read zero (NElem m attrs kids) (EId n) (VStruct _ old) = Some v <->
       exists new, v = VStruct _ new /\ List.length new = List.length old /\
         forall j sl f w, nth_error (slots t els ats') j = Some sl -> nth_error fs j = Some f -> nth_error old j = Some w ->
           exists w', nth_error new j = Some w' /\ slot_value exported (structs_of (co_decls c)) Leaf read zero els attrs kids (as_type s f) sl w = Some w')).
Proof. exact (whole_read public exported declares fa fe ft allow helpers h st schemas). Qed.
Print Assumptions C92_decoded.
(* types with text, lists, inheritance, dates, repeated elements and a wildcard *)
Example C92_case : (generable fleet_rank fleet /\ wild_named fleet /\ firm None fleet /\ (forall i, fleet_rank i <= N.to_nat 1000) /\ (forall types t, In types fleet_types -> In t types -> known fleet t) /\
    clear_code go_pub upper xmlns None None fleet fleet_decls) /\ go_names go_pub /\ (forall b, non_trivial b = true -> memb b all_helpers = true) /\
  zero_ok fleet_structs string nothing fleet_zero /\ has_type fleet_structs string any_text (EId "Fleet") a_fleet /\
  marshal upper fleet_structs string txt no_text a_fleet (q "Fleet") (EId "Fleet") = [fleet_doc [] "" [NText ""]] /\
  reads_back xmlns id "" (fleet_doc [] "" [NText ""]) (fleet_doc [mkAttr (mkName "" "xmlns") "urn:a"] "urn:a" []) /\
  unmarshal upper fleet_structs string untxt fleet_zero (fleet_doc [mkAttr (mkName "" "xmlns") "urn:a"] "urn:a" []) (EId "Fleet") (fleet_zero (EId "Fleet")) = Some a_fleet.
Proof. exact (conj fleet_ok (conj go_pub_names (conj all_helpers_ok (conj fleet_zero_ok (conj fleet_typed (conj fleet_marshals (conj fleet_reads_back fleet_unmarshals))))))). Qed.
Example C92_case_code : match gen go_pub None None None None all_helpers false fleet fleet_types with Ret (inr c) => co_decls c | _ => [] end = fleet_decls.
Proof. vm_compute. reflexivity. Qed.
Example C92_case_codec : (forall from to x, marshaled_as from to -> any_text to x -> untxt to (nothing from) (id (txt to x)) = Some x) /\ (forall t x, any_text t x -> no_text t x = true -> x = nothing t).
Proof. exact (conj text_codec text_empty). Qed.
(* the names of the types must not clash: all else may hold *)
Theorem C92_kinds_refuted : generable (fun i => i) kin /\ wild_named kin /\ firm None kin /\ (forall types t, In types kin_types -> In t types -> known kin t) /\
  gen go_pub None None None None all_helpers false kin kin_types = Ret (inr kin_code) /\
  (forall i c es ats, nth_error kin i = Some (DC c) -> inherits kin i es ats -> clear_type go_pub upper xmlns None kin i c es ats) /\
  zero_ok (structs_of (co_decls kin_code)) string nothing kin_zero /\ has_type (structs_of (co_decls kin_code)) string any_text (EId "Holder") a_holder /\
  exists y, marshal upper (structs_of (co_decls kin_code)) string txt no_text a_holder (q "Holder") (EId "Holder") = [y] /\ reads_back xmlns id "" y y /\
    unmarshal upper (structs_of (co_decls kin_code)) string untxt kin_zero y (EId "Holder") (kin_zero (EId "Holder")) <> Some a_holder.
Proof. exact kin_lost. Qed.
Print Assumptions C92_kinds_refuted.
