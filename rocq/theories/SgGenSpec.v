(* Types code can be generated from, and closed code. *)
From Verif Require Import Base ScopeModel TreeModel BuiltinModel XsdModel TypesModel TypesSpec GenModel SgModel SgStruct SgFlatSpec SgExpandSpec.
Local Open Scope string_scope.

Definition field_types (c : complexT) : list ty := (map el_type (ct_elems c) ++ map at_type (ct_attrs c))%list.
(* mixed content is inherited from mixed content, or there is no simple type to inherit *)
Definition mixed_down (st : store) : Prop := forall i c j b, nth_error st i = Some (DC c) -> ct_mixed c = true -> ct_base c = TPtr j -> nth_error st j = Some (DC b) ->
  ct_mixed b = true \/ forall k s, nth_error st k = Some (DS s) -> ~ ancestor st (TPtr j) (TPtr k).
(* the Builtins in use have a Go type *)
Definition translated (b : Z) : Prop := (0 <= b < 50 /\ ~ 45 <= b <= 48)%Z.
Definition all_translated (st : store) : Prop := forall i d u b, nth_error st i = Some d -> In u (uses d) -> ancestor st u (TB b) -> translated b.
(* and those in lists have methods *)
Definition lists_supported (st : store) : Prop := forall i s b, nth_error st i = Some (DS s) -> sd_list s = true -> ancestor st (TPtr i) (TB b) ->
  exists c, list_codec b = Some c /\ body_parses c = true.
Record generable (h : nat -> nat) (st : store) : Prop := mkGenerable {
  gn_complete : complete st;
  gn_apart : apart st;
  gn_ranked : ranked h st;
  gn_mixed : mixed_down st;
  gn_translated : all_translated st;
  gn_lists : lists_supported st }.

(* the identifiers in the type of a declaration *)
Fixpoint expr_id (e : gexpr) : string := match e with EId n => n | EArr e => expr_id e end.
Definition spec_ids (s : spec) : list string :=
  (match sp_struct s with Some l => map (fun f => expr_id (sf_expr f)) l | None => [] end ++ match sp_expr s with Some e => [expr_id e] | None => [] end)%list.
Definition go_types : list string := ["string"; "time.Time"; "byte"; "int"; "xml.Name"; "bool"; "float64"; "float32"; "int64"; "uint"; "uint64"].
(* every identifier is a type of Go or declared, and so are the helper types *)
Definition closed_code (decls : list (string * spec)) : Prop := forall n s, In (n, s) decls ->
  (forall x, In x (spec_ids s) -> In x go_types \/ In x (map fst decls)) /\
  (forall o, In o (sp_overrides s) -> ov_to o = ov_from o \/ In (ov_to o) (map fst decls)).
(* a type that no other can stand for: a simple type that is not plain; a complex type with an attribute,
   or without text *)
Definition stays (fa : option (attribute -> bool)) (st : store) (t : ty) : Prop :=
  match t with
  | TPtr i => match nth_error st i with
              | Some (DS s) => forall b, ancestor st t (TB b) -> ~ plain s b
              | Some (DC c) => (exists a, In a (ct_attrs c) /\ filtered fa a = false) \/
                               (ancestor st t (TB 0) /\ forall k s, nth_error st k = Some (DS s) -> ~ ancestor st t (TPtr k))
              | None => False
              end
  | _ => False
  end.
(* what becomes of a type: it is declared, or a simple or built-in type it is derived from stands for it *)
Definition present (fa : option (attribute -> bool)) (st : store) (declared : nat -> Prop) (t : ty) : Prop :=
  exists v, (v = t \/ ancestor st t v /\ is_complex st v = false) /\ (stays fa st t -> v = t) /\ forall j, v = TPtr j -> declared j.
