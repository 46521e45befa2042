(* What flattening may do to a set of types. *)
From Verif Require Import Base ScopeModel TreeModel BuiltinModel XsdModel TypesModel TypesSpec SgModel.
Local Open Scope string_scope.

(* the types a definition refers to; the members of a union are not followed *)
Definition uses (d : def) : list ty :=
  match d with
  | DC c => ct_base c :: (map el_type (ct_elems c) ++ map at_type (ct_attrs c))%list
  | DS s => [sd_base s]
  end.
Definition known (st : store) (t : ty) : Prop := match t with TB _ => True | TPtr j => j < List.length st | _ => False end.
(* all references lead to a type, and every type is derived from a Builtin *)
Definition complete (st : store) : Prop := forall i d, nth_error st i = Some d ->
  (exists b, ancestor st (TPtr i) (TB b)) /\ forall u, In u (uses d) -> known st u.
(* no type refers to itself, even indirectly: h ranks them *)
Definition ranked (h : nat -> nat) (st : store) : Prop := forall i d j, nth_error st i = Some d -> In (TPtr j) (uses d) -> h j < h i.

(* all but _self, what IgnoreTypes and the like leave out, and what is not allowed *)
Definition picked (ft : option (xname -> bool)) (allow : option (list xname)) (n : xname) : Prop :=
  nlocal n <> "_self" /\ (forall f, ft = Some f -> f n = false) /\ forall ns, allow = Some ns -> In n ns.
(* a simple type that adds nothing to its Builtin *)
Definition plain (s : sdef) (b : Z) : Prop :=
  sd_list s = false /\ sd_union s = [] /\ non_trivial b = false /\ sd_enum s = [] /\ sd_pattern s = None /\ sd_maxlen s = 0%Z /\ sd_minlen s = 0%Z.
Section Keep.
  Variable fa : option (attribute -> bool).
  (* what may become of a reference: it stays, or it is replaced by a Builtin or a simple type that
     it is derived from; only plain simple types are replaced, and complex types that have no attributes
     and do have text: of a simple type, or of a Builtin other than anyType *)
  Definition kept (st : store) (u u' : ty) : Prop := u' = u \/
    ancestor st u u' /\ is_complex st u' = false /\
    (forall j s, u = TPtr j -> nth_error st j = Some (DS s) -> exists b, u' = TB b /\ plain s b) /\
    (forall j c, u = TPtr j -> nth_error st j = Some (DC c) -> (forall a, In a (ct_attrs c) -> filtered fa a = true) /\
       ((exists b, ancestor st u (TB b) /\ b <> 0%Z) \/ exists k s, nth_error st k = Some (DS s) /\ ancestor st u (TPtr k))).
  (* definitions before and after *)
  Definition flattened (st : store) (d d' : def) : Prop :=
    match d, d' with
    | DC c, DC c' =>
        kept st (ct_base c) (ct_base c') /\
        Forall2 (fun e e' => kept st (el_type e) (el_type e') /\ e' = retype_el e (el_type e')) (ct_elems c) (ct_elems c') /\
        Forall2 (fun a a' => kept st (at_type a) (at_type a') /\ a' = retype_at a (at_type a')) (ct_attrs c) (ct_attrs c') /\
        ct_name c' = ct_name c /\ ct_doc c' = ct_doc c /\ ct_anon c' = ct_anon c /\ ct_mixed c' = ct_mixed c /\ ct_abstract c' = ct_abstract c /\ ct_extends c' = ct_extends c
    | DS s, DS s' =>
        (sd_base s' = sd_base s \/ exists b, sd_base s' = TB b) /\
        s' = mkSdef (sd_name s) (sd_base s') (sd_union s) (sd_list s) (sd_anon s) (sd_doc s') (sd_enum s) (sd_pattern s) (sd_len s) (sd_minlen s) (sd_maxlen s) (sd_rdoc s)
    | _, _ => False
    end.
End Keep.
(* a type of this name is in the list *)
Definition listed (st : store) (l : list ty) (u : ty) : Prop := exists w, In w l /\ type_name st w = type_name st u.
(* code can be generated for t, with types from l alone: a simple type has a Builtin as base; the
   fields of a complex type, inherited ones included, have types in l, and so does its text *)
Definition ready (st : store) (l : list ty) (t : ty) : Prop := forall j, ancestor st t (TPtr j) ->
  match nth_error st j with
  | Some (DS s) => exists b, sd_base s = TB b
  | Some (DC c) =>
      (forall u, In u (map el_type (ct_elems c) ++ map at_type (ct_attrs c))%list -> listed st l u /\
         forall k s b, u = TPtr k -> nth_error st k = Some (DS s) -> ancestor st u (TB b) -> ~ plain s b) /\
      (ct_mixed c = true -> listed st l (ct_base c))
  | None => False
  end.
(* the documentation of a simple type: its own, or what the type adds to its Builtin *)
Definition documented (s : sdef) (b : Z) (d : string) : Prop :=
  if (sd_list s || match sd_union s with [] => false | _ => true end || non_trivial b)%bool then d = sd_doc s
  else if negb (match sd_enum s with [] => true | _ => false end) then d = "May be one of " ++ String.concat ", " (sd_enum s)
  else match sd_pattern s with
       | Some p => d = "Must match the pattern " ++ p
       | None => if negb (sd_maxlen s =? 0)%Z then d = "May be no more than " ++ Decimal.dec (sd_maxlen s) ++ " items long"
                 else if negb (sd_minlen s =? 0)%Z then d = "Must be at least " ++ Decimal.dec (sd_minlen s) ++ " items long"
                 else d = sd_doc s
       end.
