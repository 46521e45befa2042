(* Vocabulary for type graphs. *)
From Coq Require Import Permutation.
From Verif Require Import Base ScopeModel TreeModel BuiltinModel XsdModel TypesModel.
Local Open Scope string_scope.

(* all references in a definition *)
Definition refs (d : def) : list ty :=
  match d with
  | DC c => ct_base c :: (map el_type (ct_elems c) ++ map at_type (ct_attrs c))%list
  | DS s => sd_base s :: sd_union s
  end.
Definition raw (d : def) : Prop := forall i, ~ In (TPtr i) (refs d).
Definition linkfree (d : def) : Prop := forall n, ~ In (TLink n) (refs d).

(* a reference and what became of it *)
Inductive points (tgt : xname -> ty -> Prop) : ty -> ty -> Prop :=
| pt_link n t : tgt n t -> points tgt (TLink n) t
| pt_nil : points tgt TNil TNil
| pt_builtin b : points tgt (TB b) (TB b)
| pt_ptr i : points tgt (TPtr i) (TPtr i).

Definition retype_el (e : element) (t : ty) : element :=
  mkElement (el_doc e) (el_name e) (el_wild e) t (el_abstract e) (el_plural e) (el_optional e) (el_nillable e) (el_default e) (el_attr e) (el_scope e).
Definition retype_at (a : attribute) (t : ty) : attribute :=
  mkAttribute (at_name a) (at_doc a) t (at_default a) (at_optional a) (at_attr a) (at_scope a).
(* d' is d with its references replaced; only Mixed may differ otherwise *)
Definition resolved (tgt : xname -> ty -> Prop) (d d' : def) : Prop :=
  match d, d' with
  | DC c, DC c' =>
      points tgt (ct_base c) (ct_base c') /\
      Forall2 (fun e e' => points tgt (el_type e) (el_type e') /\ e' = retype_el e (el_type e')) (ct_elems c) (ct_elems c') /\
      Forall2 (fun a a' => points tgt (at_type a) (at_type a') /\ a' = retype_at a (at_type a')) (ct_attrs c) (ct_attrs c') /\
      ct_name c' = ct_name c /\ ct_doc c' = ct_doc c /\ ct_anon c' = ct_anon c /\ ct_abstract c' = ct_abstract c /\ ct_extends c' = ct_extends c
  | DS s, DS s' =>
      points tgt (sd_base s) (sd_base s') /\ Forall2 (points tgt) (sd_union s) (sd_union s') /\
      s' = mkSdef (sd_name s) (sd_base s') (sd_union s') (sd_list s) (sd_anon s) (sd_doc s) (sd_enum s) (sd_pattern s) (sd_len s)
             (sd_minlen s) (sd_maxlen s) (sd_rdoc s)
  | _, _ => False
  end.

(* the entries of all schemas right after reading *)
Definition initial (l : list rd) : store * list (string * types) := alloc_all [] [] l.
Definition entries (l : list rd) : list (xname * ty) := flat_map snd (snd (initial l)).
(* a type of some schema is called n *)
Definition called (l : list rd) (n : xname) (t : ty) : Prop :=
  (exists k, In (k, t) (entries l)) /\ type_name (fst (initial l)) t = Some n.
(* the types that the reference n may be replaced by: a built-in if n names one, else a type
   called n in any schema, else a type registered under the key n *)
Definition target (l : list rd) (final : list (string * types)) (n : xname) (t : ty) : Prop :=
  match parse_builtin n with
  | Some b => t = TB b
  | None => called l n t \/
            ((forall u, ~ called l n u) /\ exists ns own, sget ns final = Some own /\ lookup n own = Some t)
  end.
Definition any_order (ord : nat -> list (xname * ty) -> list (xname * ty)) : Prop := forall k l, Permutation l (ord k l).

(* following Base *)
Inductive chain (st : store) : ty -> nat -> Prop :=
| ch_end t : base_of st t = TNil -> chain st t 0
| ch_step t n : base_of st t <> TNil -> chain st (base_of st t) n -> chain st t (S n).
Inductive ancestor (st : store) : ty -> ty -> Prop :=
| an_self t : ancestor st t t
| an_base t u : base_of st t <> TNil -> ancestor st (base_of st t) u -> ancestor st t u.

(* st0 holds the declared Mixed attributes, st the resolved bases *)
Inductive mixed_rule (st0 st : store) : nat -> Prop :=
| mr_declared i c : nth_error st0 i = Some (DC c) -> ct_mixed c = true -> mixed_rule st0 st i
| mr_any i c : nth_error st i = Some (DC c) -> ct_extends c = true -> ct_base c = TB 0 -> mixed_rule st0 st i
| mr_complex i c j c' : nth_error st i = Some (DC c) -> ct_extends c = true -> ct_base c = TPtr j -> nth_error st j = Some (DC c') ->
    mixed_rule st0 st j -> mixed_rule st0 st i
| mr_simple i c j s : nth_error st i = Some (DC c) -> ct_base c = TPtr j -> nth_error st j = Some (DS s) -> mixed_rule st0 st i.
Definition is_mixed (st : store) (i : nat) : Prop := exists c, nth_error st i = Some (DC c) /\ ct_mixed c = true.

(* what `read` yields: definitions that refer by name only *)
Definition raw_rds (l : list rd) : Prop := forall r n d, In r l -> In (n, d) (rd_types r) -> raw d.
(* every type is registered under its own name, in the namespace of its schema *)
Definition keyed (l : list rd) : Prop := forall r n d, In r l -> In (n, d) (rd_types r) -> def_name d = n /\ nspace n = rd_tns r.
Definition unique_names (l : list rd) : Prop := forall n t u, called l n t -> called l n u -> t = u.
(* no inheritance chain is longer than propagateMixedAttr follows *)
Definition shallow (st : store) (es : list (xname * ty)) : Prop := forall n t, In (n, t) es -> exists k, chain st t k /\ k <= max_depth.
(* a reference that nothing can resolve *)
Definition dangling (l : list rd) (n : xname) : Prop := parse_builtin n = None /\ forall t, ~ called l n t.
