(* Values of the generated types, documents written and read back, structs whose fields are told apart. *)
From Verif Require Import Base ScopeModel TreeModel EqualModel BuiltinModel XsdModel TypesModel GenModel SgModel SgStruct SgTags BindModel.
Local Open Scope string_scope.

Section BindSpec.
  Variable exported : string -> bool.
  Variable structs : string -> option spec.
  Variable Leaf : Type.
  Variable zero_leaf : string -> Leaf.
  Notation val := (val Leaf).
  Notation leaf := (leaf structs).
  (* the type a field is marshaled as: that of the overlay, if there is one *)
  Definition as_type (s : spec) (f : sfield) : gexpr :=
    match find (fun o => String.eqb (ov_field o) (sf_name f)) (sp_overrides s) with Some o => text_expr (ov_to o) | None => sf_expr f end.
  (* the values to be written as a type; which they are for a type that is not a struct is arbitrary *)
  Variable good : string -> Leaf -> Prop.
  Inductive has_type : gexpr -> val -> Prop :=
  | ht_leaf e x : leaf e = true -> good (expr_text e) x -> has_type e (VLeaf _ x)
  | ht_slice e l : leaf (EArr e) = false -> Forall (has_type e) l -> has_type (EArr e) (VSlice _ l)
  | ht_struct n s fs l : structs n = Some s -> sp_struct s = Some fs -> Forall2 (fun f v => has_type (as_type s f) v) fs l -> has_type (EId n) (VStruct _ l).
  (* zero values *)
  Definition zero_ok (zero : gexpr -> val) : Prop :=
    (forall e, leaf e = true -> zero e = VLeaf _ (zero_leaf (expr_text e))) /\
    (forall e, leaf (EArr e) = false -> zero (EArr e) = VSlice _ []) /\
    (forall n s fs, structs n = Some s -> sp_struct s = Some fs -> zero (EId n) = VStruct _ (map (fun f => zero (sf_expr f)) fs)).

  (* what is read when the document has been written: an element without a name space gets that of the
     element around it (d), there are attributes that declare prefixes, text may be changed (clean). Where no
     text has been written there may be some, as between elements on lines of their own *)
  Variable declares : xattr -> bool.
  Variable clean : string -> string.
  Definition clean_attr (a : xattr) : xattr := mkAttr (aname a) (clean (avalue a)).
  Definition wire_space (d : string) (n : xname) : string := if String.eqb (nspace n) "" then d else nspace n.
  Definition is_element (k : node) : bool := match k with NElem _ _ _ => true | NText _ => false end.
  Definition elements (l : list node) : list node := filter is_element l.
  Inductive reads_back : string -> node -> node -> Prop :=
  | rb_elem d n a kids a' kids' : filter (fun x => negb (declares x)) a' = map clean_attr a -> Forall2 (reads_back (wire_space d n)) (elements kids) (elements kids') ->
      ((exists s, In (NText s) kids) -> texts kids' = clean (texts kids)) ->
      reads_back d (NElem n a kids) (NElem (mkName (wire_space d n) (nlocal n)) a' kids').

  (* ---------- structs whose fields are told apart ---------- *)
  Variable converts : string -> string -> Prop.
  (* a field of the type from that is marshaled as to *)
  Definition fits (from to : gexpr) : Prop :=
    if leaf from then leaf to = true /\ converts (expr_text from) (expr_text to) else to = from.
  Definition apart_names (i j : finfo) : Prop := fi_name i <> fi_name j \/ (fi_ns i <> "" /\ fi_ns j <> "" /\ fi_ns i <> fi_ns j).
  (* slices of slices are written as one sequence *)
  Definition shallow (e : gexpr) : Prop := match e with EArr (EArr e') => leaf e = true \/ leaf (EArr e') = true | _ => True end.
  Definition plain_attr (e : gexpr) : Prop := leaf e = true \/ exists e', e = EArr e' /\ leaf e' = true.
  (* is holds what marshaling uses of the fields, us what unmarshaling uses *)
  Record told_apart (as_t : sfield -> gexpr) (fs : list sfield) (is us : list finfo) : Prop := mkApart {
    ta_all : forall j f, nth_error fs j = Some f -> exists i, In i is /\ fi_idx i = j;
    ta_once : NoDup (map fi_idx is);
    ta_same : forall i, In i is -> exists u, In u us /\ fi_idx u = fi_idx i /\ fi_mode u = fi_mode i /\ fi_ns u = fi_ns i /\ fi_name u = fi_name i /\ fi_type u = fi_type i;
    ta_uonce : NoDup (map fi_idx us);
    ta_idx : forall u, In u us -> exists f, nth_error fs (fi_idx u) = Some f /\ fi_type u = as_t f /\ fits (sf_expr f) (fi_type u) /\ shallow (sf_expr f) /\
                                             (is_attr u = true -> plain_attr (sf_expr f)) /\ (is_text u = true -> leaf (sf_expr f) = true);
    ta_plain : forall i f, In i is -> fi_ptr i = false -> nth_error fs (fi_idx i) = Some f -> fi_type i = sf_expr f;
    ta_elems : forall u w, In u us -> In w us -> fi_idx u <> fi_idx w -> is_elem u = true -> is_elem w = true -> apart_names u w;
    ta_attrs : forall u w, In u us -> In w us -> fi_idx u <> fi_idx w -> is_attr u = true -> is_attr w = true -> apart_names u w;
    ta_text : forall u w, In u us -> In w us -> is_text u = true -> is_text w = true -> u = w;
    ta_decl : forall u a, In u us -> is_attr u = true -> declares a = true -> matches (aname a) u = false }.
  Definition bindable (s : spec) : Prop :=
    exists fs is us, sp_struct s = Some fs /\ marshal_info exported s = Some is /\ unmarshal_info exported s = Some us /\ told_apart (as_type s) fs is us.
End BindSpec.
