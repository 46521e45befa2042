(* When the names in a schema can be told apart, and how the helper types convert. *)
From Verif Require Import Base ScopeModel TreeModel EqualModel BuiltinModel XsdModel TypesModel GenModel SgModel SgStruct SgTags BindModel BindSpec.
Local Open Scope string_scope.

(* a type is marshaled as itself, dates, times and binary data as their helper types *)
Inductive marshaled_as : string -> string -> Prop :=
| ma_self t : marshaled_as t t
| ma_helper b g : non_trivial b = true -> builtin_expr b = Returns (Some g) -> marshaled_as (expr_text (of_gotype g)) (helper_name b).

(* the names under which elements and attributes are in documents *)
Definition el_key (e : element) : xname := if el_wild e then mkName "" (if el_plural e then "Items" else "Item") else el_name e.
Definition at_key (a : attribute) : xname := mkName (if qualified a then nspace (at_name a) else "") (nlocal (at_name a)).
Definition names_apart (n m : xname) : Prop := nlocal n <> nlocal m \/ (nspace n <> "" /\ nspace m <> "" /\ nspace n <> nspace m).
Definition all_apart (l : list xname) : Prop := forall i j n m, nth_error l i = Some n -> nth_error l j = Some m -> i <> j -> names_apart n m.
(* names that can be put into a tag *)
Definition tag_ok (n : xname) : Prop :=
  nlocal n <> "" /\ unquotable (nspace n) = false /\ unquotable (nlocal n) = false /\ s_in " " (nspace n) = false /\ s_in " " (nlocal n) = false /\ s_in "," (nlocal n) = false /\ s_in ">" (nlocal n) = false.

Section GenSpec.
  Variable public : xname -> string.
  Variable exported : string -> bool.
  Variable structs : string -> option spec.
  Variable declares : xattr -> bool.
  (* the attributes and elements of a type, and the fields of its struct *)
  Record clear_struct (st : store) (ats : list attribute) (els : list element) (fs : list sfield) : Prop := mkClear {
    cs_exported : forall f, In f fs -> exported (sf_name f) = true /\ sf_name f <> "XMLName";
    cs_names : NoDup (map sf_name fs);
    cs_etags : forall e, In e els -> el_wild e = false -> tag_ok (el_name e);
    cs_atags : forall a, In a ats -> tag_ok (at_name a);
    cs_elems : all_apart (map el_key els);
    cs_attrs : all_apart (map at_key ats);
    (* fields that are replaced while marshaling are not slices *)
    cs_over : forall e, In e els -> needs (el_type e) (el_default e) = true -> el_plural e = false /\ el_wild e = false;
    (* no slices of slices *)
    cs_shallow : forall f, In f fs -> shallow structs (sf_expr f);
    cs_plain : forall a x, In a ats -> expr_of public st (at_type a) = Ret x -> plain_attr structs x;
    cs_text : forall f, In f fs -> sf_tag f = quoted ",chardata" -> leaf structs (sf_expr f) = true;
    (* no attribute is taken for the declaration of a prefix *)
    cs_decl : forall a x, In a ats -> declares x = true -> nlocal (aname x) = nlocal (at_name a) ->
                qualified a = true /\ nspace (at_name a) <> "" /\ nspace (aname x) <> nspace (at_name a) }.

  (* every struct is generated by genComplexType from some complex type, and its names are clear *)
  Variable fa : option (attribute -> bool).
  Variable fe : option (element -> bool).
  Variable helpers : list Z.
  Definition generated_from (s : spec) (st : store) (i : nat) (c : complexT) : Prop :=
    exists st', gen_complex public fa fe helpers st i c = Ret (st', [s]) /\
      let (ats, els) := filter_fields fa fe (inherit st c) in forall fs, sp_struct s = Some fs -> clear_struct st' ats els fs.
  Definition all_generated : Prop := forall n s, structs n = Some s -> exists st i c, generated_from s st i c.
  (* the names of other types are not among those of the structs *)
  Definition names_free : Prop :=
    (forall n, String.prefix "[]" (public n) = false) /\ structs "time.Time" = None /\ forall b, non_trivial b = true -> structs (helper_name b) = None.
End GenSpec.

(* ---------- which elements a struct is written as ---------- *)
(* fields that are marshaled through a helper type *)
Definition replaced (e : element) : bool := non_trivial_ty (el_type e).
Section Times.
  Variable Leaf : Type.
  Variable is_empty : string -> Leaf -> bool.
  (* how often an element is written *)
  Definition times (e : element) (f : sfield) (v : val Leaf) : nat :=
    match v with
    | VSlice _ l => List.length l
    | VStruct _ _ => 1
    | VLeaf _ x => if (negb (el_wild e) && (el_nillable e || el_optional e) && negb (replaced e) && is_empty (expr_text (sf_expr f)) x)%bool then 0 else 1
    end.
  Definition block_of (efv : element * sfield * val Leaf) (b : list node) : Prop :=
    let '(e, f, v) := efv in Forall (fun k => exists a kids, k = NElem (el_key e) a kids) b /\ List.length b = times e f v.
  (* in the order of the schema, but replaced fields after all others *)
  Definition fields_last {A B} (l : list (element * A * B)) : list (element * A * B) :=
    (filter (fun x => negb (replaced (fst (fst x)))) l ++ filter (fun x => replaced (fst (fst x))) l)%list.
End Times.

(* ---------- what becomes of the parts of a document ---------- *)
(* a name in a document and one in a schema; without a name space the latter stands for all *)
Definition named (key n : xname) : bool := (String.eqb (nlocal key) (nlocal n) && (String.eqb (nspace key) "" || String.eqb (nspace key) (nspace n)))%bool.
(* an element belongs to the declaration of its name, else to the wildcard *)
Definition belongs (els : list element) (e : element) (k : node) : bool :=
  match k with
  | NElem n _ _ => (named (el_key e) n || (el_wild e && negb (existsb (fun e' => named (el_key e') n) els)))%bool
  | NText _ => false
  end.
(* what a field holds *)
Inductive slot := SText | SElem (e : element) | SAttr (a : attribute).
Section Decode.
  Variable exported : string -> bool.
  Variable structs : string -> option spec.
  Variable Leaf : Type.
  Variable read : string -> Leaf -> string -> option Leaf.
  Variable zero : gexpr -> val Leaf.
  (* the value of a field after reading, from its value before: nothing happens to it without elements or
     attributes of its own, else they are read into it one after the other *)
  Definition slot_value (els : list element) (attrs : list xattr) (kids : list node) (t : gexpr) (sl : slot) (old : val Leaf) : option (val Leaf) :=
    match sl with
    | SText => leaf_into Leaf read t old (texts kids)
    | SElem e => foldo (fun w k => unmarshal exported structs Leaf read zero k t w) old (filter (belongs els e) kids)
    | SAttr a => foldo (fun w x => attr_into structs Leaf read zero (avalue x) t w) old (filter (fun x => named (at_key a) (aname x)) attrs)
    end.
End Decode.
