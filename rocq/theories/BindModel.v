(* Model of what encoding/xml does with values of the generated types, on trees of names, attributes and
   text: typeinfo.go (getTypeInfo, structFieldInfo, addFieldInfo), marshal.go (marshalValue, marshalAttr,
   marshalStruct) and read.go (unmarshal, unmarshalAttr, unmarshalPath) of the Go library, as far as the tags
   of genComplexType (xsdgen/xsdgen.go:600-767) need it, and the methods MarshalXML and UnmarshalXML that
   genComplexTypeMethods writes (xsdgen/xsdgen.go:798-866): they marshal a struct that embeds the value and
   has pointers to helper types over some of its fields. Values are addressable, i.e. a pointer is handed
   to Marshal. Values that are not structs, and how they are written and read, are arbitrary. *)
From Verif Require Import Base ScopeModel TreeModel EqualModel BuiltinModel XsdModel TypesModel GenModel SgModel SgStruct SgTags.
Local Open Scope string_scope.

Inductive mode := MElem | MAttr | MText | MAny.
Definition mode_eqb (a b : mode) : bool :=
  match a, b with MElem, MElem | MAttr, MAttr | MText, MText | MAny, MAny => true | _, _ => false end.
(* typeinfo.go, fieldInfo: the field it stands for, how deep it is embedded, what its tag says, the type
   it is marshaled as and whether that is a pointer *)
Record finfo := mkInfo { fi_idx : nat; fi_depth : nat; fi_mode : mode; fi_ns : string; fi_name : string; fi_omit : bool; fi_type : gexpr; fi_ptr : bool }.

(* the tag xml:"...", with nothing in it that would have to be quoted *)
Definition unquotable (s : string) : bool := (s_in """" s || s_in "\" s || s_in "010" s)%bool.
Definition content_of (tag : string) : option string :=
  if String.prefix "xml:""" tag then
    match s_rev (s_drop 5 tag) with String """" r => if unquotable (s_rev r) then None else Some (s_rev r) | _ => None end
  else None.
(* structFieldInfo; None: an error, or a case that the generated types do not have *)
Definition info_of (idx depth : nat) (name tag : string) (e : gexpr) (ptr : bool) : option finfo :=
  if String.eqb name "XMLName" then None else
  match content_of tag with
  | None => None
  | Some content =>
      match tag_of content with
      | (_, []) => None
      | (ns, local :: flags) =>
          if s_in ">" local then None else
          let omit := mem_str "omitempty" flags in
          let fname := if String.eqb local "" then name else local in
          match filter (fun f => negb (String.eqb f "omitempty")) flags with
          | [] => if (String.eqb local "" && negb (String.eqb ns ""))%bool then None else Some (mkInfo idx depth MElem ns fname omit e ptr)
          | ["attr"] => if (String.eqb local "" && negb (String.eqb ns ""))%bool then None else Some (mkInfo idx depth MAttr ns fname omit e ptr)
          | ["chardata"] => if (negb (String.eqb local "") || negb (String.eqb ns "") || omit)%bool then None else Some (mkInfo idx depth MText ns fname false e ptr)
          | ["any"] => if (negb (String.eqb local "") || negb (String.eqb ns ""))%bool then None else Some (mkInfo idx depth MAny ns fname omit e ptr)
          | _ => None
          end
      end
  end.
(* addFieldInfo *)
Definition clash (a b : finfo) : bool :=
  (mode_eqb (fi_mode a) (fi_mode b) && String.eqb (fi_name a) (fi_name b) && String.eqb (fi_ns a) (fi_ns b))%bool.
Definition add_info (l : list finfo) (f : finfo) : option (list finfo) :=
  let old := filter (clash f) l in
  if existsb (fun o => Nat.ltb (fi_depth o) (fi_depth f)) old then Some l
  else if existsb (fun o => Nat.eqb (fi_depth o) (fi_depth f)) old then None
  else Some (filter (fun o => negb (clash f o)) l ++ [f])%list.

Fixpoint find_field (name : string) (i : nat) (fs : list sfield) : option nat :=
  match fs with [] => None | f :: fs' => if String.eqb (sf_name f) name then Some i else find_field name (S i) fs' end.
(* a type as it is written in the overlay *)
Fixpoint text_expr (s : string) : gexpr :=
  match s with String "[" (String "]" s') => EArr (text_expr s') | _ => EId s end.
Section Info.
  (* whether a Go identifier is exported *)
  Variable exported : string -> bool.
  (* getTypeInfo on the fields of a struct; those that are not exported are skipped *)
  Fixpoint field_infos (depth i : nat) (fs : list sfield) (l : list finfo) : option (list finfo) :=
    match fs with
    | [] => Some l
    | f :: fs' =>
        if exported (sf_name f) then
          match info_of i depth (sf_name f) (sf_tag f) (sf_expr f) false with
          | None => None
          | Some x => match add_info l x with None => None | Some l => field_infos depth (S i) fs' l end
          end
        else field_infos depth (S i) fs' l
    end.
  Definition override_info (fs : list sfield) (l : list finfo) (o : override) : option (list finfo) :=
    if exported (ov_field o) then
      match find_field (ov_field o) 0 fs with
      | None => None
      | Some i => match info_of i 1 (ov_field o) (ov_tag o) (text_expr (ov_to o)) true with
                  | None => None
                  | Some x => add_info l x
                  end
      end
    else Some l.
  (* the struct itself, or the overlay *)
  Definition infos (fs : list sfield) (os : list override) : option (list finfo) :=
    match os with
    | [] => field_infos 1 0 fs []
    | _ => match field_infos 2 0 fs [] with None => None | Some l => foldo (override_info fs) l os end
    end.
  (* xsdgen.go:832-841: MarshalXML has overlays only for the types with helpers *)
  Definition marshal_info (s : spec) : option (list finfo) :=
    match sp_struct s with Some fs => infos fs (filter (fun o => non_trivial_ty (ov_type o)) (sp_overrides s)) | None => None end.
  Definition unmarshal_info (s : spec) : option (list finfo) :=
    match sp_struct s with Some fs => infos fs (sp_overrides s) | None => None end.
End Info.

(* ---------- documents ---------- *)
Inductive node := NText (s : string) | NElem (n : xname) (a : list xattr) (kids : list node).
Definition texts (l : list node) : string := fold_right (fun n r => match n with NText s => s ++ r | NElem _ _ _ => r end) "" l.
Definition is_attr (i : finfo) : bool := mode_eqb (fi_mode i) MAttr.
Definition is_text (i : finfo) : bool := mode_eqb (fi_mode i) MText.
Definition is_any (i : finfo) : bool := mode_eqb (fi_mode i) MAny.
Definition is_elem (i : finfo) : bool := (mode_eqb (fi_mode i) MElem || mode_eqb (fi_mode i) MAny)%bool.
Definition item (e : gexpr) : gexpr := match e with EArr e => e | e => e end.

Section Bind.
  Variable exported : string -> bool.
  (* the structs among the declared types *)
  Variable structs : string -> option spec.
  (* values of all other types; the types are given by their text *)
  Variable Leaf : Type.
  Variable print : string -> Leaf -> string.
  (* the value before, which methods may look at *)
  Variable read : string -> Leaf -> string -> option Leaf.
  Variable zero_leaf : string -> Leaf.
  (* marshal.go, isEmptyValue *)
  Variable is_empty : string -> Leaf -> bool.

  Inductive val := VLeaf (x : Leaf) | VStruct (l : list val) | VSlice (l : list val).
  Definition struct_of (e : gexpr) : option spec := match e with EId n => structs n | EArr _ => None end.
  (* slices of bytes are not taken apart *)
  Definition leaf (e : gexpr) : bool :=
    match e with EId n => match structs n with Some _ => false | None => true end | EArr (EId n) => String.eqb n "byte" | EArr _ => false end.
  (* the zero value of a type *)
  Variable zero : gexpr -> val.

  (* ---------- marshal.go ---------- *)
  Definition empty (e : gexpr) (v : val) : bool := match v with VLeaf x => is_empty (expr_text e) x | VSlice [] => true | _ => false end.
  Definition omitted (i : finfo) (v : val) : bool := (fi_omit i && negb (fi_ptr i) && empty (fi_type i) v)%bool.
  Fixpoint attr_texts (v : val) (e : gexpr) : list string :=
    match v with VLeaf x => [print (expr_text e) x] | VSlice l => flat_map (fun w => attr_texts w (item e)) l | VStruct _ => [] end.
  Definition info_name (i : finfo) : xname := mkName (fi_ns i) (fi_name i).
  Definition attr_block (vs : list val) (i : finfo) : list xattr :=
    if is_attr i then
      match nth_error vs (fi_idx i) with
      | Some v => if omitted i v then [] else map (mkAttr (info_name i)) (attr_texts v (fi_type i))
      | None => []
      end
    else [].
  Definition kid_block (vs : list val) (ms : list (xname -> gexpr -> list node)) (i : finfo) : list node :=
    match fi_mode i, nth_error vs (fi_idx i), nth_error ms (fi_idx i) with
    | MText, Some (VLeaf x), _ => [NText (print (expr_text (fi_type i)) x)]
    | MElem, Some v, Some m | MAny, Some v, Some m => if omitted i v then [] else m (info_name i) (fi_type i)
    | _, _, _ => []
    end.
  Fixpoint marshal (v : val) (name : xname) (e : gexpr) {struct v} : list node :=
    match v with
    | VLeaf x => [NElem name [] [NText (print (expr_text e) x)]]
    | VSlice l => flat_map (fun w => marshal w name (item e)) l
    | VStruct l =>
        match struct_of e with
        | None => []
        | Some s => match marshal_info exported s with
                    | None => []
                    | Some is => let ms := map marshal l in [NElem name (flat_map (attr_block l) is) (flat_map (kid_block l ms) is)]
                    end
        end
    end.

  (* ---------- read.go ---------- *)
  Definition matches (n : xname) (i : finfo) : bool :=
    (String.eqb (fi_name i) (nlocal n) && (String.eqb (fi_ns i) "" || String.eqb (fi_ns i) (nspace n)))%bool.
  Definition update (vs : list val) (j : nat) (f : val -> option val) : option (list val) :=
    match nth_error vs j with Some w => match f w with Some w' => Some (set_nth j w' vs) | None => None end | None => None end.
  Definition leaf_into (e : gexpr) (old : val) (s : string) : option val :=
    match old with VLeaf x => option_map VLeaf (read (expr_text e) x s) | _ => None end.
  (* each item of a slice is appended to it *)
  Fixpoint into (rd : gexpr -> val -> option val) (e : gexpr) (old : val) : option val :=
    if leaf e then rd e old else
    match e with
    | EArr e' => match old with VSlice l => option_map (fun w => VSlice (l ++ [w])) (into rd e' (zero e')) | _ => None end
    | EId _ => rd e old
    end.
  (* unmarshalAttr *)
  Definition attr_into (s : string) : gexpr -> val -> option val :=
    into (fun e old => match struct_of e with Some _ => None | None => leaf_into e old s end).
  Definition step_attr (is : list finfo) (vs : list val) (a : xattr) : option (list val) :=
    foldo (fun vs i => if (is_attr i && matches (aname a) i)%bool then update vs (fi_idx i) (attr_into (avalue a) (fi_type i)) else Some vs) vs is.
  (* unmarshalPath, then the first wildcard *)
  Definition target (is : list finfo) (n : xname) : option finfo :=
    match find (fun i => (is_elem i && matches n i)%bool) is with Some i => Some i | None => find is_any is end.
  Definition step_kid (is : list finfo) (vs : list val) (ku : node * (gexpr -> val -> option val)) : option (list val) :=
    match fst ku with
    | NText _ => Some vs
    | NElem n _ _ => match target is n with Some i => update vs (fi_idx i) (snd ku (fi_type i)) | None => Some vs end
    end.
  Definition step_text (is : list finfo) (data : string) (vs : list val) : option (list val) :=
    match find is_text is with Some i => update vs (fi_idx i) (fun w => leaf_into (fi_type i) w data) | None => Some vs end.
  (* the value it is read into, and the value then *)
  Fixpoint unmarshal (n : node) (e : gexpr) (old : val) {struct n} : option val :=
    match n with
    | NText _ => None
    | NElem _ attrs kids =>
        let us := map unmarshal kids in
        into (fun e old =>
          match struct_of e with
          | None => leaf_into e old (texts kids)
          | Some s =>
              match unmarshal_info exported s, old with
              | Some is, VStruct vs =>
                  match foldo (step_attr is) vs attrs with
                  | None => None
                  | Some vs => match foldo (step_kid is) vs (combine kids us) with
                               | None => None
                               | Some vs => option_map VStruct (step_text is (texts kids) vs)
                               end
                  end
              | _, _ => None
              end
          end) e old
    end.
End Bind.
