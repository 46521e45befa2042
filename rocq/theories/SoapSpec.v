(* What HandleSOAPArrayType makes of a type, in terms of the types themselves. *)
From Verif Require Import Base ScopeModel TreeModel EqualModel EqualSpec EqualProofs BuiltinModel XsdModel TypesModel TypesSpec.
Local Open Scope string_scope.

Definition named (a : attribute) (s : string) : Prop := nlocal (at_name a) = s.
(* the local part of the item type: without white space around it and without one pair of brackets *)
Definition item_local (s l : string) : Prop := exists u m v, blank u /\ blank v /\ s = u ++ m ++ v /\
  irr white m /\ irr (map s_rev white) (s_rev m) /\ (m = l ++ "[]" \/ (m = l /\ forall x, m <> x ++ "[]")).
(* among the attributes of c, a is the first called arrayType, it carries wsdl:arrayType, and that
   names the item type n *)
Record soap_arr (c : complexT) (pre : list attribute) (a : attribute) (post : list attribute) (n : xname) : Prop := {
  sa_attrs : ct_attrs c = (pre ++ a :: post)%list;
  sa_first : forall x, In x pre -> ~ named x "arrayType";
  sa_array : named a "arrayType";
  sa_item : exists p v q, at_attr a = (p ++ mkAttr (mkName "http://schemas.xmlsoap.org/wsdl/" "arrayType") v :: q)%list /\
    (forall x, In x p -> aname x <> mkName "http://schemas.xmlsoap.org/wsdl/" "arrayType") /\
    nlocal (resolve (at_scope a) v) <> "" /\ nspace n = nspace (resolve (at_scope a) v) /\ item_local (nlocal (resolve (at_scope a) v)) (nlocal n) }.
(* the type b is called n and is one of es or one of these is derived from it *)
Definition found (st : store) (es : list (xname * ty)) (n : xname) (b : ty) : Prop :=
  type_name st b = Some n /\ exists k t, In (k, t) es /\ ancestor st t b.
(* w is the first wildcard of the first of t, its base, and so on, that has one; up to the first that is not complex *)
Inductive wildcard (st : store) : ty -> element -> Prop :=
| wc_own i c p w q : nth_error st i = Some (DC c) -> ct_base c <> TNil -> ct_elems c = (p ++ w :: q)%list -> el_wild w = true ->
    (forall x, In x p -> el_wild x = false) -> wildcard st (TPtr i) w
| wc_base i c w : nth_error st i = Some (DC c) -> (forall x, In x (ct_elems c) -> el_wild x = false) -> wildcard st (ct_base c) w -> wildcard st (TPtr i) w.
Definition item (w : element) (b : ty) : element :=
  mkElement (el_doc w) (el_name w) (el_wild w) b (el_abstract w) (el_plural w) (el_optional w) (el_nillable w) (el_default w) (el_attr w) (el_scope w).
(* the item element takes the place of the wildcards, or comes last if there are none *)
Definition takes_place (e : element) (l l' : list element) : Prop :=
  ((exists x, In x l /\ el_wild x = true) /\ Forall2 (fun x y => (el_wild x = true -> y = e) /\ (el_wild x = false -> y = x)) l l') \/
  ((forall x, In x l -> el_wild x = false) /\ l' = (l ++ [e])%list).
(* the elements of the array type i *)
Definition items (st : store) (es : list (xname * ty)) (i : nat) (n : xname) (l l' : list element) : Prop :=
  (exists b w, found st es n b /\ wildcard st (TPtr i) w /\ takes_place (item w b) l l') \/
  ((~ (exists b, found st es n b) \/ ~ (exists w, wildcard st (TPtr i) w)) /\ l' = l).
Definition array_type (c : complexT) (els : list element) (pre : list attribute) (base : ty) : complexT :=
  mkComplex (ct_doc c) (ct_name c) base (ct_anon c) els pre (ct_abstract c) (ct_extends c) (ct_mixed c).
(* those not called arrayType *)
Inductive without_array : list attribute -> list attribute -> Prop :=
| wa_nil : without_array [] []
| wa_skip a l m : named a "arrayType" -> without_array l m -> without_array (a :: l) m
| wa_keep a l m : ~ named a "arrayType" -> without_array l m -> without_array (a :: l) (a :: m).
