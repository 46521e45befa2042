(* References: what flattenRef should do, on trees. *)
From Verif Require Import Base ScopeModel TreeModel TreeSpec BuiltinModel XsdModel NormModel NormSpec.
Local Open Scope string_scope.

(* an element and everything below it, in document order *)
Fixpoint subs (e : elem) : list elem :=
  let '(Elem _ _ _ _ ks) := e in e :: flat_map subs ks.
(* the name under which references find an element: its resolved name attribute, and its own name *)
Definition key_of (tns : string) (d : elem) : option (xname * xname) :=
  if String.eqb (attr d "" "name") "" then None else Some (resolve_default (e_scope d) (attr d "" "name") tns, e_name d).
(* everything below the roots, in document order *)
Definition entries (es : list elem) : list (option (xname * xname) * elem) :=
  flat_map (fun e => map (fun d => (key_of (attr e "" "targetNamespace") d, d)) (flat_map subs (e_children e))) es.
(* the definition a key refers to: the last one *)
Definition target_at (es : list elem) (k : xname * xname) (t : nat) (d : elem) : Prop :=
  nth_error (entries es) t = Some (Some k, d) /\ forall t' d', t < t' -> nth_error (entries es) t' <> Some (Some k, d').
Definition has_ref (e : elem) : Prop := attr e "" "ref" <> "".
Definition ref_key (e : elem) : xname * xname := (resolve (e_scope e) (attr e "" "ref"), e_name e).

(* the element that takes the place of a reference r to d *)
Definition the_ref : xname := mkName "" "ref".
Definition reworded (r d : elem) (a : xattr) : xattr :=
  if xname_eqb (aname a) (mkName "" "type") then mkAttr (aname a) (prefix (e_scope r) (resolve (e_scope d) (avalue a))) else a.
Definition overriding (r : elem) : list xattr := filter (fun b => negb (xname_eqb (aname b) the_ref)) (e_attrs r).
Definition defined (r d : elem) : list xattr := map (reworded r d) (e_attrs d).
Definition named_in (l : list xattr) (n : xname) : bool := existsb (fun a => xname_eqb (aname a) n) l.
Definition merged_attrs (r d : elem) : list xattr :=
  (map (fun a => match find (fun b => xname_eqb (aname b) (aname a)) (overriding r) with Some b => b | None => a end) (defined r d) ++
   filter (fun b => negb (named_in (defined r d) (aname b))) (overriding r))%list.
Definition merged (r d : elem) : elem :=
  Elem (e_name d) (merged_attrs r d) (match e_children d with [] => e_scope r | _ => join_scope (e_scope d) (e_scope r) end) (e_content d) (e_children d).
(* attribute names are unique, and none clashes with one in another namespace *)
Definition clear_names (r d : elem) : Prop :=
  NoDup (map aname (e_attrs r)) /\ NoDup (map aname (e_attrs d)) /\
  forall a b, In a (e_attrs r) -> In b (e_attrs r ++ e_attrs d)%list -> nlocal (aname b) = nlocal (aname a) -> nspace (aname a) = "" -> nspace (aname b) = "".
(* every reference replaced, all the way down *)
Inductive resolved (es : list elem) : elem -> elem -> Prop :=
| resolved_plain e ks : ~ has_ref e -> Forall2 (resolved es) (e_children e) ks -> resolved es e (with_children e ks)
| resolved_ref e t d ks : has_ref e -> target_at es (ref_key e) t d -> Forall2 (resolved es) (e_children d) ks -> resolved es e (with_children (merged e d) ks).
Definition resolved_root (es : list elem) (e e' : elem) : Prop := exists ks, Forall2 (resolved es) (e_children e) ks /\ e' = with_children e ks.
(* A definition that is referred to is no reference; if a child of it is one, the definition
   comes entirely before every reference to it. *)
Definition timely (es : list elem) : Prop :=
  forall i ke e t d, nth_error (entries es) i = Some (ke, e) -> has_ref e -> target_at es (ref_key e) t d ->
  ~ has_ref d /\ ((forall k, In k (e_children d) -> ~ has_ref k) \/ t + List.length (subs d) <= i).
Definition clear_refs (es : list elem) : Prop :=
  (forall ke e a, In (ke, e) (entries es) -> In a (e_attrs e) -> nlocal (aname a) = "ref" -> nspace (aname a) = "") /\
  forall ke e t d, In (ke, e) (entries es) -> has_ref e -> target_at es (ref_key e) t d -> clear_names e d.
