(* Vocabulary for schema documents: which elements a search returns, the values of occurrence
   and boolean attributes, what a merged declaration looks like. *)
From Coq Require Import Sorted.
From Verif Require Import Base ScopeModel TreeModel TreeSpec EqualModel EqualSpec Decimal BuiltinModel XsdModel.
Local Open Scope string_scope.

(* es are the proper descendants of root named {schema namespace}local, in document order *)
Definition lists (root : elem) (local : string) (es : list elem) : Prop :=
  exists ps, StronglySorted doc_before ps /\
    (forall p, In p ps <-> exists e, descendant root p e /\ e_name e = mkName schemaNS local) /\
    Forall2 (fun p e => sub root p = Some e) ps es.

(* the integer an occurrence attribute stands for; surrounding white space is irrelevant *)
Inductive occurs : string -> Z -> Prop :=
| oc_absent s : same_text s "" -> occurs s 0
| oc_unbounded s : same_text s "unbounded" -> occurs s (-1)
| oc_int s t z : same_text s t -> int_literal t z -> (- 2 ^ 63 <= z < 2 ^ 63)%Z -> occurs s z.

Inductive boolean : string -> bool -> Prop :=
| bo_absent : boolean "" false
| bo_0 : boolean "0" false
| bo_false : boolean "false" false
| bo_1 : boolean "1" true
| bo_true : boolean "true" true.

(* plural: more than one occurrence is demanded or allowed *)
Inductive plural : string -> string -> bool -> Prop :=
| pl_min mn mx lo : occurs mn lo -> (1 < lo)%Z -> plural mn mx true
| pl_many mn mx lo hi : occurs mn lo -> (lo <= 1)%Z -> occurs mx hi -> (hi < 0 \/ 1 < hi)%Z -> plural mn mx true
| pl_one mn mx lo hi : occurs mn lo -> (lo <= 1)%Z -> occurs mx hi -> (0 <= hi <= 1)%Z -> plural mn mx false.

(* the first occurrences in a list *)
Inductive firsts {A} : list A -> list A -> Prop :=
| fi_nil : firsts [] []
| fi_new l r a : firsts l r -> ~ In a l -> firsts (l ++ [a])%list (r ++ [a])%list
| fi_old l r a : firsts l r -> In a l -> firsts (l ++ [a])%list r.

(* the texts from the first that is not empty *)
Fixpoint from_text (l : list string) : list string := match l with "" :: l' => from_text l' | _ => l end.
(* m is what a group of declarations of the same element, first one first, merges to *)
Record merges (g : list element) (m : element) : Prop := {
  mg_first : exists e g', g = e :: g' /\ el_name m = el_name e /\ el_type m = el_type e /\ el_wild m = el_wild e /\
               el_attr m = el_attr e /\ el_scope m = el_scope e;
  mg_plural : el_plural m = true <-> exists e, In e g /\ el_plural e = true;
  mg_optional : el_optional m = true <-> exists e, In e g /\ el_optional e = true;
  mg_nillable : el_nillable m = true <-> exists e, In e g /\ el_nillable e = true;
  mg_abstract : el_abstract m = true <-> forall e, In e g -> el_abstract e = true;
  mg_default : forall d, d <> "" -> (el_default m = d <-> forall e, In e g -> el_default e = d);
  mg_doc : el_doc m = String.concat nl (from_text (map el_doc g)) }.

(* es are the children of root in the schema namespace *)
Definition schema_children (root : elem) (es : list elem) : Prop :=
  es = filter (fun e => String.eqb (nspace (e_name e)) schemaNS) (e_children root).
(* all of l are annotations *)
Definition annotations (l : list elem) : Prop := forall e, In e l -> nlocal (e_name e) = "annotation".
(* besides annotations, x is the only schema child of root *)
Definition only_child (root x : elem) : Prop := exists l1 l2, annotations l1 /\ annotations l2 /\ schema_children root (l1 ++ x :: l2)%list.
(* a complexType deriving by the extension or restriction d of its complexContent *)
Definition derives (root d : elem) : Prop := exists cc, only_child root cc /\ nlocal (e_name cc) = "complexContent" /\
  only_child cc d /\ (nlocal (e_name d) = "extension" \/ nlocal (e_name d) = "restriction").

(* facets of a restriction: the schema children with the given local name *)
Definition facets (root : elem) (local : string) : list elem :=
  filter (fun e => String.eqb (nlocal (e_name e)) local) (filter (fun e => String.eqb (nspace (e_name e)) schemaNS) (e_children root)).
Definition value (e : elem) : string := attr e "" "value".
(* the integer given by the last facet of that name, 0 if there is none *)
Definition last_int (fs : list elem) (z : Z) : Prop :=
  match rev fs with [] => z = 0%Z | f :: _ => occurs (value f) z end.
(* patterns joined by "|" *)
Fixpoint alternation (vs : list string) : string :=
  match vs with [] => "" | [v] => v | v :: vs' => v ++ "|" ++ alternation vs' end.

(* bound facets *)
Definition is_min (e : elem) : bool := (String.eqb (nlocal (e_name e)) "minExclusive" || String.eqb (nlocal (e_name e)) "minInclusive")%bool.
Definition is_max (e : elem) : bool := (String.eqb (nlocal (e_name e)) "maxExclusive" || String.eqb (nlocal (e_name e)) "maxInclusive")%bool.
(* declarations of the element n *)
Definition same_name (n : xname) (e : element) : bool := xname_eqb (el_name e) n.
