(* What nameAnonymousTypes and copyEltNamesToAnonTypes decide at each element. *)
From Verif Require Import Base ScopeModel TreeModel TreeSpec BuiltinModel XsdModel NormModel NormOps NormSpec NormHoistSpec.
Local Open Scope string_scope.

(* an element or attribute with a name and an anonymous type *)
Definition copies (d : elem) : bool :=
  (xname_eqb (e_name d) (xs "element") || xname_eqb (e_name d) (xs "attribute")) && negb (String.eqb (attr d "" "name") "") && has_anon_el d.
(* the type takes the name of the element, unless that is in use *)
Definition copy_dec (tns : string) (d : elem) (used : list xname) : option (list (string * string) * (string * string)) * list xname :=
  let name := attr d "" "name" in
  let xn := resolve_default (e_scope d) name tns in
  if name_in xn used then (None, used) else (Some ([("name", name)], ("type", prefix (e_scope d) xn)), xn :: used).

(* the next number makes a name; the attribute that refers to it depends on the element *)
Definition name_dec (tns : string) (d : elem) (s : res nat) : option (list (string * string) * (string * string)) * res nat :=
  match s with
  | Done n =>
      if negb (String.eqb (nspace (e_name d)) schemaNS) then (None, s) else
      match updates (nlocal (e_name d)) with
      | None => (None, Fails)
      | Some (upd, accum) =>
          let q := prefix (e_scope d) (mkName tns (anon_name (S n))) in
          (Some ([("name", anon_name (S n)); ("_isAnonymous", "true")], (upd, if accum then attr d "" upd ++ " " ++ q else q)), Done (S n))
      end
  | _ => (None, s)
  end.
(* the names of the types there are *)
Definition named (d : elem) : bool := type_el d && negb (String.eqb (attr d "" "name") "").
Fixpoint searched (g : elem -> bool) (d : elem) : list elem :=
  let '(Elem _ _ _ _ ks) := d in ((if g d then [d] else []) ++ flat_map (searched g) ks)%list.
Definition used_names (e : elem) : list xname :=
  map (fun d => resolve_default (e_scope d) (attr d "" "name") (attr e "" "targetNamespace")) (flat_map (searched named) (e_children e)).

Definition copy_tree (e : elem) : elem := fst (hoist_root (list xname) copies (copy_dec (attr e "" "targetNamespace")) e (used_names e)).
Definition name_tree (e : elem) (n : nat) : elem * res nat := hoist_root (res nat) has_anon_el (name_dec (attr e "" "targetNamespace")) e (Done n).

(* ---------- what follows from it ---------- *)
Definition everywhere (P : elem -> Prop) (e : elem) : Prop := forall q d, sub e q = Some d -> P d.
(* elements of the schema that have an anonymous type *)
Definition holder (d : elem) : bool := has_anon_el d && String.eqb (nspace (e_name d)) schemaNS.
(* one that should not have *)
Definition unexpected (e : elem) : Prop := exists q d, sub e q = Some d /\ holder d = true /\ updates (nlocal (e_name d)) = None.
(* d says that its type, or one of its types, is n of the target namespace *)
Definition refers (tns : string) (n : string) (d : elem) : Prop := exists upd accum, updates (nlocal (e_name d)) = Some (upd, accum) /\ nspace (e_name d) = schemaNS /\
  let q := prefix (e_scope d) (mkName tns n) in attr d "" upd = q \/ accum = true /\ exists before, attr d "" upd = before ++ " " ++ q.
Definition referred (tns : string) (n : string) (l : list elem) : Prop := exists k q d, In k l /\ sub k q = Some d /\ refers tns n d.
Definition in_order (n : nat) (ts : list elem) : Prop := map (fun t => attr t "" "name") ts = map anon_name (seq (S n) (List.length ts)).
(* the name of a declaration in the target namespace *)
Definition full_name (tns : string) (d : elem) : xname := resolve_default (e_scope d) (attr d "" "name") tns.
(* d is declared with the type x *)
Definition typed_as (tns : string) (x : xname) (d : elem) : Prop :=
  (e_name d = xs "element" \/ e_name d = xs "attribute") /\ full_name tns d = x /\ attr d "" "type" = prefix (e_scope d) x.
(* Of the declarations of the schema itself, one that is selected comes before anything else that is. *)
Definition quiet (g : elem -> bool) (e : elem) : Prop := everywhere (fun d => g d = false) e.
Definition first_at_top (g : elem -> bool) (ks : list elem) : Prop := forall ks1 k ks2, ks = (ks1 ++ k :: ks2)%list -> g k = true -> Forall (quiet g) ks1.
(* es' are the results for es, one after the other, with a state *)
Fixpoint chain {St} (R : elem -> St -> elem -> St -> Prop) (es : list elem) (s : St) (es' : list elem) (s' : St) : Prop :=
  match es, es' with
  | [], [] => s' = s
  | e :: es, e' :: es' => exists s1, R e s e' s1 /\ chain R es s1 es' s'
  | _, _ => False
  end.
(* schemas for which it does not matter whether slices move when they grow *)
Definition copy_ready (fuel : nat) (e : elem) : Prop := height e <= fuel /\ Forall (tidy copies) (e_children e) /\ first_at_top copies (e_children e).
Definition name_ready (fuel : nat) (e : elem) : Prop :=
  height e <= fuel /\ Forall (tidy has_anon_el) (e_children e) /\ first_at_top has_anon_el (e_children e) /\ Forall (fun k => ~ unexpected k) (e_children e).
(* naming for one schema, after n names: the types ts are added *)
Record named_types (e e' : elem) (n : nat) (ts : list elem) : Prop := mkNamed {
  nt_kids : exists ks, e_children e' = (ks ++ ts)%list /\ map e_name ks = map e_name (e_children e);
  nt_names : in_order n ts;
  nt_marked : Forall (fun t => type_el t = true /\ attr t "" "_isAnonymous" = "true") ts;
  nt_count : List.length ts = List.length (flat_map (searched holder) (e_children e));
  nt_none : Forall (everywhere (fun d => holder d = false)) (e_children e');
  nt_refs : Forall (fun t => referred (attr e "" "targetNamespace") (attr t "" "name") (e_children e')) ts }.
Inductive named_schemas : list elem -> list elem -> nat -> list (list elem) -> Prop :=
| ns_nil n : named_schemas [] [] n []
| ns_cons e e' es es' n ts tss : named_types e e' n ts -> named_schemas es es' (n + List.length ts) tss -> named_schemas (e :: es) (e' :: es') n (ts :: tss).
(* where a type is named, in the words of XML Schema *)
Definition says (tns n : string) (d : elem) : Prop :=
  let q := prefix (e_scope d) (mkName tns n) in
  (e_name d = xs "element" \/ e_name d = xs "attribute") /\ attr d "" "type" = q \/
  e_name d = xs "list" /\ attr d "" "itemType" = q \/
  e_name d = xs "restriction" /\ attr d "" "base" = q \/
  e_name d = xs "union" /\ (attr d "" "memberTypes" = q \/ exists before, attr d "" "memberTypes" = before ++ " " ++ q).
