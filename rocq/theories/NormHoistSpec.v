(* Moving anonymous types to the top level, on trees. *)
From Verif Require Import Base ScopeModel TreeModel TreeSpec BuiltinModel XsdModel NormModel NormSpec.
Local Open Scope string_scope.

(* several attributes, one after the other *)
Definition set_all (t : elem) (l : list (string * string)) : elem := each (fun t lv => set_attr t "" (fst lv) (snd lv)) t l.
Definition type_el (d : elem) : bool := xname_eqb (e_name d) (xs "complexType") || xname_eqb (e_name d) (xs "simpleType").
Definition anon_el (d : elem) : bool := type_el d && String.eqb (attr d "" "name") "".
Definition has_anon_el (d : elem) : bool := existsb anon_el (e_children d).
(* the place of the first anonymous type *)
Fixpoint anon_index (ks : list elem) : nat := match ks with [] => 0 | k :: ks' => if anon_el k then 0 else S (anon_index ks') end.
Definition detached (e : elem) (u q : string) (ks : list elem) : elem := Elem (e_name e) (attr_set (e_attrs e) "" u q) (e_scope e) "" ks.

(* Walking the tree in document order with a state: an element that g selects may decide to give
   up its first anonymous type; the type gets attributes, and so does the element. The types given
   up come in document order, each before those inside it. *)
Section Hoist.
  Variable St : Type.
  Variable g : elem -> bool.
  Variable dec : elem -> St -> option (list (string * string) * (string * string)) * St.
  Fixpoint hoist_el (e : elem) (s : St) {struct e} : elem * list elem * St :=
    let '(Elem n a sc c ks) := e in
    let (act, s1) := if g e then dec e s else (None, s) in
    let '(ks', ts, s2) := (fix go (ks : list elem) (s : St) {struct ks} : list elem * list elem * St :=
      match ks with
      | [] => ([], [], s)
      | k :: ks' => let '(k', t1, s1) := hoist_el k s in let '(r, t2, s2) := go ks' s1 in (k' :: r, (t1 ++ t2)%list, s2)
      end) ks s1 in
    match act with
    | None => (Elem n a sc c ks', ts, s2)
    | Some (tas, (u, q)) =>
        let i := anon_index ks in
        (detached e u q (firstn i ks' ++ skipn (S i) ks')%list, (map (fun t => set_all t tas) (firstn 1 (skipn i ks')) ++ ts)%list, s2)
    end.
  Fixpoint hoist_list (ks : list elem) (s : St) : list elem * list elem * St :=
    match ks with
    | [] => ([], [], s)
    | k :: ks' => let '(k', t1, s1) := hoist_el k s in let '(r, t2, s2) := hoist_list ks' s1 in (k' :: r, (t1 ++ t2)%list, s2)
    end.
  (* the types are added at the end of the schema *)
  Definition hoist_root (e : elem) (s : St) : elem * St :=
    let '(ks, ts, s') := hoist_list (e_children e) s in (with_children e (ks ++ ts)%list, s').
  (* the elements selected have one anonymous type, and neither the type nor what follows it is selected *)
  Definition hit_ok (d : elem) : Prop := exists ks1 t ks2, e_children d = (ks1 ++ t :: ks2)%list /\ Forall (fun k => anon_el k = false) ks1 /\
    anon_el t = true /\ g t = false /\ Forall (fun k => g k = false) ks2 /\ Forall (fun k => anon_el k = false) ks2.
  Definition tidy (e : elem) : Prop := forall q d, sub e q = Some d -> g d = true -> hit_ok d.
  (* the elements selected at the top level come while there is room for one more type: n types so far *)
  Fixpoint room (free n : nat) (ks : list elem) (s : St) : Prop :=
    match ks with
    | [] => True
    | k :: ks' => let '(_, ts, s') := hoist_el k s in
        (g k = true -> n <= free) /\ room free (n + List.length ts) ks' s'
    end.
End Hoist.
