(* Where an error of xsd.Parse is. A way is the list of the elements that the error tells, outermost first. *)
From Verif Require Import Base ScopeModel TreeModel TreeSpec EqualModel BuiltinModel CodecModel XsdModel.
Local Open Scope string_scope.

(* e is below a *)
Definition below (e a : elem) : Prop := exists p, descendant a p e.
Fixpoint descends (way : list elem) : Prop := match way with a :: (e :: _) as l => below e a /\ descends l | _ => True end.
(* the element with other children *)
Definition with_kids (e : elem) (l : list elem) : elem := Elem (e_name e) (e_attrs e) (e_scope e) (e_content e) l.
(* the names told, separated *)
Fixpoint trail (way : list elem) : string :=
  match way with
  | [] => ""
  | e :: l => (nlocal (e_name e) ++ (if String.eqb (attr e "" "name") "" then "" else "(" ++ attr e "" "name" ++ ")")) ++ match l with [] => "" | _ => ">" ++ trail l end
  end.

Section Located.
  Variable annot : elem -> option string.
  (* k is a child of e in the schema namespace that is called l *)
  Definition child (l : string) (k e : elem) : Prop := In k (e_children e) /\ e_name k = mkName schemaNS l.
  Definition any_child (k e : elem) : Prop := In k (e_children e) /\ nspace (e_name k) = schemaNS.
  (* a child that is an annotation which cannot be read *)
  Definition bad_annotation (e : elem) : Prop := exists k, child "annotation" k e /\ annot k = None.
  Definition bad_bool (e : elem) (a : string) : Prop := ~ In (attr e "" a) [""; "0"; "false"; "1"; "true"].
  Definition bad_int (e : elem) (a : string) : Prop := parse_int (attr e "" a) = None.
  (* an element or attribute that is declared anywhere below e *)
  Definition declared (l : string) (v e : elem) : Prop := below v e /\ e_name v = mkName schemaNS l.
  (* the way to what is wrong in a complex type *)
  Inductive located (t : elem) : list elem -> Prop :=
  | At_head : bad_bool t "abstract" \/ bad_bool t "mixed" -> located t []
  | At_type : bad_annotation t \/ (exists k, any_child k t /\ ~ In (nlocal (e_name k)) ["annotation"; "simpleContent"; "complexContent"]) \/
              (exists k, child "complexContent" k t /\ bad_bool k "mixed") -> located t [t]
  | At_content k : child "complexContent" k t \/ child "simpleContent" k t -> bad_annotation k -> located t [t; k]
  | At_unexpected k x : child "complexContent" k t -> any_child x k -> ~ In (nlocal (e_name x)) ["annotation"; "restriction"; "extension"] -> located t [t; k]
  | At_wildcard k x v : child "complexContent" k t -> child "restriction" x k \/ child "extension" x k -> declared "any" v x -> bad_int v "minOccurs" \/ bad_int v "maxOccurs" -> located t [t; k]
  | At_element k x v : child "complexContent" k t -> child "restriction" x k \/ child "extension" x k -> declared "element" v x ->
      bad_bool v "abstract" \/ bad_bool v "nillable" \/ bad_int v "minOccurs" \/ bad_int v "maxOccurs" -> located t [t; k]
  | At_annotation k x v : child "complexContent" k t -> child "restriction" x k \/ child "extension" x k -> declared "element" v x \/ declared "attribute" v x -> bad_annotation v -> located t [t; k; v]
  | At_simple k x v : child "simpleContent" k t -> child "extension" x k -> declared "attribute" v x -> bad_annotation v -> located t [t; k; v].

  Variables (F T : Type).
  Variables (pf : string -> option F) (pd pr : string -> option T).
  (* a bound that is not a value of its base: xs:date has number 16, xs:dateTime 17 *)
  Definition bad_number (v : string) : Prop := trim_space v <> "" /\ pf (trim_space v) = None.
  Definition bad_bound (base : xname) (x : elem) : Prop :=
    let v := attr x "" "value" in
    match parse_builtin base with
    | Some 16%Z => pd v = None
    | Some 17%Z => pr v = None
    | Some _ => bad_number v
    | None => pd v = None /\ pr v = None /\ bad_number v
    end.
  (* the way to what is wrong in a simple type *)
  Inductive located_simple (t : elem) : list elem -> Prop :=
  | In_simple : bad_annotation t -> located_simple t [t]
  | In_restriction k : child "restriction" k t -> bad_annotation k -> located_simple t [t; k]
  | In_bound k x : child "restriction" k t -> any_child x k -> In (nlocal (e_name x)) ["minExclusive"; "minInclusive"; "maxExclusive"; "maxInclusive"] ->
      bad_bound (resolve (e_scope k) (attr k "" "base")) x -> located_simple t [t; k]
  | In_number k x : child "restriction" k t -> any_child x k -> In (nlocal (e_name x)) ["length"; "minLength"; "maxLength"; "fractionDigits"; "totalDigits"] ->
      bad_int x "value" -> located_simple t [t; k]
  | In_digits k x n : child "restriction" k t -> child "fractionDigits" x k -> parse_int (attr x "" "value") = Some n -> (n < 0)%Z -> located_simple t [t; k].
End Located.
