(* Model of the errors of xsd.Parse: parseError, stop, walk and catchParseError (xsd/walk.go) in the parse functions of
   xsd/parse.go:608-964. An error has the elements that walk has added to its path, innermost first; its message is left out. The
   values are those of XsdModel and TypesModel; what is added is the order in which the code looks at things. *)
From Verif Require Import Base ScopeModel TreeModel EqualModel BuiltinModel CodecModel XsdModel TypesModel.
Local Open Scope string_scope.

Inductive tried (A : Type) := Good (a : A) | Bad (path : list elem).
Arguments Good {A} a.
Arguments Bad {A} path.
Definition next {A B} (x : tried A) (f : A -> tried B) : tried B := match x with Good a => f a | Bad p => Bad p end.
(* walk.go:30-32; None stands for a call of stop *)
Definition or_stop {A} (o : option A) : tried A := match o with Some a => Good a | None => Bad [] end.
Fixpoint mapt {A B} (f : A -> tried B) (l : list A) : tried (list B) :=
  match l with [] => Good [] | a :: l' => next (f a) (fun b => next (mapt f l') (fun m => Good (b :: m))) end.
Fixpoint foldt {A B} (f : A -> B -> tried A) (a : A) (l : list B) : tried A :=
  match l with [] => Good a | b :: l' => next (f a b) (fun a' => foldt f a' l') end.
(* walk.go:34-53 *)
Definition walkt {A} (root : elem) (f : A -> elem -> tried A) (a : A) : tried A :=
  match foldt f a (filter in_schema (e_children root)) with Good x => Good x | Bad p => Bad (p ++ [root]) end.

(* walk.go:18-28 *)
Definition piece (e : elem) : string :=
  let n := attr e "" "name" in if String.eqb n "" then nlocal (e_name e) else nlocal (e_name e) ++ "(" ++ n ++ ")".
Definition breadcrumbs (path : list elem) : list string := fold_left (fun l e => piece e :: l) path [].
Definition error_text (path : list elem) (message : string) : string := "Error at " ++ String.concat ">" (breadcrumbs path) ++ ": " ++ message.

Section Where.
  Variable annot : elem -> option string.
  (* the walks of parseElement and parseAttribute *)
  Definition docst (el : elem) : tried string :=
    walkt el (fun d e => if local_is e "annotation" then next (or_stop (annot e)) (fun x => Good (doc_append d x)) else Good d) "".
  (* parse.go:817-848: values are looked at before the walk *)
  Definition parse_elementt (ns : string) (el : elem) : tried element :=
    next (or_stop (parse_bool (attr el "" "abstract"))) (fun _ => next (or_stop (parse_bool (attr el "" "nillable"))) (fun _ =>
    next (or_stop (parse_plural el)) (fun _ => next (or_stop (parse_optional el)) (fun _ =>
    next (docst el) (fun _ => or_stop (parse_element annot ns el)))))).
  (* parse.go:850-875 *)
  Definition parse_attributet (ns : string) (el : elem) : tried attribute := next (docst el) (fun _ => or_stop (parse_attribute annot ns el)).
  (* parse.go:708-728 *)
  Definition parse_derivationt (ns : string) (t : complexT) (el : elem) : tried complexT :=
    next (match find_all "any" el with [] => Good tt | v :: _ => next (or_stop (parse_any v)) (fun _ => Good tt) end) (fun _ =>
    next (mapt (parse_elementt ns) (find_all "element" el)) (fun _ =>
    next (mapt (parse_attributet ns) (find_all "attribute" el)) (fun _ => or_stop (parse_derivation annot ns t el)))).
  (* parse.go:697-736 *)
  Definition parse_complex_contentt (ns : string) (t : complexT) (root : elem) : tried complexT :=
    let m := attr root "" "mixed" in
    next (if String.eqb m "" then Good (ct_mixed t) else or_stop (parse_bool m)) (fun mixed =>
    next (walkt root (fun (st : complexT * string) el =>
            let (t, doc) := st in
            if local_is el "extension" then next (parse_derivationt ns (set_extends t true) el) (fun t => Good (t, doc))
            else if local_is el "restriction" then next (parse_derivationt ns t el) (fun t => Good (t, doc))
            else if local_is el "annotation" then next (or_stop (annot el)) (fun d => Good (t, doc_append doc d))
            else Bad []) (set_mixed t mixed, "")) (fun st => Good (set_doc (fst st) (ct_doc (fst st) ++ snd st)))).
  (* parse.go:674-693 *)
  Definition parse_simple_contentt (ns : string) (t : complexT) (root : elem) : tried complexT :=
    next (walkt root (fun (st : complexT * string) el =>
            let (t, doc) := st in
            if local_is el "annotation" then next (or_stop (annot el)) (fun d => Good (t, doc_append doc d))
            else if local_is el "restriction" then Good (set_base t (parse_type (resolve (e_scope el) (attr el "" "base"))), doc)
            else if local_is el "extension" then
              next (mapt (parse_attributet ns) (find_all "attribute" el)) (fun ats =>
                Good (set_fields (set_extends (set_base t (parse_type (resolve (e_scope el) (attr el "" "base")))) true) (ct_elems t) (ct_attrs t ++ ats)%list, doc))
            else Good st) (set_mixed t true, "")) (fun st => Good (set_doc (fst st) (ct_doc (fst st) ++ snd st))).
  (* parse.go:646-670 *)
  Definition parse_complex_typet (tns : string) (root : elem) : tried complexT :=
    next (or_stop (parse_bool (attr root "" "abstract"))) (fun ab => next (or_stop (parse_bool (attr root "" "mixed"))) (fun mi =>
      let t := mkComplex "" (resolve_default (e_scope root) (attr root "" "name") tns) TNil (String.eqb (attr root "" "_isAnonymous") "true") [] [] ab false mi in
      next (walkt root (fun (st : complexT * string) el =>
              let (t, doc) := st in
              if local_is el "annotation" then next (or_stop (annot el)) (fun d => Good (t, doc_append doc d))
              else if local_is el "simpleContent" then next (parse_simple_contentt tns t el) (fun t => Good (t, doc))
              else if local_is el "complexContent" then next (parse_complex_contentt tns t el) (fun t => Good (t, doc))
              else Bad []) (t, "")) (fun st => Good (set_doc (fst st) (ct_doc (fst st) ++ snd st))))).

  Variables (F T : Type) (f0 : F) (t0 : T).
  Variables (pf : string -> option F) (pd pr : string -> option T) (comp : string -> bool) (msg : string -> string).
  (* parse.go:912-964: no walk inside *)
  Definition parse_restrictiont (root : elem) (base : ty) : tried (restriction F T) :=
    next (walkt root (fun st el => or_stop (restr_step annot F T f0 t0 pf pd pr comp msg base st el)) (empty_restr F T f0 t0, "")) (fun st => Good (set_rdoc F T (fst st) (snd st))).
  (* parse.go:877-903 *)
  Definition parse_simple_typet (tns : string) (root : elem) : tried (simpleT F T) :=
    let anon := String.eqb (attr root "" "_isAnonymous") "true" in
    let name := resolve_default (e_scope root) (attr root "" "name") tns in
    next (walkt root (fun (st : bool * list ty * restriction F T * ty * string) el =>
        let '(lst, un, r, b, doc) := st in
        if local_is el "restriction" then
          let b := parse_type (resolve (e_scope el) (attr el "" "base")) in
          next (parse_restrictiont el b) (fun r => Good (lst, un, r, b, doc))
        else if local_is el "list" then Good (true, un, r, parse_type (resolve (e_scope el) (attr el "" "itemType")), doc)
        else if local_is el "union" then
          match map (fun n => parse_type (resolve (e_scope el) n)) (fields (attr el "" "memberTypes")) with
          | [] => Good st
          | ms => Good (lst, (un ++ ms)%list, r, TB 49, doc)
          end
        else if local_is el "annotation" then next (or_stop (annot el)) (fun d => Good (lst, un, r, b, doc_append doc d))
        else Good st) (false, [], empty_restr F T f0 t0, TNil, "")) (fun st => let '(lst, un, r, b, doc) := st in Good (mkSimple F T anon lst un r name doc b)).
  (* parse.go:612-626, catchParseError: the error is the one that stopped the parse *)
  Definition read_typest (root : elem) : tried (list (xname * def)) :=
    let tns := attr root "" "targetNamespace" in
    next (mapt (parse_complex_typet tns) (find_all "complexType" root)) (fun cs =>
    next (mapt (parse_simple_typet tns) (find_all "simpleType" root)) (fun ss =>
    next (parse_complex_typet tns (self_elem root)) (fun self =>
      Good (map (fun c => (ct_name c, DC c)) cs ++ map (fun s => (st_name F T s, DS (of_simple s))) ss ++ [(mkName tns "_self", DC self)])%list))).
  (* parse.go:149-156: the first schema that cannot be read stops Parse *)
  Definition read_allt (roots : list elem) : tried (list (list (xname * def))) := mapt read_typest roots.
End Where.
