(* C106: what errors of xsd.Parse tell. *)
From Verif Require Import Base ScopeModel TreeModel TreeSpec EqualModel BuiltinModel CodecModel XsdModel TypesModel WhereModel WhereSpec WhereProofs WhereExamples.
Local Open Scope string_scope.

(* errors, and only they, are reported *)
Theorem C106_reported (annot : elem -> option string) (F T : Type) (f0 : F) (t0 : T) (pf : string -> option F) (pd pr : string -> option T) (comp : string -> bool) (msg : string -> string) (root : elem) :
  (forall l, read_typest annot F T f0 t0 pf pd pr comp msg root = Good l <-> read_types annot F T f0 t0 pf pd pr comp msg root = Some l) /\
  ((exists p, read_typest annot F T f0 t0 pf pd pr comp msg root = Bad p) <-> read_types annot F T f0 t0 pf pd pr comp msg root = None).
Proof. exact (types_reported annot F T f0 t0 pf pd pr comp msg root). Qed.
Print Assumptions C106_reported.
(* the error is in the first type that cannot be read, and its way leads to what is wrong there *)
Theorem C106_where (annot : elem -> option string) (F T : Type) (f0 : F) (t0 : T) (pf : string -> option F) (pd pr : string -> option T) (comp : string -> bool) (msg : string -> string) (root : elem) (p : list elem) :
  read_typest annot F T f0 t0 pf pd pr comp msg root = Bad p ->
  let tns := attr root "" "targetNamespace" in
  let complex := parse_complex_type annot tns in
  let simple := parse_simple_type annot F T f0 t0 pf pd pr comp msg tns in
  (exists l1 t l2, find_all "complexType" root = (l1 ++ t :: l2)%list /\ Forall (fun x => complex x <> None) l1 /\ complex t = None /\ located annot t (rev p)) \/
  Forall (fun x => complex x <> None) (find_all "complexType" root) /\
  ((exists l1 t l2, find_all "simpleType" root = (l1 ++ t :: l2)%list /\ Forall (fun x => simple x <> None) l1 /\ simple t = None /\ located_simple annot F T pf pd pr t (rev p)) \/
   Forall (fun x => simple x <> None) (find_all "simpleType" root) /\ complex (self_elem root) = None /\ located annot (self_elem root) (rev p)).
Proof. exact (types_where annot F T f0 t0 pf pd pr comp msg root p). Qed.
Print Assumptions C106_where.
Example C106_case : located annot_ (car_ [field_ "wheel" "many" []]) [car_ [field_ "wheel" "many" []]; el_ "complexContent" [] [el_ "restriction" [at_ "base" "xs:anyType"] [el_ "sequence" [] [field_ "wheel" "many" []]]]].
Proof. exact located_case. Qed.
(* the way begins with the type, unless it is empty, and goes down *)
Theorem C106_descends (annot : elem -> option string) (F T : Type) (pf : string -> option F) (pd pr : string -> option T) (t : elem) (way : list elem) :
  (located annot t way -> (way = [] \/ exists rest, way = t :: rest) /\ descends way) /\
  (located_simple annot F T pf pd pr t way -> (exists rest, way = t :: rest) /\ descends way).
Proof. exact (conj (located_descends annot t way) (simple_descends annot F T pf pd pr t way)). Qed.
Print Assumptions C106_descends.
(* the child of the type that is told, or in which the error is, is the first that makes the type wrong *)
Theorem C106_child (annot : elem -> option string) (F T : Type) (f0 : F) (t0 : T) (pf : string -> option F) (pd pr : string -> option T) (comp : string -> bool) (msg : string -> string) (root : elem) (p : list elem) (t : elem) (rest : list elem) :
  read_typest annot F T f0 t0 pf pd pr comp msg root = Bad p -> rev p = t :: rest ->
  let tns := attr root "" "targetNamespace" in
  let complex := parse_complex_type annot tns in
  let simple := parse_simple_type annot F T f0 t0 pf pd pr comp msg tns in
  exists l1 k l2, e_children t = (l1 ++ k :: l2)%list /\ nspace (e_name k) = schemaNS /\ (rest = [] \/ exists more, rest = k :: more) /\
    (complex (with_kids t l1) <> None /\ complex (with_kids t (l1 ++ [k])%list) = None \/ simple (with_kids t l1) <> None /\ simple (with_kids t (l1 ++ [k])%list) = None).
Proof. exact (types_child annot F T f0 t0 pf pd pr comp msg root p t rest). Qed.
Print Assumptions C106_child.
Example C106_case_child : exists p, types_ (schema_ [size_ "10"; el_ "complexType" [at_ "name" "Car"] [el_ "annotation" [] [el_ "documentation" [] []]; el_ "sequence" [] []; el_ "all" [] []]]) = Bad p /\
  rev p = [el_ "complexType" [at_ "name" "Car"] [el_ "annotation" [] [el_ "documentation" [] []]; el_ "sequence" [] []; el_ "all" [] []]].
Proof. exact child_case. Qed.
(* of several schemas, the first that cannot be read *)
Theorem C106_first (annot : elem -> option string) (F T : Type) (f0 : F) (t0 : T) (pf : string -> option F) (pd pr : string -> option T) (comp : string -> bool) (msg : string -> string) (roots : list elem) (p : list elem) :
  read_allt annot F T f0 t0 pf pd pr comp msg roots = Bad p ->
  exists l1 r l2, roots = (l1 ++ r :: l2)%list /\ Forall (fun x => read_types annot F T f0 t0 pf pd pr comp msg x <> None) l1 /\ read_typest annot F T f0 t0 pf pd pr comp msg r = Bad p.
Proof. exact (schemas_where annot F T f0 t0 pf pd pr comp msg roots p). Qed.
Print Assumptions C106_first.
(* the text of an error tells the way *)
Theorem C106_text (path : list elem) (m : string) : error_text path m = "Error at " ++ trail (rev path) ++ ": " ++ m.
Proof. exact (text_is path m). Qed.
Print Assumptions C106_text.
Example C106_case_text :
  (exists l, types_ (schema_ [car_ [field_ "wheel" "4" []]; size_ "10"]) = Good l /\ map fst l = [mkName "urn:a" "Car"; mkName "urn:a" "Size"; mkName "urn:a" "_self"]) /\
  error_ (schema_ [size_ "big"; car_ [field_ "wheel" "4" []]]) "m" = Some "Error at simpleType(Size)>restriction: m" /\
  error_ (schema_ [size_ "big"; car_ [field_ "wheel" "many" []]]) "m" = Some "Error at complexType(Car)>complexContent: m" /\
  error_ (schema_ [car_ [field_ "wheel" "4" [el_ "annotation" [] []]]]) "m" = Some "Error at complexType(Car)>complexContent>element(wheel): m" /\
  error_ (schema_ [el_ "complexType" [at_ "name" "Car"] [el_ "sequence" [] []]]) "m" = Some "Error at complexType(Car): m" /\
  error_ (schema_ [field_ "wheel" "many" []]) "m" = Some "Error at complexType(_self)>complexContent: m".
Proof. exact where_runs. Qed.
(* a complex type with a wrong value of abstract or mixed is not told *)
Theorem C106_head_refuted : exists a b, error_ (schema_ [el_ "complexType" [at_ "name" "Car"; at_ "abstract" a] []; el_ "complexType" [at_ "name" "Item"; at_ "abstract" b] []]) "m" = Some "Error at : m" /\
  error_ (schema_ [el_ "complexType" [at_ "name" "Car"; at_ "abstract" b] []; el_ "complexType" [at_ "name" "Item"; at_ "abstract" a] []]) "m" = Some "Error at : m" /\
  parse_complex_type annot_ "urn:a" (el_ "complexType" [at_ "name" "Car"; at_ "abstract" b] []) <> None.
Proof. exact head_untold. Qed.
Print Assumptions C106_head_refuted.
(* nor an element with a wrong number of occurrences *)
Theorem C106_element_refuted : exists a b, error_ (schema_ [car_ [field_ "wheel" a []; field_ "door" b []]]) "m" = Some "Error at complexType(Car)>complexContent: m" /\
  error_ (schema_ [car_ [field_ "wheel" b []; field_ "door" a []]]) "m" = Some "Error at complexType(Car)>complexContent: m" /\ parse_element annot_ "urn:a" (field_ "door" b []) <> None.
Proof. exact element_untold. Qed.
Print Assumptions C106_element_refuted.
