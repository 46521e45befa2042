(* Errors in schemas. *)
From Verif Require Import Base ScopeModel TreeModel EqualModel BuiltinModel CodecModel XsdModel TypesModel WhereModel WhereSpec.
Local Open Scope string_scope.

Definition at_ (n v : string) : xattr := mkAttr (mkName "" n) v.
Definition el_ (n : string) (l : list xattr) (kids : list elem) : elem := Elem (xs n) l [mkName schemaNS "xs"] "" kids.
Definition schema_ (kids : list elem) : elem := el_ "schema" [at_ "targetNamespace" "urn:a"] kids.
Definition field_ (n many : string) (kids : list elem) : elem := el_ "element" [at_ "name" n; at_ "type" "xs:int"; at_ "maxOccurs" many] kids.
Definition car_ (l : list elem) : elem := el_ "complexType" [at_ "name" "Car"] [el_ "complexContent" [] [el_ "restriction" [at_ "base" "xs:anyType"] [el_ "sequence" [] l]]].
Definition size_ (v : string) : elem := el_ "simpleType" [at_ "name" "Size"] [el_ "restriction" [at_ "base" "xs:int"] [el_ "maxInclusive" [at_ "value" v] []]].
(* the annotations that say nothing cannot be read *)
Definition annot_ (e : elem) : option string := match e_children e with [] => None | _ => Some "text" end.
Definition number_ (s : string) : option Z := parse_int s.
Notation types_ := (read_typest annot_ Z Z 0%Z 0%Z number_ (fun _ => None) (fun _ => None) (fun _ => true) (fun s => s)).
Definition error_ (root : elem) (m : string) : option string := match types_ root with Good _ => None | Bad p => Some (error_text p m) end.

Lemma where_runs :
  (exists l, types_ (schema_ [car_ [field_ "wheel" "4" []]; size_ "10"]) = Good l /\ map fst l = [mkName "urn:a" "Car"; mkName "urn:a" "Size"; mkName "urn:a" "_self"]) /\
  error_ (schema_ [size_ "big"; car_ [field_ "wheel" "4" []]]) "m" = Some "Error at simpleType(Size)>restriction: m" /\
  error_ (schema_ [size_ "big"; car_ [field_ "wheel" "many" []]]) "m" = Some "Error at complexType(Car)>complexContent: m" /\
  error_ (schema_ [car_ [field_ "wheel" "4" [el_ "annotation" [] []]]]) "m" = Some "Error at complexType(Car)>complexContent>element(wheel): m" /\
  error_ (schema_ [el_ "complexType" [at_ "name" "Car"] [el_ "sequence" [] []]]) "m" = Some "Error at complexType(Car): m" /\
  error_ (schema_ [field_ "wheel" "many" []]) "m" = Some "Error at complexType(_self)>complexContent: m".
Proof. split; [eexists; split; vm_compute; reflexivity|]. repeat split; vm_compute; reflexivity. Qed.
(* a type with a wrong value of its own is not told *)
Lemma head_untold : exists a b, error_ (schema_ [el_ "complexType" [at_ "name" "Car"; at_ "abstract" a] []; el_ "complexType" [at_ "name" "Item"; at_ "abstract" b] []]) "m" = Some "Error at : m" /\
  error_ (schema_ [el_ "complexType" [at_ "name" "Car"; at_ "abstract" b] []; el_ "complexType" [at_ "name" "Item"; at_ "abstract" a] []]) "m" = Some "Error at : m" /\
  parse_complex_type annot_ "urn:a" (el_ "complexType" [at_ "name" "Car"; at_ "abstract" b] []) <> None.
Proof. exists "yes", "true". split; [vm_compute; reflexivity|]. split; [vm_compute; reflexivity|]. vm_compute. discriminate. Qed.
(* nor is the element, or the restriction it is in *)
Lemma element_untold : exists a b, error_ (schema_ [car_ [field_ "wheel" a []; field_ "door" b []]]) "m" = Some "Error at complexType(Car)>complexContent: m" /\
  error_ (schema_ [car_ [field_ "wheel" b []; field_ "door" a []]]) "m" = Some "Error at complexType(Car)>complexContent: m" /\ parse_element annot_ "urn:a" (field_ "door" b []) <> None.
Proof. exists "many", "4". split; [vm_compute; reflexivity|]. split; [vm_compute; reflexivity|]. vm_compute. discriminate. Qed.
Lemma located_case : located annot_ (car_ [field_ "wheel" "many" []]) [car_ [field_ "wheel" "many" []]; el_ "complexContent" [] [el_ "restriction" [at_ "base" "xs:anyType"] [el_ "sequence" [] [field_ "wheel" "many" []]]]].
Proof.
  eapply (At_element _ _ _ (el_ "restriction" [at_ "base" "xs:anyType"] [el_ "sequence" [] [field_ "wheel" "many" []]]) (field_ "wheel" "many" [])).
  - split; [left; reflexivity|reflexivity].
  - left. split; [left; reflexivity|reflexivity].
  - split; [|reflexivity]. exists [0; 0]. split; [discriminate|reflexivity].
  - right; right; right. vm_compute. reflexivity.
Qed.
Lemma child_case : exists p, types_ (schema_ [size_ "10"; el_ "complexType" [at_ "name" "Car"] [el_ "annotation" [] [el_ "documentation" [] []]; el_ "sequence" [] []; el_ "all" [] []]]) = Bad p /\
  rev p = [el_ "complexType" [at_ "name" "Car"] [el_ "annotation" [] [el_ "documentation" [] []]; el_ "sequence" [] []; el_ "all" [] []]].
Proof. eexists. split; [vm_compute; reflexivity|vm_compute; reflexivity]. Qed.
