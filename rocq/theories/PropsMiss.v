(* C107: what errors of xsd.Parse tell of types that are not found. *)
From Coq Require Import Permutation.
From Verif Require Import Base ScopeModel TreeModel BuiltinModel XsdModel TypesModel TypesSpec TypesExamples PartSpec MissModel MissSpec MissProofs MissSelf MissText MissExamples.
Local Open Scope string_scope.

(* errors, and only they, are reported *)
Theorem C107_reported ord l :
  (forall s, parse_told ord l = TOk s <-> parse_rds ord l = Ok s) /\ ((exists m, parse_told ord l = TErr m) <-> parse_rds ord l = Err) /\
  (parse_told ord l = TPanics <-> parse_rds ord l = Panics).
Proof. exact (told_reported ord l). Qed.
Print Assumptions C107_reported.
(* the type told of is in the schema, refers to what is told for what is told, nothing of that
   name is there, and all it refers to before is *)
Theorem C107_told l ord m : any_order ord -> parse_told ord l = TErr m -> tells l m.
Proof. exact (fun O => told_so l ord O m). Qed.
Print Assumptions C107_told.
(* the name told is that of the type, if there is one document for each namespace *)
Theorem C107_name l ord m : any_order ord -> keyed l -> NoDup (map rd_tns l) -> parse_told ord l = TErr m -> tells_name l m.
Proof. exact (fun O => told_name l ord O m). Qed.
Print Assumptions C107_name.
(* with two documents of one namespace it may be the name of an element of the other namespace *)
Theorem C107_name_refuted : exists l m, keyed l /\ parse_told as_is l = TErr m /\ ~ tells_name l m.
Proof. exact name_refuted. Qed.
Print Assumptions C107_name_refuted.
(* a reference to a name that nothing has is an error, or stops the program *)
Theorem C107_unknown l ord k i d n s : any_order ord -> In (k, TPtr i) (entries l) -> nth_error (fst (initial l)) i = Some d -> In (TLink n) (refs d) ->
  ~ known l n -> parse_told ord l <> TOk s.
Proof. exact (fun O => unknown_fails l ord O k i d n s). Qed.
Print Assumptions C107_unknown.

(* a type that no top-level element of a schema finds is told of the type that stands for the document,
   not of the element, if there is one document for each namespace *)
Theorem C107_self annot F T f0 t0 pf pd pr comp msg roots l ord m :
  any_order ord -> Forall2 (fun root r => read annot F T f0 t0 pf pd pr comp msg root = Some r) roots l -> keyed l ->
  NoDup (map rd_tns l) -> (forall root, In root roots -> plain_tops root /\ attr root "" "targetNamespace" <> "") ->
  parse_told ord l = TErr m -> exists cx key ro ref, m = MsType cx key ro ref.
Proof. exact (told_as_self annot F T f0 t0 pf pd pr comp msg roots l ord m). Qed.
Print Assumptions C107_self.
(* what is told can be read from the text *)
Theorem C107_text is_print pre a b : clear is_print pre a -> clear is_print pre b -> miss_text is_print pre a = miss_text is_print pre b -> same_told pre a b.
Proof. exact (text_tells is_print pre a b). Qed.
Print Assumptions C107_text.

Example texts_example :
  text_of [no_base] = Some "complexType Car: could not find base type Vehicle in namespace urn:b" /\
  text_of [no_part] = Some "complexType Car: could not find type ""Wheel"" in namespace urn:b for element wheel" /\
  text_of [no_attr] = Some "complexType Car: could not find type Size in namespace urn:b for attribute size" /\
  text_of [no_simple] = Some "simpleType Size: could not find base type Int in namespace urn:b" /\
  text_of [no_member] = Some "simpleType Size: could not find union memberType Word in namespace urn:b" /\
  text_of [no_alias] = Some "complexType _self: could not find type ""Car"" in namespace urn:b for element car" /\
  text_of [no_alias; second_a] = Some "could not lookup type b:Car for element a:car" /\
  text_of three = Some "complexType e: could not find type ""None"" in namespace urn:b for element part".
Proof. vm_compute. repeat split; reflexivity. Qed.
Example part_told : tells_name [no_part] (MsType true (mkName "urn:a" "Car") (RElement (mkName "urn:b" "wheel")) (mkName "urn:b" "Wheel")).
Proof.
  apply (C107_name [no_part] as_is); [exact as_is_order|apply check_keyed; vm_compute; reflexivity|repeat constructor; intros []|].
  vm_compute. reflexivity.
Qed.
Example self_told : exists cx key ro ref, parse_told as_is [no_alias] = TErr (MsType cx key ro ref).
Proof.
  destruct (C107_self _ _ _ _ _ _ _ _ _ _ [alias_doc] [no_alias] as_is (MsType true (mkName "urn:a" "_self") (RElement (mkName "urn:b" "car")) (mkName "urn:b" "Car"))
    as_is_order (Forall2_cons _ _ alias_read (Forall2_nil _))) as (cx & key & ro & ref & E).
  - apply check_keyed. vm_compute. reflexivity.
  - repeat constructor; intros [].
  - intros root [<-|[]]. split; [exact alias_plain|discriminate].
  - vm_compute. reflexivity.
  - exists cx, key, ro, ref. rewrite <- E. vm_compute. reflexivity.
Qed.
Example clear_told : clear (fun r => (32 <=? r)%N) (prefix scp) (MsType true (mkName "urn:a" "Car") (RElement (mkName "urn:b" "wheel")) (mkName "urn:b" "Wheel")).
Proof. repeat split; vm_compute; reflexivity. Qed.
