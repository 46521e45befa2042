(* From two documents to a value and back. *)
From Coq Require Import Permutation.
From Verif Require Import Base SortLib ScopeModel TreeModel EqualModel BuiltinModel CodecModel XsdModel XsdProofs TypesModel TypesSpec TypesOrder TypesExamples GenModel SgModel SgStruct SgDecl SgExamples SgFlatSpec SgExpandSpec SliceModel SgGen SgGenSpec SgGenExamples SgOrderSpec SgShapeSpec BindModel BindSpec BindGenSpec BindDecode BindExamples BindDecodeEx WholeSpec WholeExamples PipeModel PipeSpec PipeProofs PipeParse PipeExamples PipeWholeSpec.
Local Open Scope string_scope.

Lemma car_wild : wild_declared car_docs.
Proof.
  intros n c e H. apply declares_in in H. assert (Q : forallb (fun p => match snd p with DC c => forallb (fun e => Bool.eqb (el_wild e) (xname_eqb (el_name e) (mkName "" ""))) (ct_elems c) | DS _ => true end) (decls car_docs) = true) by (vm_compute; reflexivity).
  rewrite forallb_forall in Q. specialize (Q _ H). cbn [snd] in Q. rewrite forallb_forall in Q. intros He. specialize (Q e He). apply Bool.eqb_prop in Q. rewrite Q. apply xname_eqb_eq.
Qed.
(* the one type that another is derived from has an attribute *)
Lemma car_firm : firm_declared None car_docs.
Proof.
  intros n c m b Hn Eb Hm. left. left. apply declares_in in Hn, Hm.
  assert (Q : forallb (fun p => match snd p with DC c => match ct_base c with TLink m => forallb (fun q => match snd q with DC b => if xname_eqb (fst q) m then negb (match ct_attrs b with [] => true | _ => false end) else true | DS _ => true end) (decls car_docs) | _ => true end | DS _ => true end) (decls car_docs) = true) by (vm_compute; reflexivity).
  rewrite forallb_forall in Q. specialize (Q _ Hn). cbn [snd] in Q. rewrite Eb, forallb_forall in Q. specialize (Q _ Hm). cbn [fst snd] in Q. rewrite (proj2 (xname_eqb_eq m m) eq_refl) in Q. destruct (ct_attrs b) as [|a l]; [discriminate|]. exists a. split; [left; reflexivity|reflexivity].
Qed.
Definition car_parsed : store * list (string * types) := Eval vm_compute in match parse_rds as_is car_docs with Ok r => r | _ => ([], []) end.
Definition car_gen : code := Eval vm_compute in match gen_code go_pub None None None None all_helpers false as_is in_order [] ["urn:a"; "urn:b"] car_docs with Ret (Coded c) => c | _ => mkCode [] [] [] end.
Definition car_structs := structs_of (co_decls car_gen).
Definition car_zero : gexpr -> val string := zero_at car_structs 3.
Definition one_car : val string := VStruct _ [L "2019-11-17"; L "red"; L "Kim's"; L "3 4"; L "7"].
(* an element is in the name space of its type, and the one with a value that is converted is last *)
Definition b_ (l : string) := mkName "urn:b" l.
Definition car_xml (extra : list xattr) : node := NElem (mkName "urn:a" "car") (extra ++ [mkAttr (mkName "" "id") "7"]) [NElem (b_ "color") [] [NText "red"]; NElem (mkName "urn:a" "name") [] [NText "Kim's"]; NElem (b_ "sizes") [] [NText "3 4"]; NElem (b_ "made") [] [NText "2019-11-17"]].
Lemma car_code_is : parse_rds as_is car_docs = Ok car_parsed /\ gen_code go_pub None None None None all_helpers false as_is in_order [] ["urn:a"; "urn:b"] car_docs = Ret (Coded car_gen) /\ map fst (co_decls car_gen) = ["Color"; "Item"; "Sizes"; "Car"; "xsdDate"].
Proof. vm_compute. repeat split; reflexivity. Qed.
Lemma car_clear : clear_code go_pub upper xmlns None None (fst car_parsed) (co_decls car_gen).
Proof. apply (clear_codeb_ok go_pub upper 6 _ xmlns ["xmlns"] xmlns_local). vm_compute. reflexivity. Qed.
Lemma car_zero_ok : zero_ok car_structs string nothing car_zero.
Proof. zeros car_zero. Qed.
Lemma car_typed : has_type car_structs string any_text (EId "Car") one_car.
Proof. typed. Qed.
Lemma car_marshals : marshal upper car_structs string txt no_text one_car (mkName "urn:a" "car") (EId "Car") = [car_xml []].
Proof. vm_compute. reflexivity. Qed.
Lemma car_reads_back : reads_back xmlns id "" (car_xml []) (car_xml [mkAttr (mkName "" "xmlns") "urn:a"]).
Proof. unfold car_xml. back. Qed.
Lemma car_unmarshals : unmarshal upper car_structs string untxt car_zero (car_xml [mkAttr (mkName "" "xmlns") "urn:a"]) (EId "Car") (car_zero (EId "Car")) = Some one_car.
Proof. vm_compute. reflexivity. Qed.
