From Verif Require Import Base ScopeModel TreeModel TreeSpec EqualModel EqualSpec Decimal BuiltinModel XsdModel XsdSpec XsdProofs SgModel DocModel DocSpec DocProofs DocExamples ContentSpec ContentProofs.
Local Open Scope string_scope.

Definition node (n : string) (l : list (string * string)) (ks : list elem) : elem := Elem (mkName schemaNS n) (map (fun p => mkAttr (mkName "" (fst p)) (snd p)) l) [mkName "urn:a" "a"; mkName schemaNS "xs"] "" ks.
Definition unit_attr := node "attribute" [("name", "unit"); ("type", "xs:string"); ("use", "required")] [].
(* a size with a unit *)
Definition size_ext := node "extension" [("base", "xs:int")] [unit_attr].
Definition size_content := node "simpleContent" [] [annot [more_text]; size_ext].
Definition size_type := node "complexType" [("name", "Size"); ("abstract", "true")] [annot [the_text]; size_content].
Definition the_raw := parse_annotation raw0.
Lemma only_it x l1 l2 root : e_children root = (l1 ++ x :: l2)%list -> Forall (fun e => e_name e = xs "annotation") (l1 ++ l2)%list -> nspace (e_name x) = schemaNS -> XsdSpec.only_child root x.
Proof.
  intros E F N. apply Forall_app in F as [F1 F2]. exists l1, l2. split; [intros e I; rewrite Forall_forall in F1; rewrite (F1 e I); reflexivity|]. split; [intros e I; rewrite Forall_forall in F2; rewrite (F2 e I); reflexivity|].
  unfold schema_children. rewrite E, filter_app. cbn [filter]. rewrite N, String.eqb_refl.
  assert (X : forall l, Forall (fun e => e_name e = xs "annotation") l -> filter (fun e => String.eqb (nspace (e_name e)) schemaNS) l = l).
  { induction 1 as [|e l H _ IH]; [reflexivity|]. cbn [filter]. rewrite H, IH. reflexivity. }
  rewrite !X; auto.
Qed.
Lemma size_shape : content size_type "simpleContent" size_content /\ derivation size_type "simpleContent" size_ext.
Proof.
  assert (A : content size_type "simpleContent" size_content) by (split; [apply (only_it _ [annot [the_text]] []); [reflexivity|repeat constructor|reflexivity]|reflexivity]).
  split; [exact A|]. exists size_content. split; [exact A|]. split; [apply (only_it _ [annot [more_text]] []); [reflexivity|repeat constructor|reflexivity]|left; reflexivity].
Qed.
Lemma size_read : exists t, parse_complex_type the_raw "urn:a" size_type = Some t /\ ct_name t = mkName "urn:a" "Size" /\ ct_abstract t = true /\ ct_anon t = false /\ ct_mixed t = true /\
  ct_base t = parse_type (mkName schemaNS "int") /\ map at_name (ct_attrs t) = [mkName "urn:a" "unit"] /\ ct_doc t = "Never negative.A size, in metres.".
Proof. eexists. split; [vm_compute; reflexivity|]. repeat split. Qed.
Lemma size_telling : Forall (telling raw0) (DocSpec.annotations size_type) /\ forall c, In c (contents size_type) -> Forall (telling raw0) (DocSpec.annotations c).
Proof.
  split; [constructor; [|constructor]; split; [discriminate|]; repeat constructor; discriminate|]. intros c [<-|[]]. constructor; [|constructor]. split; [discriminate|]. repeat constructor; discriminate.
Qed.
(* complexContent with its own mixed *)
Definition note_ext := node "extension" [("base", "a:Size")] [node "sequence" [] [node "element" [("name", "p"); ("type", "xs:string")] []]].
Definition note_content := node "complexContent" [("mixed", "false")] [note_ext].
Definition note_type := node "complexType" [("name", "Note"); ("mixed", "true")] [note_content].
Lemma note_shape : content note_type "complexContent" note_content /\ XsdSpec.only_child note_content note_ext.
Proof. split; [split; [apply (only_it _ [] []); [reflexivity|constructor|reflexivity]|reflexivity]|apply (only_it _ [] []); [reflexivity|constructor|reflexivity]]. Qed.
Lemma note_read : exists t, parse_complex_type the_raw "urn:a" note_type = Some t /\ ct_mixed t = false /\ map el_name (ct_elems t) = [mkName "urn:a" "p"] /\ attr note_content "" "mixed" <> "".
Proof. eexists. split; [vm_compute; reflexivity|]. split; [reflexivity|]. split; [reflexivity|discriminate]. Qed.
(* the attributes of a restriction of simple content are lost *)
Definition cut_down := node "restriction" [("base", "a:Size")] [unit_attr].
Definition cut_type := node "complexType" [("name", "Cut")] [node "simpleContent" [] [cut_down]].
Lemma restriction_loses : exists t, derivation cut_type "simpleContent" cut_down /\ lists cut_down "attribute" [unit_attr] /\ parse_complex_type the_raw "urn:a" cut_type = Some t /\ ct_attrs t = [].
Proof.
  eexists. split; [|split; [exact (find_all_lists "attribute" cut_down)|split; [vm_compute; reflexivity|reflexivity]]].
  exists (node "simpleContent" [] [cut_down]). split; [split; [apply (only_it _ [] []); [reflexivity|constructor|reflexivity]|reflexivity]|]. split; [apply (only_it _ [] []); [reflexivity|constructor|reflexivity]|right; reflexivity].
Qed.
Lemma bare_refused : parse_complex_type the_raw "urn:a" (node "complexType" [("name", "T")] [node "sequence" [] []]) = None.
Proof. reflexivity. Qed.
Lemma doc_simple : exists s, parse_simple_type the_raw nat nat 0 0 (fun _ => None) (fun _ => None) (fun _ => None) (fun _ => true) (fun _ => "") "urn:a"
  (node "simpleType" [("name", "S")] [annot [the_text]; node "restriction" [("base", "xs:int")] [annot [more_text]]; annot [more_text]]) = Some s /\ st_doc nat nat s = "A size, in metres." ++ nl ++ nl ++ "Never negative.".
Proof. eexists. split; [vm_compute; reflexivity|reflexivity]. Qed.
Definition linked_restr := node "restriction" [("base", "a:Day")] [node "minInclusive" [("value", "2001-01-01")] []; node "maxInclusive" [("value", "x7")] []].
Lemma linked_case : exists r, parse_restriction the_raw nat nat 0 0 (fun s => if String.eqb s "x7" then Some 7 else None) (fun s => if String.eqb s "2001-01-01" then Some 2001 else None) (fun _ => None) (fun _ => true) (fun _ => "") linked_restr (TLink (mkName "urn:a" "Day")) = Some r /\
  rs_mindate nat nat r = 2001 /\ rs_max nat nat r = 7.
Proof. eexists. split; [vm_compute; reflexivity|]. split; reflexivity. Qed.
Definition odd_restr := node "restriction" [("base", "xs:string")] [annot [the_text]; node "pattern" [("value", "\i\c*")] []; node "maxLength" [("value", "4")] []; annot [more_text]].
Lemma odd_case : exists r, parse_restriction the_raw nat nat 0 0 (fun _ => None) (fun _ => None) (fun _ => None) (fun s => negb (String.eqb s "\i\c*")) (fun s => "Not read: " ++ s) odd_restr (TB 40) = Some r /\
  facets odd_restr "pattern" = [node "pattern" [("value", "\i\c*")] []] /\ rs_doc nat nat r = "A size, in metres." ++ nl ++ nl ++ "Not read: \i\c*" ++ nl ++ nl ++ "Never negative.".
Proof. eexists. split; [vm_compute; reflexivity|]. split; reflexivity. Qed.
