(* Schemas that refer to types that are not there. *)
From Coq Require Import Permutation.
From Verif Require Import Base ScopeModel TreeModel BuiltinModel XsdModel TypesModel TypesSpec TypesProofs TypesExamples TreeSpec PartSpec MissModel MissSpec.
Local Open Scope string_scope.

Definition el_ (n t : string) := x_ "element" [at_ "name" n; at_ "type" t] [].
Definition attr_ (n t : string) := x_ "attribute" [at_ "name" n; at_ "type" t] [].
Definition rd0 (root : elem) : rd := get (rd_of root) (mkRd "" [] []).
(* the base of Car, a part of it, an attribute, the base of a simple type, a member of a union,
   and the type of a top-level element *)
Definition no_base := Eval vm_compute in rd0 (schema_ "urn:a" [extends_ "Car" "b:Vehicle" [el_ "wheel" "b:Wheel"]]).
Definition no_part := Eval vm_compute in rd0 (schema_ "urn:a" [extends_ "Car" "xs:anyType" [el_ "seats" "xs:int"; el_ "wheel" "b:Wheel"; attr_ "size" "b:Size"]]).
Definition no_attr := Eval vm_compute in rd0 (schema_ "urn:a" [extends_ "Car" "xs:anyType" [el_ "seats" "xs:int"; attr_ "size" "b:Size"]]).
Definition no_simple := Eval vm_compute in rd0 (schema_ "urn:a" [x_ "simpleType" [at_ "name" "Size"] [x_ "restriction" [at_ "base" "b:Int"] []]]).
Definition no_member := Eval vm_compute in rd0 (schema_ "urn:a" [x_ "simpleType" [at_ "name" "Size"] [x_ "union" [at_ "memberTypes" "xs:int b:Word"] []]]).
Definition alias_doc := schema_ "urn:a" [el_ "ok" "xs:int"; el_ "car" "b:Car"].
Definition no_alias := Eval vm_compute in rd0 alias_doc.
Lemma alias_read : rd_of alias_doc = Some no_alias.
Proof. vm_compute. reflexivity. Qed.
Lemma alias_plain : plain_tops alias_doc.
Proof.
  constructor.
  - intros el [<-|[<-|[]]]; reflexivity.
  - repeat constructor; cbn; intros H; repeat destruct H as [H|H]; try discriminate; contradiction.
  - intros el q d [<-|[<-|[]]] Q S; exfalso; destruct q as [|j q]; try (exact (Q eq_refl)); cbn in S; destruct j; discriminate.
Qed.
Definition text_of (l : list rd) : option string :=
  match parse_told as_is l with TErr m => Some (miss_text (fun r => (32 <=? r)%N) (prefix scp) m) | _ => None end.

(* two documents of the namespace urn:a; the first has an element of type b:T, and b:T has a
   part of a type that is not there *)
Definition first_a := Eval vm_compute in rd0 (schema_ "urn:a" [el_ "e" "b:T"]).
Definition second_a := Eval vm_compute in rd0 (schema_ "urn:a" [restricts_ "U" "xs:anyType" []]).
Definition of_b := Eval vm_compute in rd0 (schema_ "urn:b" [restricts_ "T" "xs:anyType" [el_ "part" "b:None"]]).
Definition three := [first_a; second_a; of_b].
Lemma three_told : parse_told as_is three = TErr (MsType true (mkName "urn:a" "e") (RElement (mkName "urn:b" "part")) (mkName "urn:b" "None")).
Proof. vm_compute. reflexivity. Qed.
Lemma check_keyed l : forallb (fun r => forallb (fun e => xname_eqb (def_name (snd e)) (fst e) && String.eqb (nspace (fst e)) (rd_tns r))%bool (rd_types r)) l = true -> keyed l.
Proof.
  intros H r n d Hr Hd. rewrite forallb_forall in H. specialize (H r Hr). rewrite forallb_forall in H. specialize (H _ Hd). cbn [fst snd] in H.
  apply Bool.andb_true_iff in H as [A B]. apply xname_eqb_eq in A. apply String.eqb_eq in B. auto.
Qed.
Lemma three_keyed : keyed three.
Proof. apply check_keyed. vm_compute. reflexivity. Qed.
Lemma three_not_name : ~ tells_name three (MsType true (mkName "urn:a" "e") (RElement (mkName "urn:b" "part")) (mkName "urn:b" "None")).
Proof.
  intros (r & i & d & pre & post & _ & _ & _ & _ & _ & _ & _ & (own & Hs & Hi) & _). apply sget_in in Hs.
  assert (B : forallb (fun p => forallb (fun e => negb (xname_eqb (fst e) (mkName "urn:a" "e"))) (snd p)) (snd (initial three)) = true) by (vm_compute; reflexivity).
  rewrite forallb_forall in B. specialize (B _ Hs). cbn [snd] in B. rewrite forallb_forall in B. specialize (B _ Hi). cbn [fst] in B. vm_compute in B. discriminate.
Qed.
Theorem name_refuted : exists l m, keyed l /\ parse_told as_is l = TErr m /\ ~ tells_name l m.
Proof. eexists three, _. split; [exact three_keyed|]. split; [exact three_told|exact three_not_name]. Qed.
