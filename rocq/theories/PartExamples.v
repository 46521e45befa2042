(* Parts of WSDL messages that refer to elements of two documents. *)
From Coq Require Import Permutation.
From Verif Require Import Base SortLib ScopeModel TreeModel TreeSpec EqualModel BuiltinModel CodecModel XsdModel XsdProofs TypesModel TypesSpec TypesProofs TypesOrder TypesExamples GenModel SgModel SgStruct SgDecl SgExamples SgFlatSpec SgExpandSpec WsdlModel SliceModel SgGen SgGenSpec SgGenExamples BindProofs PipeModel PipeSpec PipeProofs PipeParse PipeExamples PartModel PartSpec PartProofs.
Local Open Scope string_scope.

(* the elements have nothing inside *)
Lemma bare_tops root : (forall el, In el (tops root) -> s_in colon (attr el "" "name") = false /\ e_children el = []) -> NoDup (map (fun el => attr el "" "name") (tops root)) -> plain_tops root.
Proof.
  intros H N. split; [intros el He; exact (proj1 (H el He))|exact N|]. intros el q d He Q S. destruct q as [|k q]; [contradiction|]. cbn [sub] in S. rewrite (proj2 (H el He)) in S. destruct k; discriminate.
Qed.
Lemma bare root : forallb (fun el => negb (s_in colon (attr el "" "name")) && match e_children el with [] => true | _ => false end)%bool (tops root) = true -> nodupb String.eqb (map (fun el => attr el "" "name") (tops root)) = true -> plain_tops root.
Proof.
  intros H N. rewrite forallb_forall in H. apply bare_tops; [|exact (nodupb_ok String.eqb (fun a b X => proj2 (String.eqb_eq a b) X) _ N)]. intros el He. specialize (H el He). apply andb_prop in H as [H1 H2]. apply negb_true_iff in H1. destruct (e_children el); [auto|discriminate].
Qed.
Definition car_roots := [base_doc; main_doc].
Lemma car_read : Forall2 (fun root r => rd_of root = Some r) car_roots car_docs.
Proof. destruct docs_read. repeat constructor; assumption. Qed.
Lemma car_tops root : In root car_roots -> plain_tops root /\ attr root "" "targetNamespace" <> "".
Proof. intros [<-|[<-|[]]]; (split; [apply bare; vm_compute; reflexivity|vm_compute; discriminate]). Qed.
Lemma car_unused : unused_self car_docs.
Proof.
  intros n d m H Hm. apply declares_in in H. assert (Q : forallb (fun p => forallb (fun t => match t with TLink m => negb (String.eqb (nlocal m) "_self") | _ => true end) (uses (snd p))) (decls car_docs) = true) by (vm_compute; reflexivity).
  rewrite forallb_forall in Q. specialize (Q _ H). cbn [snd] in Q. rewrite forallb_forall in Q. specialize (Q _ Hm). cbn beta iota in Q. apply negb_true_iff, String.eqb_neq in Q. exact Q.
Qed.
Lemma car_spaces s : In s ["urn:a"; "urn:b"] -> exists root, In root car_roots /\ attr root "" "targetNamespace" = s.
Proof. intros [<-|[<-|[]]]; [exists main_doc|exists base_doc]; (split; [cbn; auto|vm_compute; reflexivity]). Qed.
(* the type of a part of the code of these documents *)
Definition car_part (p : part) : option (option string) :=
  match parse_rds as_is car_docs, gen_code pub None None None None all_helpers false as_is in_order [] ["urn:a"; "urn:b"] car_docs with
  | Ok (st, parsed), Ret (Coded c) =>
      match get_part_type pub None None all_helpers (all_types (chosen_schemas [] ["urn:a"; "urn:b"] car_docs parsed) (deps car_docs parsed)) c p with
      | Ret (Some (_, x)) => Some (Some x) | Ret None => Some None | _ => None end
  | _, _ => None
  end.
Lemma car_top : top_element main_doc "car" (mkName "urn:a" "Car") /\ top_element main_doc "paint" (mkName "urn:b" "Color").
Proof.
  split; apply top_is; [exists (List.nth 0 (tops main_doc) main_doc)|exists (List.nth 1 (tops main_doc) main_doc)]; (split; [vm_compute; auto|split; vm_compute; reflexivity]).
Qed.
Lemma car_declared : exists d, PipeSpec.declares car_docs (mkName "urn:a" "Car") d /\ own_declaration None car_docs d /\ picked None None (mkName "urn:a" "Car").
Proof.
  exists (snd (List.nth 0 (rd_types rd_main) (mkName "" "", DC (ct_of "" TNil [] [] false)))). split; [exists rd_main; split; [right; left; reflexivity|left; reflexivity]|]. split; [|split; [discriminate|split; intros; discriminate]].
  right. eapply sr_type; [exists rd_base; split; [left; reflexivity|cbn; auto 6]|]. apply sr_any.
Qed.
Lemma car_parts : car_part (mkPart "x" (mkName "" "") (mkName "urn:a" "car")) = Some (Some "Car") /\ car_part (mkPart "x" (mkName "" "") (mkName "urn:a" "paint")) = Some None /\
  car_part (mkPart "x" (mkName "" "") (mkName "urn:b" "car")) = Some None /\ car_part (mkPart "x" (mkName "urn:b" "Color") (mkName "" "")) = Some (Some "Color").
Proof. vm_compute. repeat split; reflexivity. Qed.
Lemma foreign_part : top_element main_doc "paint" (mkName "urn:b" "Color") /\ attr main_doc "" "targetNamespace" = "urn:a" /\
  car_part (mkPart "x" (mkName "" "") (mkName "urn:a" "paint")) = Some None /\ car_part (mkPart "x" (mkName "" "") (mkName "urn:b" "paint")) = Some None /\ car_part (mkPart "x" (mkName "urn:b" "Color") (mkName "" "")) = Some (Some "Color").
Proof. split; [exact (proj2 car_top)|]. vm_compute. repeat split; reflexivity. Qed.
