(* Code from the texts of two schemas, beside the four that come with the package. *)
From Coq Require Import Permutation.
From Verif Require Import Base ScopeModel ScopeSpec TreeModel TreeSpec ParseModel DecodeModel ParseSpec ParseProofs MarshalModel IndentExamples.
From Verif Require Import GraphModel BuiltinModel XsdModel NormModel NormMem NormOps NormSpec NormFixed NormExamples NormRefSpec NormIndex NormStart NormDocs XsdparseModel XsdparseSpec XsdparseProofs StdSchema XsdparseExamples NormAgain NormAgainExamples.
From Verif Require Import SortLib TypesModel TypesSpec TypesExamples GenModel SgModel SgFlatSpec SgStruct SgExamples SgGen SgGenSpec SgGenExamples PipeModel PipeSpec PipeProofs PipeExamples PipeWholeSpec TextModel TextSpec.
Local Open Scope string_scope.

Definition paint_text : string := "<schema targetNamespace='urn:b' xmlns='http://www.w3.org/2001/XMLSchema'>" ++
  "<simpleType name='Color'><restriction base='string'><enumeration value='red'/><enumeration value='blue'/></restriction></simpleType>" ++
  "<simpleType name='Sizes'><list itemType='int'/></simpleType></schema>".
Definition car_text : string := "<schema targetNamespace='urn:a' xmlns='http://www.w3.org/2001/XMLSchema' xmlns:b='urn:b'><import namespace='urn:b'/>" ++
  "<complexType name='Car'><sequence><element name='color' type='b:Color'/><element name='sizes' type='b:Sizes' minOccurs='0'/></sequence><attribute name='built' type='date'/></complexType></schema>".
Definition car_trees : list elem := Eval vm_compute in XsdparseExamples.known [paint_text; car_text].
Notation parse_ := (parse_texts isort_ns decode dbl dbl pow2 pow2 standard_schema 60 (fun _ => Some "") unit unit tt tt (fun _ => None) (fun _ => None) (fun _ => None) (fun _ => true) (fun _ => "")).
Notation gen_ := (gen_texts isort_ns decode dbl dbl pow2 pow2 standard_schema 60 (fun _ => Some "") unit unit tt tt (fun _ => None) (fun _ => None) (fun _ => None) (fun _ => true) (fun _ => "") pub None None None None all_helpers false as_is in_order).
Definition rds_in (r : run (option (list rd))) : list rd := match r with Ret (Some l) => l | _ => [] end.
Definition car_rds : list rd := Eval vm_compute in rds_in (parse_ [paint_text; car_text]).
Definition std_rds : list rd := Eval vm_compute in rds_in (parse_ []).
(* how deep types refer to others *)
Fixpoint depth (l : list rd) (f : nat) (n : xname) : nat :=
  match f with
  | 0 => 0
  | S f => match find (fun p => xname_eqb (fst p) n) (decls l) with Some (_, d) => S (fold_left Nat.max (map (fun t => match t with TLink m => depth l f m | _ => 0 end) (uses d)) 0) | None => 0 end
  end.
Definition tall (t : list (xname * nat)) (n : xname) : nat := match find (fun p => xname_eqb (fst p) n) t with Some (_, k) => k | None => 0 end.
Lemma tall_le t b : forallb (fun p => Nat.leb (snd p) b) t = true -> forall n, tall t n <= b.
Proof. intros H n. unfold tall. destruct (find _ t) as [[m k]|] eqn:E; [|lia]. apply find_some in E as [E _]. rewrite forallb_forall in H. specialize (H _ E). apply Nat.leb_le in H. exact H. Qed.
Definition car_tall : list (xname * nat) := Eval vm_compute in map (fun p => (fst p, depth car_rds 12 (fst p))) (decls car_rds).

Lemma car_told : Forall2 (fun s e => told s = Some e) [paint_text; car_text] car_trees.
Proof. unfold car_trees. repeat apply Forall2_cons; try apply Forall2_nil; match goal with |- told ?s = Some ?e => vm_cast_no_check (eq_refl (Some e)) end. Qed.
Lemma car_workable : workable 60 (car_trees ++ std_trees).
Proof. apply workable_ok. vm_compute. reflexivity. Qed.
Lemma car_parsed : parse_ [paint_text; car_text] = Ret (Some car_rds).
Proof. vm_cast_no_check (eq_refl (Ret (Some car_rds))). Qed.
Lemma std_parsed : parse_ [] = Ret (Some std_rds).
Proof. vm_cast_no_check (eq_refl (Ret (Some std_rds))). Qed.
Lemma car_good : documents (tall car_tall) car_rds /\ (forall n, tall car_tall n <= N.to_nat 1000) /\ imports_first car_rds.
Proof.
  assert (N : NoDup (map fst (decls car_rds))) by (apply (nodupb_ok xname_eqb (fun a b X => proj2 (xname_eqb_eq a b) X)); vm_compute; reflexivity).
  split; [apply (documentsb_ok _ _ N 20); vm_compute; reflexivity|]. split; [|apply imports_firstb_ok; vm_compute; reflexivity].
  intros n. apply Nat.le_trans with 20; [|lia]. apply tall_le. vm_compute. reflexivity.
Qed.
Definition unnestedb (docs : list elem) : bool := forallb (fun e => forallb (fun k => forallb (fun d => negb (is_schema d)) (subs k)) (e_children e)) (flat_map schemas_of docs).
Lemma unnestedb_ok docs : unnestedb docs = true -> unnested docs.
Proof.
  intros H d e q k Hd He Hk N. unfold unnestedb in H. rewrite forallb_forall in H. specialize (H e (proj2 (in_flat_map _ _ _) (ex_intro _ d (conj Hd He)))). rewrite forallb_forall in H.
  destruct Hk as [Q S]. destruct q as [|i q]; [congruence|]. cbn [sub] in S. destruct (nth_error (e_children e) i) as [c|] eqn:E; [|discriminate]. apply nth_error_In in E. specialize (H c E). rewrite forallb_forall in H. specialize (H k (sub_subs q c k S)).
  unfold is_schema in H. rewrite N in H. discriminate H.
Qed.
Lemma car_unnested : unnested car_trees.
Proof. apply unnestedb_ok. vm_compute. reflexivity. Qed.
Lemma wildb_ok l : forallb (fun p => match snd p with DC c => forallb (fun e => Bool.eqb (el_wild e) (xname_eqb (el_name e) (mkName "" ""))) (ct_elems c) | DS _ => true end) (decls l) = true -> wild_declared l.
Proof.
  intros Q n c e H. apply declares_in in H. rewrite forallb_forall in Q. specialize (Q _ H). cbn [snd] in Q. rewrite forallb_forall in Q. intros He. specialize (Q e He). apply Bool.eqb_prop in Q. rewrite Q. apply xname_eqb_eq.
Qed.
Fixpoint structuredb (l : list rd) (f : nat) (t : ty) : bool :=
  match f with
  | 0 => false
  | S f => match t with TB 0 => true | TLink n => match find (fun p => xname_eqb (fst p) n) (decls l) with Some (_, DC c) => structuredb l f (ct_base c) | _ => false end | _ => false end
  end.
Lemma structuredb_ok l : forall f t, structuredb l f t = true -> structured l t.
Proof.
  induction f as [|f IH]; intros t H; [discriminate|]. cbn [structuredb] in H. destruct t as [|b|n|i]; try discriminate; [destruct b; try discriminate; constructor|]. destruct (find _ _) as [[m [c|c]]|] eqn:E; try discriminate. apply find_some in E as [E1 E2]. cbn [fst] in E2. apply xname_eqb_eq in E2 as ->. apply (sr_type l n c); [apply declares_in; exact E1|apply IH; exact H].
Qed.
Definition firmb (l : list rd) (f : nat) : bool :=
  forallb (fun p => match snd p with DC c => match ct_base c with TLink m => forallb (fun q => match snd q with DC b => if xname_eqb (fst q) m then match ct_attrs b with [] => structuredb l f (ct_base b) | _ => true end else true | DS _ => true end) (decls l) | _ => true end | DS _ => true end) (decls l).
Lemma firmb_ok l f : firmb l f = true -> firm_declared None l.
Proof.
  intros Q n c m b Hn Eb Hm. left. apply declares_in in Hn, Hm. unfold firmb in Q. rewrite forallb_forall in Q. specialize (Q _ Hn). cbn [snd] in Q. rewrite Eb, forallb_forall in Q. specialize (Q _ Hm). cbn [fst snd] in Q. rewrite (proj2 (xname_eqb_eq m m) eq_refl) in Q.
  destruct (ct_attrs b) as [|a l'] eqn:Ea; [right; exact (structuredb_ok l f _ Q)|left; exists a; split; [rewrite Ea; left; reflexivity|reflexivity]].
Qed.
Lemma car_kept : wild_declared car_rds /\ firm_declared None car_rds.
Proof. split; [apply wildb_ok|apply (firmb_ok _ 20)]; vm_compute; reflexivity. Qed.
Definition car_type : elem := nth 1 (e_children (nth 1 car_trees (Elem (mkName "" "") [] [] "" []))) (Elem (mkName "" "") [] [] "" []).
Definition tags_of (r : run coded) : list (string * list string) := match r with Ret (Coded c) => map (fun p => (fst p, match sp_struct (snd p) with Some fs => map sf_tag fs | None => [] end)) (co_decls c) | _ => [] end.
Lemma car_code_texts : code_names (gen_ [] [paint_text; car_text]) = [("Color", ["string"]); ("Sizes", ["int"]); ("Car", ["Color"; "Sizes"; "time.Time"]); ("xsdDate", ["time.Time"])] /\
  tags_of (gen_ [] [paint_text; car_text]) = [("Color", []); ("Sizes", []); ("Car", ["xml:""urn:b color"""; "xml:""urn:b sizes,omitempty"""; "xml:""built,attr,omitempty"""]); ("xsdDate", [])].
Proof. vm_compute. split; reflexivity. Qed.
Lemma car_kinds : NormAgain.plain (nth 1 car_trees car_type) /\ 3 * height (nth 1 car_trees car_type) <= 60 /\ In car_type (e_children (nth 1 car_trees car_type)) /\ short car_type /\ clean_scope (e_scope car_type) /\
  (exists el, member car_type el /\ attr el "" "name" = "color") /\ (exists a, attribute_of car_type a /\ attr a "" "name" = "built") /\ only_name pub car_rds (mkName "urn:a" "Car").
Proof.
  split; [apply plainb_ok; vm_compute; reflexivity|].
  split; [apply Nat.leb_le; vm_compute; reflexivity|]. split; [right; left; reflexivity|].
  split; [split; [reflexivity|]; intros c [<-|[<-|[]]]; split; discriminate|].
  split; [split|].
  - unfold no_shadowing. change (map nlocal (e_scope car_type)) with [""; "b"]. repeat (constructor; [cbn [In]; intuition discriminate|]). constructor.
  - intros d Hd. change (e_scope car_type) with [mkName "http://www.w3.org/2001/XMLSchema" ""; mkName "urn:b" "b"] in Hd. destruct Hd as [<-|[<-|[]]]; (split; [reflexivity|]); intros [X|X]; discriminate X.
  - split; [|split].
    + eexists. split; [exists (nth 0 (e_children car_type) car_type); split; [left; reflexivity|]; split; [left; reflexivity|]; split; [left; reflexivity|reflexivity]|reflexivity].
    + eexists. split; [split; [right; left; reflexivity|reflexivity]|reflexivity].
    + split; [|intros b H X].
      * intros m d Hd Hm. apply declares_in in Hd. assert (Q : forallb (fun p => negb (String.eqb (pub (fst p)) "Car") || xname_eqb (fst p) (mkName "urn:a" "Car")) (decls car_rds) = true) by (vm_compute; reflexivity).
        rewrite forallb_forall in Q. specialize (Q _ Hd). cbn [fst] in Q. rewrite Hm in Q. change (xname_eqb m (mkName "urn:a" "Car") = true) in Q. apply xname_eqb_eq. exact Q.
      * unfold helper_name in X. discriminate X.
Qed.
Definition paint_types : list elem := e_children (nth 0 car_trees car_type).
Lemma paint_kinds : NormAgain.plain (nth 0 car_trees car_type) /\ 3 * height (nth 0 car_trees car_type) <= 60 /\ map (fun k => attr k "" "name") paint_types = ["Color"; "Sizes"] /\
  enumeration (nth 0 paint_types car_type) /\ list_type (nth 1 paint_types car_type).
Proof.
  split; [apply plainb_ok; vm_compute; reflexivity|]. split; [apply Nat.leb_le; vm_compute; reflexivity|]. split; [reflexivity|]. split.
  - split; [reflexivity|]. eexists [], _, [], _. split; [reflexivity|]. split; [reflexivity|]. split; [intros c []|]. split; [left; reflexivity|reflexivity].
  - split; [reflexivity|]. eexists. split; [left; reflexivity|reflexivity].
Qed.
(* the schemas that come with the package, by themselves *)
Definition std_tall : list (xname * nat) := Eval vm_compute in map (fun p => (fst p, depth std_rds 12 (fst p))) (decls std_rds).
Lemma std_good : documents (tall std_tall) std_rds /\ (forall n, tall std_tall n <= N.to_nat 1000) /\ imports_first std_rds.
Proof.
  assert (N : NoDup (map fst (decls std_rds))) by (apply (nodupb_ok xname_eqb (fun a b X => proj2 (xname_eqb_eq a b) X)); vm_compute; reflexivity).
  split; [apply (documentsb_ok _ _ N 20); vm_compute; reflexivity|]. split; [|apply imports_firstb_ok; vm_compute; reflexivity].
  intros n. apply Nat.le_trans with 20; [|lia]. apply tall_le. vm_compute. reflexivity.
Qed.
(* a text that is no XML *)
Lemma broken_text : gen_ [] [paint_text; "<schema"] = Ret Unparsed.
Proof. vm_compute. reflexivity. Qed.
Lemma car_spaces : spaces_of car_trees = ["urn:b"; "urn:a"].
Proof. vm_compute. reflexivity. Qed.
