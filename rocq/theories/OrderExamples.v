(* The order of the types: cases and counterexamples. *)
From Coq Require Import Permutation.
From Verif Require Import Base SortLib ScopeModel TreeModel EqualModel BuiltinModel CodecModel XsdModel XsdProofs TypesModel TypesSpec TypesProofs GraphModel GenModel SgModel SgStruct SgProofs SgNames SgTags SgDecl SgExamples SgFlat SgClosed SgFlatSpec SgFlatten SgFlatExamples SgExpandSpec SgExpand SgExpandFields SgExpandExamples SliceModel SgGen SgGenSpec SgGenProofs SgGenCode SgGenExamples SgOrderSpec.
Local Open Scope string_scope.

(* deciding the hypotheses for a given store *)
Definition simple_upb (st : store) : bool := forallb (fun d => match d with DS s => match sd_base s with TPtr j => is_simple st (TPtr j) | _ => true end | DC _ => true end) st.
Definition no_anyb (fuel : nat) (st : store) : bool :=
  forallb (fun p => match snd p with DS _ => match leads fuel st (TPtr (fst p)) with Some b => negb (b =? 0)%Z | None => false end | DC _ => true end) (numbered_defs st).
Definition textb (st : store) (t : ty) : bool := match t with TB b => negb (b =? 0)%Z | _ => is_simple st t end.
Definition bareb (fa : option (attribute -> bool)) (c : complexT) : bool := forallb (filtered fa) (ct_attrs c).
Definition no_textb (fa : option (attribute -> bool)) (st : store) : bool :=
  forallb (fun d => match d with
    | DC c => match ct_base c with TPtr j => match nth_error st j with Some (DC b) => negb (bareb fa c && bareb fa b && textb st (ct_base b)) | _ => true end | _ => true end
    | DS _ => true end) st.
Lemma steadyb_ok fuel fa st : (simple_upb st && no_anyb fuel st && no_textb fa st)%bool = true -> steady fa st.
Proof.
  intros H. apply andb_true_iff in H as [H H3]. apply andb_true_iff in H as [H1 H2]. unfold simple_upb, no_anyb, no_textb in *. rewrite forallb_forall in H1, H2, H3. split.
  - intros i s j E Eb. specialize (H1 _ (nth_error_In _ _ E)). cbn beta iota in H1. rewrite Eb in H1. exact H1.
  - intros i s E _ A. specialize (H2 _ (combine_nth st 0 i _ E)). cbn [fst snd Nat.add] in H2. destruct (leads fuel st (TPtr i)) as [z|] eqn:L; [|discriminate]. assert (z = 0%Z) as -> by exact (root_unique st _ _ _ (leads_ok _ _ _ _ L) A). discriminate.
  - intros i c j b E Nc Eb Ej Nb T. specialize (H3 _ (nth_error_In _ _ E)). cbn beta iota in H3. rewrite Eb, Ej in H3.
    assert (B1 : bareb fa c = true) by (apply forallb_forall; exact Nc). assert (B2 : bareb fa b = true) by (apply forallb_forall; exact Nb). rewrite B1, B2 in H3. cbn [andb] in H3.
    assert (B3 : textb st (ct_base b) = true). { unfold is_text in T. unfold textb. destruct (ct_base b); try exact T. apply negb_true_iff, Z.eqb_neq. exact T. } rewrite B3 in H3. discriminate.
Qed.
Definition wildb (st : store) : bool := forallb (fun d => match d with DC c => forallb (fun e => Bool.eqb (el_wild e) (xname_eqb (el_name e) (mkName "" ""))) (ct_elems c) | DS _ => true end) st.
Lemma wildb_ok st : wildb st = true -> wild_named st.
Proof.
  intros H i c e E He. unfold wildb in H. rewrite forallb_forall in H. specialize (H _ (nth_error_In _ _ E)). cbn beta iota in H. rewrite forallb_forall in H. specialize (H e He). apply Bool.eqb_prop in H. rewrite H. apply xname_eqb_eq.
Qed.
(* ls holds all that is reached *)
Definition names_apartb (public : xname -> string) (ft : option (xname -> bool)) (allow : option (list xname)) (st : store) (schemas : list (list ty)) (ls : list nat) : bool :=
  let within t := match t with TPtr j => existsb (Nat.eqb j) ls | _ => true end in
  (forallb (forallb (fun t => match type_name st t with Some n => implb (selected ft allow n) (within t) | None => true end)) schemas &&
   forallb (fun i => match nth_error st i with Some d => forallb within (uses d) | None => true end) ls &&
   forallb (fun i => forallb (fun j => match nth_error st i, nth_error st j with
     | Some d, Some e => implb (String.eqb (public (def_name d)) (public (def_name e))) (Nat.eqb i j) | _, _ => true end) ls) ls)%bool.
Lemma names_apartb_ok public ft allow st schemas ls : names_apartb public ft allow st schemas ls = true -> names_apart public ft allow st schemas.
Proof.
  intros H. unfold names_apartb in H. cbv zeta in H. apply andb_prop in H as [H H3]. apply andb_prop in H as [H1 H2].
  assert (Q : forall t, reached ft allow st schemas t -> match t with TPtr j => In j ls | _ => True end).
  { assert (X : forall t, match t with TPtr j => existsb (Nat.eqb j) ls | _ => true end = true -> match t with TPtr j => In j ls | _ => True end).
    { intros [| | |j] Hj; auto. apply existsb_exists in Hj as (x & Hx & E). apply Nat.eqb_eq in E. subst x. exact Hx. }
    induction 1 as [types t n Hs Ht Hn Sn|i d u _ IH E Hu]; apply X.
    - rewrite forallb_forall in H1. specialize (H1 _ Hs). rewrite forallb_forall in H1. specialize (H1 _ Ht). cbn beta in H1. apply selected_picked in Sn. rewrite Hn, Sn in H1. exact H1.
    - cbn beta iota in IH. rewrite forallb_forall in H2. specialize (H2 _ IH). cbn beta in H2. rewrite E, forallb_forall in H2. exact (H2 _ Hu). }
  intros i j n m Hi Hj En Em E. apply Q in Hi, Hj. cbn [type_name] in En, Em. rewrite forallb_forall in H3. specialize (H3 _ Hi). rewrite forallb_forall in H3. specialize (H3 _ Hj). cbn beta in H3.
  destruct (nth_error st i) as [d|]; [|discriminate]. destruct (nth_error st j) as [e|]; [|discriminate]. cbn [option_map] in En, Em. injection En as <-. injection Em as <-. rewrite E, String.eqb_refl in H3. apply Nat.eqb_eq. exact H3.
Qed.
Lemma shop_steady : steady None shop /\ wild_named shop /\ names_apart pub None None shop shop_types.
Proof. split; [apply (steadyb_ok 6); vm_compute; reflexivity|]. split; [apply wildb_ok; vm_compute; reflexivity|]. apply (names_apartb_ok _ _ _ _ _ (seq 0 9)); vm_compute; reflexivity. Qed.
Lemma shop_no_builtins : forall types b, In types shop_types -> In (TB b) types -> translated b.
Proof. intros types b H1 H2. unfold shop_types in H1. cbn [In] in H1. destruct H1 as [<-|[<-|[]]]; vm_compute in H2; repeat (destruct H2 as [H2|H2]; [discriminate|]); destruct H2. Qed.
Definition shop_types' : list (list ty) := map (@List.rev ty) shop_types.
Lemma shop_same : Forall2 (fun types types' => forall t, In t types <-> In t types') shop_types shop_types'.
Proof. unfold shop_types', shop_types. cbn [map]. apply Forall2_cons; [intros t; apply in_rev|]. apply Forall2_cons; [intros t; apply in_rev|constructor]. Qed.
(* the order matters to the intermediate lists *)
Lemma shop_orders : match gen pub None None None None all_helpers false shop shop_types, gen pub None None None None all_helpers false shop shop_types' with
  | Ret (inr c), Ret (inr c') => (map fst (co_decls c), map fst (co_decls c'), map fst (gen_ast (isort_by id) (co_decls c'))) | _, _ => ([], [], []) end =
  (["Sizes"; "Name"; "Color"; "Car"; "Truck"; "Order"; "Label"; "Sub"; "xsdDate"; "xsdHexBinary"], ["Name"; "Color"; "Label"; "Sub"; "Sizes"; "Car"; "Truck"; "Order"; "xsdDate"; "xsdHexBinary"],
   ["Car"; "Color"; "Label"; "Name"; "Order"; "Sizes"; "Sub"; "Truck"; "xsdDate"; "xsdHexBinary"]).
Proof. vm_compute. reflexivity. Qed.

(* ---------- where it does ---------- *)
Definition ast_of (st : store) (schemas : list (list ty)) : list (string * spec) :=
  match gen pub None None None None all_helpers false st schemas with Ret (inr c) => gen_ast (isort_by id) (co_decls c) | _ => [] end.
(* a type without attributes on one with text alone *)
Lemma heirs_generable : generable (fun i => Nat.min i 9) heirs /\ wild_named heirs /\ names_apart pub None None heirs [[TPtr 0; TPtr 1; TPtr 2]].
Proof. split; [apply (generableb_ok 6); vm_compute; reflexivity|]. split; [apply wildb_ok; vm_compute; reflexivity|]. apply (names_apartb_ok _ _ _ _ _ (seq 0 3)). vm_compute. reflexivity. Qed.
Lemma heirs_code : map (fun p => (fst p, spec_ids (snd p))) (ast_of heirs [[TPtr 0; TPtr 1; TPtr 2]]) = [("C", ["string"]); ("X", ["string"])] /\
  map (fun p => (fst p, spec_ids (snd p))) (ast_of heirs [[TPtr 2; TPtr 1; TPtr 0]]) = [("C", ["string"]); ("X", ["C"])].
Proof. vm_compute. split; reflexivity. Qed.
Lemma heirs_not_steady : ~ steady None heirs.
Proof. intros S. apply (sy_text _ _ S 1 (ct_of "C" (TPtr 0) [] [] true) 0 (ct_of "B" (TB 38) [] [] true)); try reflexivity; try (intros a []). discriminate. Qed.
(* two types with the same Go name *)
Definition namesakes : store := [DC (ct_of "A" (TB 0) [el_of "x" (TB 28)] [] false); DC (mkComplex "" (mkName "urn:b" "A") (TB 0) false [el_of "y" (TB 38)] [] false false false)].
Lemma namesakes_generable : generable (fun _ => 0) namesakes /\ steady None namesakes /\ wild_named namesakes.
Proof. split; [apply (generableb_ok 6); vm_compute; reflexivity|]. split; [apply (steadyb_ok 6); vm_compute; reflexivity|]. apply wildb_ok. vm_compute. reflexivity. Qed.
Lemma namesakes_code : map (fun p => (fst p, spec_ids (snd p))) (ast_of namesakes [[TPtr 0; TPtr 1]]) = [("A", ["string"])] /\
  map (fun p => (fst p, spec_ids (snd p))) (ast_of namesakes [[TPtr 1; TPtr 0]]) = [("A", ["int"])].
Proof. vm_compute. split; reflexivity. Qed.
