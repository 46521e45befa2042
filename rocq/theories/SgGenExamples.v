(* Generating code: cases and counterexamples. *)
From Verif Require Import Base SortLib ScopeModel TreeModel EqualModel BuiltinModel CodecModel XsdModel XsdProofs TypesModel TypesSpec TypesProofs GraphModel GenModel SgModel SgStruct SgProofs SgNames SgTags SgExamples SgFlat SgClosed SgFlatSpec SgFlatten SgFlatExamples SgExpandSpec SgExpand SgExpandFields SgExpandExamples SliceModel SgGen SgGenSpec SgGenProofs SgGenCode.
Local Open Scope string_scope.

(* deciding generable for a given store *)
Definition all_helpers : list Z := [13; 27; 16; 39; 17; 22; 23; 24; 25; 26]%Z.
Lemma all_helpers_ok b : non_trivial b = true -> memb b all_helpers = true.
Proof. exact (fun H => H). Qed.
Definition numbered_defs (st : store) : list (nat * def) := combine (seq 0 (List.length st)) st.
Definition mixedb (st : store) : bool :=
  forallb (fun d => match d with
                    | DC c => match ct_base c with TPtr j => match nth_error st j with Some (DC b) => implb (ct_mixed c) (ct_mixed b) | _ => true end | _ => true end
                    | DS _ => true end) st.
Lemma mixedb_ok st : mixedb st = true -> mixed_down st.
Proof.
  intros H i c j b Hi Hm Hb Hj. unfold mixedb in H. rewrite forallb_forall in H. specialize (H _ (nth_error_In _ _ Hi)). cbn beta iota in H. rewrite Hb, Hj, Hm in H. left. exact H.
Qed.
Definition translatedb (b : Z) : bool := ((0 <=? b) && (b <? 50) && negb ((45 <=? b) && (b <=? 48)))%Z%bool.
Lemma translatedb_ok b : translatedb b = true -> translated b.
Proof. unfold translatedb, translated. intros H. apply andb_true_iff in H as [H H3]. apply andb_true_iff in H as [H1 H2]. apply Z.leb_le in H1. apply Z.ltb_lt in H2. split; [lia|]. intros [X Y]. apply Z.leb_le in X, Y. rewrite X, Y in H3. discriminate. Qed.
Definition all_translatedb (fuel : nat) (st : store) : bool :=
  forallb (fun d => forallb (fun u => match leads fuel st u with Some b => translatedb b | None => false end) (uses d)) st.
Lemma all_translatedb_ok fuel st : all_translatedb fuel st = true -> all_translated st.
Proof.
  intros H i d u b Hi Hu Ha. unfold all_translatedb in H. rewrite forallb_forall in H. specialize (H _ (nth_error_In _ _ Hi)). rewrite forallb_forall in H. specialize (H u Hu).
  destruct (leads fuel st u) as [z|] eqn:L; [|discriminate]. rewrite (root_unique st u b z Ha (leads_ok _ _ _ _ L)). apply translatedb_ok. exact H.
Qed.
Definition listsb (fuel : nat) (st : store) : bool :=
  forallb (fun p => match snd p with
                    | DS s => if sd_list s then match leads fuel st (TPtr (fst p)) with Some b => match list_codec b with Some c => body_parses c | None => false end | None => false end else true
                    | DC _ => true end) (numbered_defs st).
Lemma listsb_ok fuel st : listsb fuel st = true -> lists_supported st.
Proof.
  intros H i s b Hi Hl Ha. unfold listsb in H. rewrite forallb_forall in H. specialize (H _ (combine_nth st 0 i _ Hi)). cbn [fst snd Nat.add] in H. rewrite Hl in H. destruct (leads fuel st (TPtr i)) as [z|] eqn:L; [|discriminate].
  assert (z = b) as -> by exact (root_unique st _ _ _ (leads_ok _ _ _ _ L) Ha). destruct (list_codec b) as [c|]; [|discriminate]. exists c. auto.
Qed.
Definition generableb (fuel : nat) (h : nat -> nat) (st : store) : bool :=
  (completeb fuel st && apartb st && rankedb h st && mixedb st && all_translatedb fuel st && listsb fuel st)%bool.
Lemma generableb_ok fuel h st : generableb fuel h st = true -> generable h st.
Proof.
  intros H. unfold generableb in H. repeat (apply andb_true_iff in H as [H ?]). split; [exact (completeb_ok fuel st H)|apply apartb_ok; assumption|apply rankedb_ok; assumption|apply mixedb_ok; assumption|eapply all_translatedb_ok; eassumption|eapply listsb_ok; eassumption].
Qed.

(* ---------- a schema with text, lists, inheritance and dates ---------- *)
Definition shop : store := (cars ++
  [DS (list_of "Sizes" (TB 28)); DC (ct_of "Order" (TB 0) [el_of "placed" (TB 16); el_of "sizes" (TPtr 5); el_of "car" (TPtr 4)] [at_of "key" (TB 27)] false);
   DC (ct_of "Label" (TPtr 0) [] [at_of "lang" (TB 38)] true); DC (ct_of "Sub" (TPtr 7) [] [] true)])%list.
Definition shop_types : list (list ty) := [[TPtr 6; TPtr 8]; car_types].
Definition shop_rank (i : nat) : nat := match i with 5 => 0 | 6 => 4 | 7 => 2 | 8 => 3 | _ => car_rank i end.
Lemma shop_generable : generable shop_rank shop /\ forall i, shop_rank i <= N.to_nat 1000.
Proof. split; [apply (generableb_ok 6); vm_compute; reflexivity|]. intros i. do 9 (destruct i as [|i]; [cbn [shop_rank car_rank]; lia|]). cbn [shop_rank car_rank]. lia. Qed.
Lemma shop_known : forall types t, In types shop_types -> In t types -> known shop t.
Proof. intros types t H1 H2. apply knownb_ok. revert t H2. apply forallb_forall. revert types H1. apply forallb_forall. vm_compute. reflexivity. Qed.
Lemma shop_code : match gen pub None None None None all_helpers false shop shop_types with
  | Ret (inr c) => map (fun p => (fst p, spec_ids (snd p))) (co_decls c) | _ => [] end =
  [("Sizes", ["int"]); ("Name", ["string"]); ("Color", ["string"]); ("Car", ["Color"; "string"; "string"; "string"]);
   ("Truck", ["Color"; "string"; "string"; "Car"; "string"]); ("Order", ["time.Time"; "Sizes"; "Truck"; "byte"]);
   ("Label", ["Color"; "string"]); ("Sub", ["Color"; "string"]); ("xsdDate", ["time.Time"]); ("xsdHexBinary", ["byte"])].
Proof. vm_compute. reflexivity. Qed.

(* ---------- not closed ---------- *)
Notation gen_plain := (gen pub None None None None all_helpers false).
Lemma knot_code : exists c s, gen_plain knot [knot_types] = Ret (inr c) /\ In ("X", s) (co_decls c) /\ spec_ids s = ["S"] /\ map fst (co_decls c) = ["T1"; "X"; "T2"].
Proof. eexists. eexists. split; [vm_compute; reflexivity|]. cbn [co_decls]. split; [right; left; reflexivity|]. split; reflexivity. Qed.
Lemma knot_not_closed : complete knot /\ apart knot /\ mixed_down knot /\ all_translated knot /\ lists_supported knot /\ exists c, gen_plain knot [knot_types] = Ret (inr c) /\ ~ closed_code (co_decls c).
Proof.
  split; [apply (completeb_ok 9); reflexivity|]. split; [apply apartb_ok; reflexivity|]. split; [apply mixedb_ok; reflexivity|]. split; [apply (all_translatedb_ok 9); vm_compute; reflexivity|]. split; [apply (listsb_ok 9); reflexivity|].
  destruct knot_code as (c & s & E & I & S & K). exists c. split; [exact E|]. intros H. destruct (proj1 (H "X" s I) "S") as [X|X]; [rewrite S; left; reflexivity| |].
  - repeat (destruct X as [X|X]; [discriminate|]). destruct X.
  - rewrite K in X. repeat (destruct X as [X|X]; [discriminate|]). destruct X.
Qed.
(* C is text of the type Color, but gets it through B, which has no text *)
Definition deep : store := [DS (enum_of "Color" (TB 38) ["red"]); DC (ct_of "B" (TPtr 0) [] [at_of "x" (TB 38)] false); DC (ct_of "C" (TPtr 1) [] [] true)].
Lemma deep_not_closed : complete deep /\ apart deep /\ ranked (fun i => i) deep /\ all_translated deep /\ lists_supported deep /\
  exists c, gen_plain deep [[TPtr 2]] = Ret (inr c) /\ ~ closed_code (co_decls c).
Proof.
  split; [apply (completeb_ok 4); reflexivity|]. split; [apply apartb_ok; reflexivity|]. split; [apply rankedb_ok; reflexivity|]. split; [apply (all_translatedb_ok 4); vm_compute; reflexivity|]. split; [apply (listsb_ok 4); reflexivity|].
  assert (X : exists c s, gen_plain deep [[TPtr 2]] = Ret (inr c) /\ In ("C", s) (co_decls c) /\ In "Color" (spec_ids s) /\ map fst (co_decls c) = ["B"; "C"]).
  { eexists. eexists. split; [vm_compute; reflexivity|]. cbn [co_decls]. split; [right; left; reflexivity|]. split; [left; reflexivity|reflexivity]. }
  destruct X as (c & s & E & I & S & K). exists c. split; [exact E|]. intros H. destruct (proj1 (H "C" s I) "Color" S) as [X|X].
  - repeat (destruct X as [X|X]; [discriminate|]). destruct X.
  - rewrite K in X. repeat (destruct X as [X|X]; [discriminate|]). destruct X.
Qed.
(* an error in one type, here a list of booleans, and there is no code at all *)
Definition switches : store := [DS (list_of "Switches" (TB 14)); DC (ct_of "A" (TB 0) [el_of "x" (TB 38)] [] false)].
Lemma switches_fail : gen_plain switches [[TPtr 0; TPtr 1]] = Ret (inl [mkName "urn:a" "Switches"]).
Proof. vm_compute. reflexivity. Qed.

(* ---------- names of types that are not declared ---------- *)
(* Paint is text of type Color and has no attributes *)
Definition paint : store := [DS (enum_of "Color" (TB 38) ["red"]); DC (ct_of "Paint" (TPtr 0) [] [] true)].
Definition paint_all : list (xname * ty) := [(mkName "urn:a" "Color", TPtr 0); (mkName "urn:a" "Paint", TPtr 1)].
Lemma paint_generable : generable (fun i => Nat.min i 9) paint /\ forall i, Nat.min i 9 <= N.to_nat 1000.
Proof. split; [apply (generableb_ok 4); vm_compute; reflexivity|intros i; lia]. Qed.
Lemma paint_name : exists c c', gen_plain paint [[TPtr 0; TPtr 1]] = Ret (inr c) /\ map fst (co_decls c) = ["Color"] /\
  name_of pub None None all_helpers paint_all c (mkName "urn:a" "Paint") = Ret (c', "Paint") /\ co_decls c' = co_decls c.
Proof. eexists. eexists. split; [vm_compute; reflexivity|]. split; [reflexivity|]. split; [vm_compute; reflexivity|reflexivity]. Qed.
(* B is not among the types asked for *)
Definition excluded : store := [DC (ct_of "A" (TB 0) [el_of "x" (TB 38)] [] false); DC (ct_of "B" (TB 0) [el_of "x" (TB 38)] [] false)].
Definition excluded_all : list (xname * ty) := [(mkName "urn:a" "A", TPtr 0); (mkName "urn:a" "B", TPtr 1)].
Lemma excluded_name : exists c c', gen pub None None None (Some [mkName "urn:a" "A"]) all_helpers false excluded [[TPtr 0; TPtr 1]] = Ret (inr c) /\ map fst (co_decls c) = ["A"] /\
  name_of pub None None all_helpers excluded_all c (mkName "urn:a" "B") = Ret (c', "B") /\ co_decls c' = co_decls c.
Proof. eexists. eexists. split; [vm_compute; reflexivity|]. split; [reflexivity|]. split; [vm_compute; reflexivity|reflexivity]. Qed.

(* the same, with a date in both: the helper type has been declared for A and is gone *)
Definition dated : store := [DC (ct_of "A" (TB 0) [el_of "x" (TB 16)] [] false); DC (ct_of "B" (TB 0) [el_of "x" (TB 16)] [] false)].
Lemma dated_name : exists c c', gen pub None None None (Some [mkName "urn:a" "A"]) all_helpers false dated [[TPtr 0; TPtr 1]] = Ret (inr c) /\ map fst (co_decls c) = ["A"; "xsdDate"] /\
  name_of pub None None all_helpers excluded_all c (mkName "urn:a" "B") = Ret (c', "ERRORB") /\ co_decls c' = co_decls c.
Proof. eexists. eexists. split; [vm_compute; reflexivity|]. split; [reflexivity|]. split; [vm_compute; reflexivity|reflexivity]. Qed.

(* ---------- cases of stays and plain ---------- *)
Lemma shop_stays : stays None shop (TPtr 0) /\ stays None shop (TPtr 3) /\ stays None shop (TPtr 6) /\ stays None excluded (TPtr 0) /\ ~ stays None shop (TPtr 2).
Proof.
  split; [|split; [|split; [|split]]].
  - cbn [stays]. change (nth_error shop 0) with (Some (DS (enum_of "Color" (TPtr 1) ["red"; "blue"]))). cbv iota. intros b _ (_ & _ & _ & H & _). discriminate.
  - cbn. left. eexists. split; [left; reflexivity|reflexivity].
  - cbn. left. eexists. split; [left; reflexivity|reflexivity].
  - cbn [stays excluded nth_error]. right. split; [apply an_base; [discriminate|constructor]|]. intros k s Hk. destruct k as [|[|k]]; try discriminate. destruct k; discriminate.
  - cbn [stays]. change (nth_error shop 2) with (Some (DC (ct_of "Note" (TPtr 1) [] [] true))). cbv iota. intros [(a & [] & _)|[_ H]]. apply (H 1 (simple_of "Name" (TB 38)) eq_refl). apply an_base; [discriminate|constructor].
Qed.
Lemma shop_plain : nth_error shop 1 = Some (DS (simple_of "Name" (TB 38))) /\ ancestor shop (TPtr 1) (TB 38) /\ plain (simple_of "Name" (TB 38)) 38 /\ builtin_expr 38 = Returns (Some (GIdent "string")).
Proof. split; [reflexivity|]. split; [apply an_base; [discriminate|constructor]|]. split; [repeat split|reflexivity]. Qed.
Lemma shop_names : match gen_plain shop shop_types with
  | Ret (inr c) => map (fun p => match name_of pub None None all_helpers [(mkName "urn:a" "Car", TPtr 3); (mkName "urn:a" "Note", TPtr 2); (mkName "urn:a" "Name", TPtr 1)] c (mkName (fst p) (snd p)) with Ret (_, id) => id | _ => "" end)
                       [("urn:a", "Car"); ("urn:a", "Note"); ("urn:a", "Name"); (schemaNS, "date"); ("urn:b", "Car")]
  | _ => [] end = ["Car"; "string"; "Name"; "time.Time"; "NOTFOUNDCar"].
Proof. vm_compute. reflexivity. Qed.
