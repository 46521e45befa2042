(* What the declarations look like: cases and a counterexample. *)
From Verif Require Import Base SortLib ScopeModel TreeModel EqualModel BuiltinModel CodecModel XsdModel XsdProofs TypesModel TypesSpec TypesProofs GraphModel GenModel SgModel SgStruct SgProofs SgNames SgTags SgDecl SgExamples SgFlat SgClosed SgFlatSpec SgFlatten SgFlatExamples SgExpandSpec SgExpand SgExpandFields SgExpandExamples SliceModel SliceExamples SgGen SgGenSpec SgGenProofs SgGenCode SgGenClosed SgGenName SgGenExamples SgOrderSpec OrderExamples SgShapeSpec SgShape.
Local Open Scope string_scope.

(* deciding firm for a given store *)
Definition firmb (fa : option (attribute -> bool)) (st : store) : bool :=
  forallb (fun d => match d with
    | DC c => match ct_base c with
              | TPtr j => match nth_error st j with
                          | Some (DC b) => existsb (fun a => negb (filtered fa a)) (ct_attrs b) || match ct_base b with TB z => (z =? 0)%Z | _ => false end ||
                                           match ct_elems b, ct_attrs b with [], [] => negb (is_complex st (ct_base b)) | _, _ => false end
                          | _ => true end
              | _ => true end
    | DS _ => true end)%bool st.
Lemma firmb_ok fa st : firmb fa st = true -> firm fa st.
Proof.
  intros H i j (c & E & Eb & (b & Ej)). unfold firmb in H. rewrite forallb_forall in H. specialize (H _ (nth_error_In _ _ E)). cbn beta iota in H. rewrite Eb, Ej in H. apply Bool.orb_prop in H as [H|H]; [apply Bool.orb_prop in H as [H|H]|].
  - left. cbn [stays]. rewrite Ej. left. apply existsb_exists in H as (a & Ha & Hf). exists a. split; [exact Ha|]. apply negb_true_iff. exact Hf.
  - left. destruct (ct_base b) as [|z| |] eqn:B; try discriminate. apply Z.eqb_eq in H. subst z. cbn [stays]. rewrite Ej. right. split; [apply an_base; cbn [base_of]; rewrite Ej; cbn [def_base]; rewrite B; [discriminate|constructor]|].
    intros k s Hk A. inversion A as [|t w Hn Ha Et Ew]; subst; [congruence|]. cbn [base_of] in Ha. rewrite Ej in Ha. cbn [def_base] in Ha. rewrite B in Ha. inversion Ha as [|t w Hn' Ha' Et Ew]; subst. apply Hn'. reflexivity.
  - right. destruct (ct_elems b) as [|] eqn:Be; [|discriminate]. destruct (ct_attrs b) as [|] eqn:Ba; [|discriminate]. apply negb_true_iff in H. rewrite <- Be at 1. rewrite <- Ba. constructor; [exact Ej|]. intros m (b' & E' & Em & (cm & Ecm)). assert (b' = b) as -> by congruence. rewrite Em in H. cbn [is_complex] in H. rewrite Ecm in H. discriminate.
Qed.
Definition struct_texts (l : list (string * spec)) : list (string * list (string * string)) :=
  map (fun p => (fst p, match sp_struct (snd p), sp_expr (snd p) with Some fs, _ => map (fun f => (expr_text (sf_expr f), sf_tag f)) fs | None, Some e => [(expr_text e, "")] | _, _ => [] end)) l.
Lemma shop_firm : firm None shop /\ firm None heirs.
Proof. split; apply firmb_ok; vm_compute; reflexivity. Qed.
Lemma shop_structs : struct_texts (ast_of shop shop_types) =
  [("Car", [("Color", "xml:""urn:a color"""); ("string", "xml:""urn:a owner"""); ("string", "xml:""urn:a note"""); ("string", "xml:""id,attr,omitempty""")]);
   ("Color", [("string", "")]);
   ("Label", [("Color", "xml:"",chardata"""); ("string", "xml:""lang,attr,omitempty""")]);
   ("Name", [("string", "")]);
   ("Order", [("time.Time", "xml:""urn:a placed"""); ("Sizes", "xml:""urn:a sizes"""); ("Truck", "xml:""urn:a car"""); ("[]byte", "xml:""key,attr,omitempty""")]);
   ("Sizes", [("[]int", "")]);
   ("Sub", [("Color", "xml:"",chardata"""); ("string", "xml:""lang,attr,omitempty""")]);
   ("Truck", [("Color", "xml:""urn:a color"""); ("string", "xml:""urn:a owner"""); ("string", "xml:""urn:a note"""); ("Car", "xml:""urn:a trailer"""); ("string", "xml:""id,attr,omitempty""")]);
   ("xsdDate", [("time.Time", "")]); ("xsdHexBinary", [("[]byte", "")])].
Proof. vm_compute. reflexivity. Qed.
(* Truck has fields of its own and inherits from Car *)
Lemma shop_inherits : exists es ats, inherits shop 4 es ats /\ map el_name es = [mkName "urn:a" "color"; mkName "urn:a" "owner"; mkName "urn:a" "note"; mkName "urn:a" "trailer"] /\ text_of shop 8 (TPtr 0) /\ text_of heirs 1 (TB 38).
Proof.
  assert (D : derives shop 4 3) by (eexists; split; [reflexivity|]; split; [reflexivity|eexists; reflexivity]).
  assert (J : exists es ats, inherits shop 3 es ats). { eexists. eexists. apply inh_root; [reflexivity|]. intros j (c & E & Eb & _). vm_compute in E. injection E as <-. discriminate. }
  destruct J as (es & ats & J). pose proof J as J'. inversion J' as [i0 c0 H1 H2|i0 j0 c0 es0 ats0 H1 H2 H3]; subst.
  - eexists. eexists. split; [eapply inh_derived; [reflexivity|exact D|exact J]|]. vm_compute in H1. injection H1 as <-. split; [vm_compute; reflexivity|]. split.
    + eapply tx_up; [eexists; split; [reflexivity|]; split; [reflexivity|eexists; reflexivity]|]. eapply tx_own with (c := ct_of "Label" (TPtr 0) [] [at_of "lang" (TB 38)] true); reflexivity.
    + eapply tx_up; [eexists; split; [reflexivity|]; split; [reflexivity|eexists; reflexivity]|]. eapply tx_own with (c := ct_of "B" (TB 38) [] [] true); reflexivity.
  - exfalso. destruct H2 as (c & E & Eb & _). vm_compute in E. injection E as <-. discriminate.
Qed.
(* a base with text and an element: a simple type stands for it, and the element is lost *)
Definition bulky : store := [DC (ct_of "B" (TB 38) [el_of "x" (TB 28)] [] true); DC (ct_of "C" (TPtr 0) [] [at_of "a" (TB 38)] true)].
Lemma bulky_code : (generable (fun i => Nat.min i 9) bulky /\ wild_named bulky) /\ inherits bulky 1 [el_of "x" (TB 28)] [at_of "a" (TB 38)] /\ struct_texts (ast_of bulky [[TPtr 1]]) = [("C", [("string", "xml:"",chardata"""); ("string", "xml:""a,attr,omitempty""")])].
Proof.
  split; [split; [apply (generableb_ok 6); vm_compute; reflexivity|apply wildb_ok; vm_compute; reflexivity]|]. split; [|vm_compute; reflexivity].
  apply (inh_derived bulky 1 0 (ct_of "C" (TPtr 0) [] [at_of "a" (TB 38)] true) [el_of "x" (TB 28)] []); [reflexivity|eexists; split; [reflexivity|]; split; [reflexivity|eexists; reflexivity]|].
  apply (inh_root bulky 0 (ct_of "B" (TB 38) [el_of "x" (TB 28)] [] true)); [reflexivity|]. intros j (c & E & Eb & _). injection E as <-. discriminate.
Qed.
