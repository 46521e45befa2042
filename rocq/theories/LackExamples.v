(* Concrete errors of xsdgen. *)
From Verif Require Import Base ScopeModel TreeModel EqualModel BuiltinModel XsdModel TypesModel GenModel SgModel SgStruct SgTags SgProofs SgExamples SliceModel SgGen SgFlatExamples SgGenExamples LackModel LackSpec.
Local Open Scope string_scope.

(* no helper type for dates (16), as when the Config has been used before *)
Definition poor : store :=
  [DS (list_of "Switches" (TB 14));
   DC (ct_of "Order" (TB 0) [el_of "id" (TB 38); el_of "placed" (TB 16); el_of "due" (TB 16)] [at_of "seen" (TB 16)] false);
   DC (ct_of "Fine" (TB 0) [el_of "id" (TB 38)] [] false);
   DS (simple_of "Day" (TB 16));
   DC (ct_of "Noted" (TB 16) [] [at_of "by" (TB 38)] true);
   DS (list_of "Blobs" (TB 13));
   DC (ct_of "Tagged" (TB 0) [] [at_of "made" (TB 16)] false)].
Definition poor_types := [TPtr 0; TPtr 1; TPtr 2; TPtr 3; TPtr 4; TPtr 5; TPtr 6].
Definition poor_helpers : list Z := [13; 27]%Z.
Definition an (l : string) := mkName "urn:a" l.
Definition poor_errors : list (xname * lack) :=
  [(an "Switches", LBody "Switches"); (an "Order", LElement (an "placed")); (an "Day", LBase 16); (an "Noted", LValue 16); (an "Blobs", LItem 13); (an "Tagged", LAttr (an "made"))].
Lemma poor_told : errors_told pub None None None None poor_helpers poor [poor_types] = Ret poor_errors /\ gen pub None None None None poor_helpers false poor [poor_types] = Ret (inl (map fst poor_errors)).
Proof. split; vm_compute; reflexivity. Qed.
Lemma poor_step : exists st' sp, schema_told pub None None None None poor_helpers (poor, [], []) poor_types = Ret (st', poor_errors, sp).
Proof. eexists. eexists. vm_compute. reflexivity. Qed.
Definition printed (n : N) : bool := true.
Lemma poor_text : list_text printed "4:24: missing ','" poor_errors = String.concat (String "010" "")
  ["gen type ""Switches"": MarshalText Switches: 4:24: missing ','";
   "gen type ""Order"": no helper type for type {urn:a Order} element {urn:a placed}";
   "gen type ""Day"": no helper type for Date";
   "gen type ""Noted"": missing helper type for Date";
   "gen type ""Blobs"": don't know how to marshal/unmarshal <list> of Base64Binary";
   "gen type ""Tagged"": no helper type for type {urn:a Tagged} attribute {urn:a made}"; ""].
Proof. vm_compute. reflexivity. Qed.
Lemma poor_lines : Forall (fun p => one_line (line_text printed "4:24: missing ','" p)) poor_errors.
Proof. repeat constructor. Qed.
(* only the first of what a type lacks is told *)
Lemma first_only : exists st t e1 e2, lacking pub None None [] st t e1 /\ lacking pub None None [] st t e2 /\ e1 <> e2 /\
  exists n, errors_told pub None None None None [] st [[t]] = Ret [(n, e1)].
Proof.
  exists [DC (ct_of "Order" (TB 0) [el_of "placed" (TB 16); el_of "due" (TB 16)] [] false)], (TPtr 0), (LElement (an "placed")), (LElement (an "due")).
  split; [|split; [|split; [discriminate|]]].
  - exists 16%Z. split; [split; [reflexivity|intros []]|]. eexists. eexists. split; [exists 0; split; reflexivity|]. split; [left; reflexivity|]. repeat split.
  - exists 16%Z. split; [split; [reflexivity|intros []]|]. eexists. eexists. split; [exists 0; split; reflexivity|]. split; [right; left; reflexivity|]. repeat split.
  - exists (an "Order"). vm_compute. reflexivity.
Qed.
