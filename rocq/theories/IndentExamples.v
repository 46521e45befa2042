From Verif Require Import Base ScopeModel ScopeSpec TreeModel TreeProofs ParseModel ParseSpec ParseProofs DecodeModel MarshalModel MarshalSpec MarshalProofs MarshalProofs2 EqualModel EqualSpec EqualProofs IndentProofs IndentEqual.
From Coq Require Import Sorted.
Local Open Scope string_scope.

(* <order xmlns="urn:o" id="7"><item>pen</item><note/><item><part>cap &amp; ink</part></item></order> *)
Definition order_el : elem :=
  let s := [mkName "urn:o" ""] in
  Elem (mkName "urn:o" "order") [mkAttr (mkName "" "id") "7"] s ""
    [Elem (mkName "urn:o" "item") [] s "pen" []; Elem (mkName "urn:o" "note") [] s "" [];
     Elem (mkName "urn:o" "item") [] s "" [Elem (mkName "urn:o" "part") [] s "cap &amp; ink" []]].
Lemma order_writable : writable [] order_el.
Proof.
  assert (D : forall n c ch, ncname n = true -> n <> "xmlns" -> resolve [mkName "urn:o" ""] (prefix [mkName "urn:o" ""] (mkName "urn:o" n)) = mkName "urn:o" n ->
    (ch = [] -> char_data c) -> (forall e, In e ch -> writable [mkName "urn:o" ""] e) -> writable [mkName "urn:o" ""] (Elem (mkName "urn:o" n) [] [mkName "urn:o" ""] c ch)).
  { intros n c ch N N' R C K. apply (w_elem [mkName "urn:o" ""] _ _ []); auto; [intros ? []|constructor| |intros ? []]. repeat split; auto; discriminate. }
  assert (B : forall c s, plain_byte c = true -> String.prefix "]]>" (String c s) = false -> char_data s -> char_data (String c s)) by (intros; apply cd_byte; auto).
  apply (w_elem [] _ _ [mkName "urn:o" ""]).
  - intros d [<-|[]]. split; [left; reflexivity|reflexivity].
  - repeat constructor; intros [].
  - repeat split; discriminate.
  - intros x [<-|[]]. repeat split; try discriminate. left. reflexivity.
  - discriminate.
  - intros e [<-|[<-|[<-|[]]]]; apply D; try reflexivity; try discriminate.
    + intros _. do 3 (apply B; [reflexivity|reflexivity|]). constructor.
    + intros ? [].
    + intros _. constructor.
    + intros ? [].
    + intros e [<-|[]]. apply D; try reflexivity; try discriminate; [|intros ? []]. intros _. do 4 (apply B; [reflexivity|reflexivity|]).
      apply (cd_entity "&amp;" " ink"); [cbn; auto|]. do 4 (apply B; [reflexivity|reflexivity|]). constructor.
Qed.
Lemma order_tidy : tidy [] order_el.
Proof.
  assert (D : forall n c ch, (forall e, In e ch -> tidy [mkName "urn:o" ""] e) -> tidy [mkName "urn:o" ""] (Elem n [] [mkName "urn:o" ""] c ch)).
  { intros n c ch K. apply (tidy_elem [mkName "urn:o" ""] _ _ []); [constructor|exact K]. }
  apply (tidy_elem [] _ _ [mkName "urn:o" ""]); [repeat constructor|].
  intros e [<-|[<-|[<-|[]]]]; apply D; try (intros ? []; fail). intros e [<-|[]]. apply D. intros ? [].
Qed.
Lemma order_single : everywhere single_valued order_el.
Proof.
  assert (D : forall n c ch, (forall e, In e ch -> everywhere single_valued e) -> everywhere single_valued (Elem n [] [mkName "urn:o" ""] c ch)).
  { intros n c ch K. constructor; [intros x y []|exact K]. }
  constructor; [intros x y [<-|[]] [<-|[]]; auto|]. cbn [e_children order_el].
  intros e [<-|[<-|[<-|[]]]]; apply D; try (intros ? []; fail). intros e [<-|[]]. apply D. intros ? [].
Qed.
Definition order_text : string := marshal_indent order_el "" "  ".
Lemma order_written : order_text =
  "<order id=""7"" xmlns=""urn:o"">" ++ newline ++ "  <item>pen</item>" ++ newline ++ "  <note />" ++ newline ++ "  <item>" ++ newline ++
  "    <part>cap &amp; ink</part>" ++ newline ++ "  </item>" ++ newline ++ "</order>" ++ newline.
Proof. vm_compute. reflexivity. Qed.

(* what the white space becomes part of *)
Lemma content_changed : exists el el' off rest, writable [] el /\ e_children el <> [] /\ parse isort_ns (marshal_indent el "" "  ") (decode (marshal_indent el "" "  ")) = POk el' off rest /\ e_content el' <> e_content el.
Proof.
  exists order_el. destruct (parse isort_ns order_text (decode order_text)) as [el' off rest|] eqn:E; [|exfalso; revert E; vm_compute; discriminate].
  exists el', off, rest. split; [exact order_writable|]. split; [discriminate|]. split; [exact E|]. revert E. vm_compute. intros [= <- _ _]. discriminate.
Qed.
Lemma other_indent : exists el ind e, writable [] el /\ parse isort_ns (marshal_indent el "" ind) (decode (marshal_indent el "" ind)) = PErr e.
Proof. exists order_el, "&". eexists. split; [exact order_writable|]. vm_compute. reflexivity. Qed.
