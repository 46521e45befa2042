(* What is read of character data. *)
From Verif Require Import Base ScopeModel ScopeSpec TreeModel ParseModel DecodeModel DecodeProofs BindModel MarshalModel MarshalSpec MarshalProofs UnmModel UnmProofs.
Local Open Scope string_scope.

(* the text t that character data s stands for: entities, and line ends as in XML 1.0, 2.11 *)
Definition entity_for : list (string * string) := [("&lt;", "<"); ("&gt;", ">"); ("&amp;", "&"); ("&apos;", "'"); ("&quot;", """")].
Inductive stands_for : string -> string -> Prop :=
| sf_end : stands_for "" ""
| sf_byte c s t : plain_byte c = true -> String.prefix "]]>" (String c s) = false -> stands_for s t -> stands_for (String c s) (String c t)
| sf_entity e d s t : In (e, d) entity_for -> stands_for s t -> stands_for (e ++ s) (d ++ t)
| sf_crlf s t : stands_for s t -> stands_for (String "013" (String "010" s)) (String "010" t)
| sf_cr s t : (forall r, s <> String "010" r) -> stands_for s t -> stands_for (String "013" s) (String "010" t).

Lemma entity_read e d s : In (e, d) entity_for -> exists e', e = String "&" e' /\ take_entity (e' ++ s) = Some (d, s).
Proof.
  intros [[= <- <-]|[[= <- <-]|[[= <- <-]|[[= <- <-]|[[= <- <-]|[]]]]]]; eexists; (split; [reflexivity|]); unfold take_entity.
  - rewrite strip_app. reflexivity.
  - rewrite (strip_app "gt;"). reflexivity.
  - rewrite (strip_app "amp;"). reflexivity.
  - rewrite (strip_app "apos;"). reflexivity.
  - rewrite (strip_app "quot;"). reflexivity.
Qed.
Lemma plain_not c : plain_byte c = true -> Ascii.eqb c "&" = false /\ Ascii.eqb c "013" = false.
Proof. intros H. apply plain_byte_char in H as H'. split; [tauto|]. destruct (Ascii.eqb c "013") eqn:E; [|reflexivity]. apply Ascii.eqb_eq in E as ->. discriminate. Qed.
Lemma no_lf s : (forall r, s <> String "010" r) -> match s with String "010" r => r | _ => s end = s.
Proof. intros H. destruct s as [|[b0 b1 b2 b3 b4 b5 b6 b7] s]; [reflexivity|]. destruct b0, b1, b2, b3, b4, b5, b6, b7; try reflexivity. destruct (H s). reflexivity. Qed.
Lemma chars_read s t : stands_for s t -> forall fuel, String.length s <= fuel -> chars fuel s = t.
Proof.
  induction 1 as [|c s t Hc Hp Hs IH|e d s t He Hs IH|s t Hs IH|s t Hn Hs IH]; intros [|fuel] L; try reflexivity; cbn [String.length] in L; try lia.
  - cbn [chars]. destruct (plain_not c Hc) as [-> ->]. rewrite IH by lia. reflexivity.
  - destruct (entity_read e d s He) as (e' & -> & _). cbn [append String.length] in L. lia.
  - destruct (entity_read e d s He) as (e' & -> & E). cbn [append chars Ascii.eqb Bool.eqb]. rewrite E. rewrite IH; [reflexivity|]. cbn [append String.length] in L. rewrite slen_app in L. lia.
  - cbn [chars Ascii.eqb Bool.eqb]. rewrite IH by lia. reflexivity.
  - cbn [chars Ascii.eqb Bool.eqb]. rewrite no_lf by exact Hn. rewrite IH by lia. reflexivity.
Qed.
Lemma prefix_cr r : String.prefix "]]>" (String "013" r) = false.
Proof. reflexivity. Qed.
Lemma text_taken s t r : stands_for s t -> forall fuel, String.length s < fuel -> take_text fuel (s ++ String "<" r) = Some (String "<" r).
Proof.
  induction 1 as [|c s t Hc Hp Hs IH|e d s t He Hs IH|s t Hs IH|s t Hn Hs IH]; intros [|fuel] L; cbn [String.length] in L; try lia.
  - reflexivity.
  - cbn [append take_text]. apply plain_byte_char in Hc as (H1 & H2 & H3 & H4). rewrite H2, H3, H1. cbn [negb].
    change (String c (s ++ String "<" r)) with (String c s ++ String "<" r). rewrite (prefix_app_lt _ r Hp). apply IH. lia.
  - destruct (entity_read e d (s ++ String "<" r) He) as (e' & -> & E). rewrite <- sapp_assoc. cbn [append take_text Ascii.eqb Bool.eqb]. rewrite E. apply IH. cbn [append String.length] in L. rewrite slen_app in L. lia.
  - destruct fuel as [|fuel]; [lia|]. cbn [append]. change (take_text (S (S fuel)) (String "013" (String "010" (s ++ String "<" r)))) with (take_text fuel (s ++ String "<" r)). apply IH. lia.
  - cbn [append]. change (take_text (S fuel) (String "013" (s ++ String "<" r))) with (take_text fuel (s ++ String "<" r)). apply IH. lia.
Qed.
Lemma text_token s t r : stands_for s t -> s <> "" -> raw_token (s ++ String "<" r) = Some (RText, String "<" r).
Proof.
  intros H N. assert (X : exists c s', s = String c s' /\ Ascii.eqb c "<" = false).
  { destruct H as [|c s t Hc Hp Hs|e d s t He Hs|s t Hs|s t Hn Hs]; [destruct (N eq_refl)| | | |].
    - exists c, s. split; [reflexivity|]. apply plain_byte_char in Hc. tauto.
    - destruct (entity_read e d s He) as (e' & -> & _). exists "&"%char, (e' ++ s). split; reflexivity.
    - eexists _, _. split; reflexivity.
    - eexists _, _. split; reflexivity. }
  destruct X as (c & s' & -> & E). cbn [append]. unfold raw_token. rewrite E. change (String c (s' ++ String "<" r)) with (String c s' ++ String "<" r). rewrite (text_taken _ _ r H); [reflexivity|]. rewrite slen_app. lia.
Qed.
Lemma nc_raw q : ncname q = true -> translate [] true (raw_name q) = mkName "" q.
Proof.
  intros H. unfold raw_name. rewrite split_plain by (apply ncname_nocolon; exact H). unfold translate. cbn [nspace nlocal negb andb String.eqb]. destruct (String.eqb q "xmlns"); reflexivity.
Qed.
Theorem text_read q s t : ncname q = true -> stands_for s t -> seen ("<" ++ q ++ ">" ++ s ++ "</" ++ q ++ ">") = Some (NElem (mkName "" q) [] (if String.eqb s "" then [] else [NText t])).
Proof.
  intros Hq Hs. assert (Q : qname_ok q) by (left; exact Hq). unfold seen, decode. set (data := "<" ++ q ++ ">" ++ s ++ "</" ++ q ++ ">"). fold (raws data).
  assert (R0 : raws data = (RStart q [] false, String.length (s ++ "</" ++ q ++ ">")) :: raws (s ++ "</" ++ q ++ ">")).
  { rewrite raws_eq. pose proof (raw_start q [] false (s ++ "</" ++ q ++ ">") Q ltac:(intros ? ? [])) as X. cbn [attrs_str fold_right] in X. change (raw_token data = Some (RStart q [] false, s ++ "</" ++ q ++ ">")) in X. rewrite X. reflexivity. }
  assert (R2 : raws ("</" ++ q ++ ">") = [(REnd q, 0)]).
  { rewrite raws_eq. pose proof (raw_end q "" Q) as X. change (">" ++ "") with ">" in X. rewrite X. reflexivity. }
  destruct (String.eqb s "") eqn:Es.
  - apply String.eqb_eq in Es as ->. rewrite R0. cbn [append tokens raw_decls flat_map app map]. change ("</" ++ q ++ ">") with (String "<" (String "/" (q ++ ">"))) in R2. rewrite R2. cbn [tokens]. rewrite !(nc_raw q Hq). rewrite xname_eqb_refl. reflexivity.
  - apply String.eqb_neq in Es. assert (R1 : raws (s ++ "</" ++ q ++ ">") = (RText, String.length ("</" ++ q ++ ">")) :: raws ("</" ++ q ++ ">")).
    { rewrite raws_eq. cbn [append]. rewrite (text_token s t _ Hs Es). reflexivity. }
    rewrite R0, R1, R2. cbn [tokens raw_decls flat_map app map]. rewrite !(nc_raw q Hq). rewrite xname_eqb_refl. cbn [grow]. do 2 f_equal. cbn [app]. do 2 f_equal.
    assert (L : String.length data = String.length ("<" ++ q ++ ">") + (String.length s + String.length ("</" ++ q ++ ">"))) by (unfold data; rewrite <- !slen_app, <- !sapp_assoc; reflexivity).
    replace (String.length data - String.length (s ++ "</" ++ q ++ ">")) with (String.length ("<" ++ q ++ ">")) by (rewrite L, (slen_app s); lia).
    replace (String.length data - String.length ("</" ++ q ++ ">") - String.length ("<" ++ q ++ ">")) with (String.length s) by (rewrite L; lia).
    assert (D : data = ("<" ++ q ++ ">") ++ s ++ ("</" ++ q ++ ">")) by (unfold data; rewrite <- !sapp_assoc; reflexivity). rewrite D at 1. rewrite substring_mid. apply chars_read; [exact Hs|reflexivity].
Qed.
(* "x &lt; y", two lines ended in the ways of Windows and of the old Macintosh *)
Definition two_lines : string := "x &lt; &quot;y&quot;" ++ String "013" (String "010" ("z" ++ String "013" "&amp;")).
Definition two_lines_text : string := "x < ""y""" ++ String "010" ("z" ++ String "010" "&").
Lemma two_lines_stand : stands_for two_lines two_lines_text /\ seen ("<a>" ++ two_lines ++ "</a>") = Some (NElem (mkName "" "a") [] [NText two_lines_text]).
Proof.
  split; [|vm_compute; reflexivity]. unfold two_lines, two_lines_text. cbn [append].
  repeat first [apply sf_end | apply sf_byte; [reflexivity|reflexivity|] | apply sf_crlf | apply sf_cr; [intros r; discriminate|]
    | apply (sf_entity "&lt;" "<"); [cbn; tauto|] | apply (sf_entity "&quot;" """"); [cbn; tauto|] | apply (sf_entity "&amp;" "&"); [cbn; tauto|]].
Qed.
