(* What is read of the values of attributes. *)
From Verif Require Import Base ScopeModel ScopeSpec TreeModel ParseModel ParseSpec ParseProofs DecodeModel DecodeProofs BindModel MarshalModel MarshalSpec MarshalProofs UnmModel UnmProofs UnmText.
Local Open Scope string_scope.

(* the value t that s stands for between quotes q; line ends other than LF are outside the model *)
Inductive value_for (q : ascii) : string -> string -> Prop :=
| vf_end : value_for q "" ""
| vf_byte c s t : plain_byte c = true -> c <> q -> value_for q s t -> value_for q (String c s) (String c t)
| vf_entity e d s t : In (e, d) entity_for -> value_for q s t -> value_for q (e ++ s) (d ++ t).
(* an attribute as it is written: its name, quote, text and value *)
Record written := mkWritten { wr_name : string; wr_quote : ascii; wr_text : string; wr_value : string }.
Definition well_written (w : written) : Prop :=
  ncname (wr_name w) = true /\ wr_name w <> "xmlns" /\ (wr_quote w = """"%char \/ wr_quote w = "'"%char) /\ value_for (wr_quote w) (wr_text w) (wr_value w).
Definition write_attr (w : written) : string := " " ++ wr_name w ++ "=" ++ String (wr_quote w) (wr_text w ++ String (wr_quote w) "").
Definition write_attrs (l : list written) : string := fold_right (fun w s => write_attr w ++ s) "" l.
Definition written_attrs (l : list written) : list xattr := map (fun w => mkAttr (mkName "" (wr_name w)) (wr_value w)) l.
Definition write_tag (q : string) (l : list written) : string := "<" ++ q ++ write_attrs l ++ " />".

Lemma value_taken q s t r : q = """"%char \/ q = "'"%char -> value_for q s t -> forall fuel, String.length s < fuel -> take_value fuel q (s ++ String q r) = Some (t, r).
Proof.
  intros Q. induction 1 as [|c s t Hc Nq Hs IH|e d s t He Hs IH]; intros [|fuel] L; try lia.
  - cbn [append take_value]. rewrite Ascii.eqb_refl. reflexivity.
  - cbn [append take_value]. apply Ascii.eqb_neq in Nq. rewrite Nq. apply plain_byte_char in Hc as (H1 & H2 & H3 & H4). rewrite H2, H3, H1, H4. cbn [negb orb]. cbn [String.length] in L. rewrite IH by lia. reflexivity.
  - destruct (entity_read e d (s ++ String q r) He) as (e' & -> & E). rewrite <- sapp_assoc. cbn [append take_value].
    assert (A : Ascii.eqb "&" q = false) by (destruct Q as [-> | ->]; reflexivity). rewrite A. cbn [Ascii.eqb Bool.eqb]. rewrite E.
    cbn [append String.length] in L. rewrite slen_app in L. rewrite IH by lia. reflexivity.
Qed.
Lemma attrs_taken l : Forall well_written l -> forall fuel, List.length l < fuel -> take_attrs fuel (write_attrs l ++ " />") = Some (map (fun w => (wr_name w, wr_value w)) l, true, "").
Proof.
  induction 1 as [|w l (Hn & Nx & Hq & Hv) F IH]; intros [|fuel] L; try (cbn [List.length] in L; lia); [reflexivity|].
  set (T := write_attrs l ++ " />"). set (R := String (wr_quote w) (wr_text w ++ String (wr_quote w) T)).
  assert (E : write_attrs (w :: l) ++ " />" = String " " (wr_name w ++ String "=" R)).
  { cbn [write_attrs fold_right]. unfold write_attr at 1. unfold R, T, write_attrs. repeat (rewrite <- ?sapp_assoc; cbn [append]). reflexivity. }
  rewrite E. assert (Q : qname_ok (wr_name w)) by (left; exact Hn). cbn [take_attrs].
  destruct (qname_ok_start (wr_name w) (String "=" R) Q) as (c & r & Ec & Hc & _).
  assert (Es : skip_space (String " " (wr_name w ++ String "=" R)) = wr_name w ++ String "=" R).
  { unfold skip_space. cbn [take_while space_byte Ascii.eqb Bool.eqb orb]. rewrite Ec. cbn [take_while]. rewrite (name_start_not_space _ Hc). auto. }
  rewrite Es, Ec. rewrite (name_start_not_slash _ Hc), (name_start_not_gt _ Hc). rewrite <- Ec. rewrite take_name_ok by (auto using breaks_eq).
  rewrite skip_space_start by reflexivity. cbn [Ascii.eqb Bool.eqb negb]. unfold R. rewrite skip_space_start by (destruct Hq as [-> | ->]; reflexivity).
  assert (K : (Ascii.eqb (wr_quote w) """" || Ascii.eqb (wr_quote w) "'")%bool = true) by (destruct Hq as [-> | ->]; reflexivity). rewrite K.
  rewrite (value_taken _ _ _ T Hq Hv) by (rewrite slen_app; cbn [String.length]; lia). unfold T. rewrite IH by (cbn [List.length] in L; lia). reflexivity.
Qed.
Lemma write_len l : List.length l <= String.length (write_attrs l).
Proof. induction l as [|w l IH]; [auto|]. change (write_attrs (w :: l)) with (write_attr w ++ write_attrs l). rewrite slen_app. unfold write_attr. cbn [append String.length List.length]. lia. Qed.
Lemma tag_token q l : ncname q = true -> Forall well_written l -> raw_token (write_tag q l) = Some (RStart q (map (fun w => (wr_name w, wr_value w)) l) true, "").
Proof.
  intros Hq F. assert (Q : qname_ok q) by (left; exact Hq). unfold write_tag. cbn [append]. set (T := write_attrs l ++ " />").
  destruct (qname_ok_start q T Q) as (c & r & Ec & Hc & _). unfold raw_token. cbn [Ascii.eqb Bool.eqb]. rewrite Ec. rewrite (name_start_not_slash _ Hc). rewrite <- Ec. rewrite take_name_ok; auto.
  - unfold T at 2. rewrite attrs_taken; auto. unfold T. rewrite slen_app. pose proof (write_len l). cbn [String.length]. lia.
  - unfold T. destruct l as [|w l]; [apply breaks_space|]. cbn [write_attrs fold_right]. unfold write_attr. rewrite <- !sapp_assoc. apply breaks_space.
Qed.
Lemma written_plain l : Forall well_written l -> raw_decls (map (fun w => (wr_name w, wr_value w)) l) = [] /\
  map (fun qv => mkAttr (translate [] false (raw_name (fst qv))) (snd qv)) (map (fun w => (wr_name w, wr_value w)) l) = written_attrs l /\
  xml_attrs (written_attrs l) = written_attrs l /\ xml_decls (written_attrs l) = [] /\ forallb plain_attr (written_attrs l) = true.
Proof.
  induction 1 as [|w l (Hn & Nx & _) F (I1 & I2 & I3 & I4 & I5)]; [repeat split|].
  assert (R0 : raw_name (wr_name w) = mkName "" (wr_name w)) by (unfold raw_name; rewrite split_plain by (apply ncname_nocolon; exact Hn); reflexivity).
  assert (N : ns_decl (mkAttr (mkName "" (wr_name w)) (wr_value w)) = None).
  { unfold ns_decl. cbn [aname]. destruct (ns_decl (mkAttr (mkName "" (wr_name w)) "")) eqn:X; unfold ns_decl in X; cbn [aname avalue] in X.
    - exfalso. apply Nx. revert X. generalize (wr_name w). intros s. repeat (destruct s as [|[[] [] [] [] [] [] [] []] s]; try discriminate). reflexivity.
    - revert X. generalize (wr_name w). intros s. repeat (destruct s as [|[[] [] [] [] [] [] [] []] s]; try reflexivity; try discriminate). }
  apply String.eqb_neq in Nx as Nx'. split; [|split; [|split; [|split]]].
  - cbn [map raw_decls flat_map fst snd]. rewrite R0. cbn [nspace nlocal String.eqb andb]. rewrite Nx'. exact I1.
  - cbn [map fst snd written_attrs]. rewrite R0. cbn [map] in I2. f_equal. exact I2.
  - unfold written_attrs. cbn [map xml_attrs filter]. rewrite N. f_equal. exact I3.
  - unfold written_attrs. cbn [map xml_decls flat_map]. rewrite N. exact I4.
  - unfold written_attrs. cbn [map forallb]. unfold plain_attr at 1. rewrite N. cbn [aname nlocal]. rewrite Nx'. exact I5.
Qed.
Lemma tag_decoded q l : ncname q = true -> Forall well_written l ->
  decode (write_tag q l) = [(TStart (mkName "" q) (written_attrs l), String.length (write_tag q l)); (TEnd (mkName "" q), String.length (write_tag q l))].
Proof.
  intros Hq F. unfold decode. fold (raws (write_tag q l)). rewrite raws_eq, (tag_token q l Hq F). change (raws "") with (@nil (rawtok * nat)). cbn [tokens].
  destruct (written_plain l F) as (-> & W & _). cbn [app]. rewrite W, (nc_raw q Hq). change (String.length "") with 0. rewrite Nat.sub_0_r. reflexivity.
Qed.
Theorem values_seen q l : ncname q = true -> Forall well_written l -> seen (write_tag q l) = Some (NElem (mkName "" q) (written_attrs l) []).
Proof. intros Hq F. unfold seen. rewrite (tag_decoded q l Hq F). reflexivity. Qed.
Theorem values_parsed sortns q l : sorts sortns -> ncname q = true -> Forall well_written l ->
  exists el off, parse sortns (write_tag q l) (decode (write_tag q l)) = POk el off [] /\ e_name el = mkName "" q /\ e_attrs el = written_attrs l.
Proof.
  intros S0 Hq F. rewrite (tag_decoded q l Hq F). destruct (written_plain l F) as (_ & _ & X & D & P). set (L := String.length (write_tag q l)).
  destruct (parse_complete_xml sortns (write_tag q l) (Doc (mkName "" q) (written_attrs l) L [] L) [] []) as (el & off & E & T).
  - exact S0.
  - intros ? ? ? [].
  - constructor; [apply Nat.le_refl|apply Nat.le_refl|intros d []].
  - discriminate.
  - cbn [plain forallb]. rewrite P. reflexivity.
  - exists el, off. split; [exact E|]. inversion T; subst. cbn [e_name e_attrs]. split; [reflexivity|exact X].
Qed.
(* a value in either kind of quotes *)
Definition quotes : list written := [mkWritten "a" """" "x &lt; 'y'&amp;" "x < 'y'&"; mkWritten "b" "'" """&quot;&apos;&gt;" """""'>"].
Lemma quotes_written : Forall well_written quotes /\ write_tag "t" quotes = "<t a=""x &lt; 'y'&amp;"" b='""&quot;&apos;&gt;' />".
Proof.
  split; [|reflexivity]. constructor; [|constructor; [|constructor]]; (split; [reflexivity|]; split; [discriminate|]; split; [auto|]); cbn [wr_quote wr_text wr_value].
  - do 2 (apply vf_byte; [reflexivity|discriminate|]). apply (vf_entity _ "&lt;" "<"); [cbn; tauto|]. do 4 (apply vf_byte; [reflexivity|discriminate|]). apply (vf_entity _ "&amp;" "&"); [cbn; tauto|]. constructor.
  - apply vf_byte; [reflexivity|discriminate|]. apply (vf_entity _ "&quot;" """"); [cbn; tauto|]. apply (vf_entity _ "&apos;" "'"); [cbn; tauto|]. apply (vf_entity _ "&gt;" ">"); [cbn; tauto|]. constructor.
Qed.
