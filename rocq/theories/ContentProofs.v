From Verif Require Import Base ScopeModel TreeModel TreeSpec EqualModel EqualSpec Decimal BuiltinModel XsdModel XsdSpec XsdProofs SgModel DocModel DocSpec DocProofs ContentSpec.
Local Open Scope string_scope.

Lemma app_nil_s (s : string) : s ++ "" = s.
Proof. induction s; simpl; congruence. Qed.
Lemma app_assoc_s (a b c : string) : (a ++ b) ++ c = a ++ (b ++ c).
Proof. induction a; simpl; congruence. Qed.
Section Content.
  Variable annot : elem -> option string.
  Definition dstep (d : string) (e : elem) : option string := if local_is e "annotation" then match annot e with Some x => Some (doc_append d x) | None => None end else Some d.
  (* a walk that keeps documentation beside something else *)
  Lemma doc_track {A} (f : A * string -> elem -> option (A * string)) :
    (forall t d x t' d', f (t, d) x = Some (t', d') -> dstep d x = Some d') ->
    forall l t d t' d', foldo f (t, d) l = Some (t', d') -> foldo dstep d l = Some d'.
  Proof.
    intros H. induction l as [|x l IH]; intros t d t' d' E; cbn [foldo] in *; [injection E as _ <-; reflexivity|].
    destruct (f (t, d) x) as [[t1 d1]|] eqn:F; [|discriminate]. rewrite (H _ _ _ _ _ F). eapply IH; eauto.
  Qed.
  Lemma local_annot x s : local_is x "annotation" = true -> s <> "annotation" -> local_is x s = false.
  Proof. unfold local_is. rewrite String.eqb_eq, String.eqb_neq. congruence. Qed.
  Definition cstep (ns : string) (st : complexT * string) (el : elem) : option (complexT * string) :=
    let (t, doc) := st in
    if local_is el "extension" then option_map (fun t => (t, doc)) (parse_derivation annot ns (set_extends t true) el)
    else if local_is el "restriction" then option_map (fun t => (t, doc)) (parse_derivation annot ns t el)
    else if local_is el "annotation" then option_map (fun d => (t, doc_append doc d)) (annot el)
    else None.
  Definition sstep (ns : string) (st : complexT * string) (el : elem) : option (complexT * string) :=
    let (t, doc) := st in
    if local_is el "annotation" then option_map (fun d => (t, doc_append doc d)) (annot el)
    else if local_is el "restriction" then Some (set_base t (parse_type (resolve (e_scope el) (attr el "" "base"))), doc)
    else if local_is el "extension" then
      option_map (fun ats => (set_fields (set_extends (set_base t (parse_type (resolve (e_scope el) (attr el "" "base")))) true) (ct_elems t) (ct_attrs t ++ ats)%list, doc))
        (mapo (parse_attribute annot ns) (find_all "attribute" el))
    else Some st.
  Definition tstep (ns : string) (st : complexT * string) (el : elem) : option (complexT * string) :=
    let (t, doc) := st in
    if local_is el "annotation" then option_map (fun d => (t, doc_append doc d)) (annot el)
    else if local_is el "simpleContent" then option_map (fun t => (t, doc)) (parse_simple_content annot ns t el)
    else if local_is el "complexContent" then option_map (fun t => (t, doc)) (parse_complex_content annot ns t el)
    else None.
  Lemma cstep_doc ns t d x t' d' : cstep ns (t, d) x = Some (t', d') -> dstep d x = Some d'.
  Proof.
    unfold cstep, dstep. destruct (local_is x "annotation") eqn:A.
    - rewrite (local_annot x "extension" A), (local_annot x "restriction" A) by discriminate. destruct (annot x); [|discriminate]. intros [= _ <-]. reflexivity.
    - destruct (local_is x "extension"); [destruct (parse_derivation _ _ _ _); [|discriminate]; intros [= _ <-]; reflexivity|].
      destruct (local_is x "restriction"); [destruct (parse_derivation _ _ _ _); [|discriminate]; intros [= _ <-]; reflexivity|]. discriminate.
  Qed.
  Lemma sstep_doc ns t d x t' d' : sstep ns (t, d) x = Some (t', d') -> dstep d x = Some d'.
  Proof.
    unfold sstep, dstep. destruct (local_is x "annotation") eqn:A.
    - destruct (annot x); [|discriminate]. intros [= _ <-]. reflexivity.
    - destruct (local_is x "restriction"); [intros [= _ <-]; reflexivity|]. destruct (local_is x "extension"); [destruct (mapo _ _); [|discriminate]; intros [= _ <-]; reflexivity|]. intros [= _ <-]. reflexivity.
  Qed.
  Lemma tstep_doc ns t d x t' d' : tstep ns (t, d) x = Some (t', d') -> dstep d x = Some d'.
  Proof.
    unfold tstep, dstep. destruct (local_is x "annotation") eqn:A.
    - destruct (annot x); [|discriminate]. intros [= _ <-]. reflexivity.
    - destruct (local_is x "simpleContent"); [destruct (parse_simple_content _ _ _ _); [|discriminate]; intros [= _ <-]; reflexivity|].
      destruct (local_is x "complexContent"); [destruct (parse_complex_content _ _ _ _); [|discriminate]; intros [= _ <-]; reflexivity|]. discriminate.
  Qed.
  (* what stays as it is: name, anonymity, being abstract *)
  Definition same_head (t t' : complexT) : Prop := ct_name t' = ct_name t /\ ct_anon t' = ct_anon t /\ ct_abstract t' = ct_abstract t.
  Lemma head_trans a b c : same_head a b -> same_head b c -> same_head a c.
  Proof. unfold same_head. intuition congruence. Qed.
  Lemma deriv_head ns t el t' : parse_derivation annot ns t el = Some t' -> same_head t t' /\ ct_mixed t' = ct_mixed t /\ ct_doc t' = ct_doc t.
  Proof.
    intros H. split; [|split].
    - destruct (derivation_fields annot ns t el t' H) as (a & b & c & d & e & f & _ & _ & _ & _ & _ & _ & _ & _ & _ & _ & N & A & _ & _ & Q). split; auto.
    - destruct (derivation_fields annot ns t el t' H) as (a & b & c & d & e & f & _ & _ & _ & _ & _ & _ & _ & _ & _ & _ & N & A & M & _ & Q). exact M.
    - unfold parse_derivation in H. revert H. repeat (match goal with |- match ?x with _ => _ end = _ -> _ => destruct x end; try discriminate). all: intros H; injection H as <-; reflexivity.
  Qed.
  Lemma cfold ns l : forall t d t' d', foldo (cstep ns) (t, d) l = Some (t', d') -> same_head t t' /\ ct_mixed t' = ct_mixed t /\ ct_doc t' = ct_doc t.
  Proof.
    induction l as [|x l IH]; intros t d t' d' E; cbn [foldo] in E; [injection E as <- _; repeat split|].
    destruct (cstep ns (t, d) x) as [[t1 d1]|] eqn:F; [|discriminate]. apply IH in E as (E1 & E2 & E3).
    assert (same_head t t1 /\ ct_mixed t1 = ct_mixed t /\ ct_doc t1 = ct_doc t) as (F1 & F2 & F3).
    { unfold cstep in F. destruct (local_is x "extension").
      - destruct (parse_derivation _ _ _ _) as [u|] eqn:D; [|discriminate]. injection F as <- _. apply deriv_head in D. exact D.
      - destruct (local_is x "restriction").
        + destruct (parse_derivation _ _ _ _) as [u|] eqn:D; [|discriminate]. injection F as <- _. apply deriv_head in D. exact D.
        + destruct (local_is x "annotation"); [|discriminate]. destruct (annot x); [|discriminate]. injection F as <- _. repeat split. }
    split; [eapply head_trans; eauto|]. split; congruence.
  Qed.
  Lemma sfold ns l : forall t d t' d', foldo (sstep ns) (t, d) l = Some (t', d') -> same_head t t' /\ ct_mixed t' = ct_mixed t /\ ct_doc t' = ct_doc t /\ ct_elems t' = ct_elems t.
  Proof.
    induction l as [|x l IH]; intros t d t' d' E; cbn [foldo] in E; [injection E as <- _; repeat split|].
    destruct (sstep ns (t, d) x) as [[t1 d1]|] eqn:F; [|discriminate]. apply IH in E as (E1 & E2 & E3 & E4).
    assert (same_head t t1 /\ ct_mixed t1 = ct_mixed t /\ ct_doc t1 = ct_doc t /\ ct_elems t1 = ct_elems t) as (F1 & F2 & F3 & F4).
    { unfold sstep in F. destruct (local_is x "annotation"); [destruct (annot x); [|discriminate]; injection F as <- _; repeat split|].
      destruct (local_is x "restriction"); [injection F as <- _; repeat split|].
      destruct (local_is x "extension"); [destruct (mapo _ _); [|discriminate]; injection F as <- _; repeat split|injection F as <- _; repeat split]. }
    split; [eapply head_trans; eauto|]. repeat split; congruence.
  Qed.
  Lemma complex_content_is ns t root : parse_complex_content annot ns t root =
    match (if String.eqb (attr root "" "mixed") "" then Some (ct_mixed t) else parse_bool (attr root "" "mixed")) with
    | None => None
    | Some mixed => match foldo (cstep ns) (set_mixed t mixed, "") (filter in_schema (e_children root)) with Some (t, doc) => Some (set_doc t (ct_doc t ++ doc)) | None => None end
    end.
  Proof. reflexivity. Qed.
  Lemma simple_content_is ns t root : parse_simple_content annot ns t root =
    match foldo (sstep ns) (set_mixed t true, "") (filter in_schema (e_children root)) with Some (t, doc) => Some (set_doc t (ct_doc t ++ doc)) | None => None end.
  Proof. reflexivity. Qed.
  Lemma complex_type_is tns root : parse_complex_type annot tns root =
    match parse_bool (attr root "" "abstract"), parse_bool (attr root "" "mixed") with
    | Some ab, Some mi =>
        match foldo (tstep tns) (mkComplex "" (resolve_default (e_scope root) (attr root "" "name") tns) TNil (String.eqb (attr root "" "_isAnonymous") "true") [] [] ab false mi, "") (filter in_schema (e_children root)) with
        | Some (t, doc) => Some (set_doc t (ct_doc t ++ doc)) | None => None
        end
    | _, _ => None
    end.
  Proof. reflexivity. Qed.
  Lemma ccontent ns t root t' : parse_complex_content annot ns t root = Some t' -> same_head t t' /\
    (attr root "" "mixed" = "" -> ct_mixed t' = ct_mixed t) /\ (attr root "" "mixed" <> "" -> boolean (attr root "" "mixed") (ct_mixed t')) /\
    exists d, docs annot root = Some d /\ ct_doc t' = ct_doc t ++ d.
  Proof.
    rewrite complex_content_is. intros H. destruct (if String.eqb _ _ then _ else _) as [m|] eqn:M; [|discriminate].
    destruct (foldo _ _ _) as [[u d]|] eqn:E; [|discriminate]. injection H as <-. pose proof (doc_track (cstep ns) (cstep_doc ns) _ _ _ _ _ E) as D. apply cfold in E as (E1 & E2 & E3).
    split; [exact E1|]. cbn [set_mixed ct_mixed ct_doc] in E2, E3. cbn [set_doc ct_mixed ct_doc]. split; [|split].
    - intros N. rewrite N in M. injection M as <-. exact E2.
    - intros N. apply String.eqb_neq in N. rewrite N in M. rewrite E2. apply parse_bool_spec. exact M.
    - exists d. split; [exact D|]. rewrite E3. reflexivity.
  Qed.
  Lemma scontent ns t root t' : parse_simple_content annot ns t root = Some t' -> same_head t t' /\ ct_mixed t' = true /\ ct_elems t' = ct_elems t /\
    exists d, docs annot root = Some d /\ ct_doc t' = ct_doc t ++ d.
  Proof.
    rewrite simple_content_is. intros H. destruct (foldo _ _ _) as [[u d]|] eqn:E; [|discriminate]. injection H as <-. pose proof (doc_track (sstep ns) (sstep_doc ns) _ _ _ _ _ E) as D. apply sfold in E as (E1 & E2 & E3 & E4).
    split; [exact E1|]. cbn [set_mixed ct_mixed ct_doc ct_elems] in E2, E3, E4. cbn [set_doc ct_mixed ct_doc ct_elems]. split; [exact E2|]. split; [exact E4|]. exists d. split; [exact D|]. rewrite E3. reflexivity.
  Qed.
  Lemma head_set_doc t x : same_head t (set_doc t x).
  Proof. repeat split. Qed.
  (* name, anonymity, being abstract *)
  Theorem type_head tns root t : parse_complex_type annot tns root = Some t ->
    ct_name t = resolve_default (e_scope root) (attr root "" "name") tns /\ (ct_anon t = true <-> attr root "" "_isAnonymous" = "true") /\ boolean (attr root "" "abstract") (ct_abstract t).
  Proof.
    rewrite complex_type_is. intros H. destruct (parse_bool (attr root "" "abstract")) as [ab|] eqn:A; [|discriminate]. destruct (parse_bool (attr root "" "mixed")) as [mi|] eqn:M; [|discriminate].
    destruct (foldo _ _ _) as [[u d]|] eqn:E; [|discriminate]. injection H as <-. 
    assert (H : forall l t d t' d', foldo (tstep tns) (t, d) l = Some (t', d') -> same_head t t').
    { clear. induction l as [|x l IH]; intros t d t' d' E; cbn [foldo] in E; [injection E as <- _; repeat split|].
      destruct (tstep tns (t, d) x) as [[t1 d1]|] eqn:F; [|discriminate]. apply IH in E. eapply head_trans; [|exact E]. unfold tstep in F.
      destruct (local_is x "annotation"); [destruct (annot x); [|discriminate]; injection F as <- _; repeat split|].
      destruct (local_is x "simpleContent"); [destruct (parse_simple_content _ _ _ _) eqn:S; [|discriminate]; injection F as <- _; apply scontent in S; apply S|].
      destruct (local_is x "complexContent"); [destruct (parse_complex_content _ _ _ _) eqn:S; [|discriminate]; injection F as <- _; apply ccontent in S; apply S|discriminate]. }
    apply H in E. destruct E as (N & Q & B). cbn [ct_name ct_anon ct_abstract] in N, Q, B. cbn [set_doc ct_name ct_anon ct_abstract].
    split; [exact N|]. split; [rewrite Q; apply String.eqb_eq|]. rewrite B. apply parse_bool_spec. exact A.
  Qed.
  (* one content between annotations *)
  Lemma annots_keep tns l : XsdSpec.annotations l -> forall t d t' d', foldo (tstep tns) (t, d) l = Some (t', d') -> t' = t.
  Proof.
    induction l as [|x l IH]; intros A t d t' d' E; cbn [foldo] in E; [injection E as <- _; auto|].
    unfold tstep in E at 1. unfold local_is in E. rewrite (A x (or_introl eq_refl)), String.eqb_refl in E. destruct (annot x); [|discriminate].
    cbn [option_map] in E. eapply IH; eauto. intros y Hy. apply A. right. auto.
  Qed.
  Lemma sannots_keep tns l : XsdSpec.annotations l -> forall t d t' d', foldo (sstep tns) (t, d) l = Some (t', d') -> t' = t.
  Proof.
    induction l as [|x l IH]; intros A t d t' d' E; cbn [foldo] in E; [injection E as <- _; auto|].
    unfold sstep in E at 1. unfold local_is in E. rewrite (A x (or_introl eq_refl)), String.eqb_refl in E. destruct (annot x); [|discriminate].
    cbn [option_map] in E. eapply IH; eauto. intros y Hy. apply A. right. auto.
  Qed.
  Lemma one_content tns root c t : XsdSpec.only_child root c -> parse_complex_type annot tns root = Some t ->
    exists mi t0 t1 d1 d, boolean (attr root "" "mixed") mi /\ ct_mixed t0 = mi /\ ct_elems t0 = [] /\ ct_attrs t0 = [] /\ ct_extends t0 = false /\ tstep tns (t0, d) c = Some (t1, d1) /\
      exists d', t = set_doc t1 d'.
  Proof.
    intros (l1 & l2 & A1 & A2 & K) H. rewrite complex_type_is in H. unfold schema_children in K. change (fun e => String.eqb (nspace (e_name e)) schemaNS) with in_schema in K. rewrite <- K in H.
    destruct (parse_bool (attr root "" "abstract")) as [ab|] eqn:A; [|discriminate]. destruct (parse_bool (attr root "" "mixed")) as [mi|] eqn:M; [|discriminate].
    rewrite foldo_app in H. destruct (foldo _ _ l1) as [[u d]|] eqn:E1; [|discriminate]. apply annots_keep in E1; auto. subst u. cbn [foldo] in H.
    destruct (tstep tns _ c) as [[t1 d1]|] eqn:E2; [|discriminate]. destruct (foldo _ _ l2) as [[u d2]|] eqn:E3; [|discriminate]. apply annots_keep in E3; auto. subst u. injection H as <-.
    exists mi. eexists. exists t1, d1, d. split; [apply parse_bool_spec; exact M|]. split; [|split; [|split; [|split; [|split; [exact E2|eexists; reflexivity]]]]]; reflexivity.
  Qed.
  Theorem type_mixed tns root c t : parse_complex_type annot tns root = Some t ->
    (content root "simpleContent" c -> ct_mixed t = true) /\
    (content root "complexContent" c -> attr c "" "mixed" <> "" -> boolean (attr c "" "mixed") (ct_mixed t)) /\
    (content root "complexContent" c -> attr c "" "mixed" = "" -> boolean (attr root "" "mixed") (ct_mixed t)).
  Proof.
    intros H. split; [|split].
    - intros [O N]. destruct (one_content tns root c t O H) as (mi & t0 & t1 & d1 & d & B & M & _ & _ & _ & E & d' & ->). unfold tstep, local_is in E. rewrite N in E. cbn [String.eqb Ascii.eqb Bool.eqb] in E.
      destruct (parse_simple_content _ _ _ _) as [u|] eqn:S; [|discriminate]. injection E as <- _. apply scontent in S. apply S.
    - intros [O N] Q. destruct (one_content tns root c t O H) as (mi & t0 & t1 & d1 & d & B & M & _ & _ & _ & E & d' & ->). unfold tstep, local_is in E. rewrite N in E. cbn [String.eqb Ascii.eqb Bool.eqb] in E.
      destruct (parse_complex_content _ _ _ _) as [u|] eqn:S; [|discriminate]. injection E as <- _. apply ccontent in S. apply S. exact Q.
    - intros [O N] Q. destruct (one_content tns root c t O H) as (mi & t0 & t1 & d1 & d & B & M & _ & _ & _ & E & d' & ->). unfold tstep, local_is in E. rewrite N in E. cbn [String.eqb Ascii.eqb Bool.eqb] in E.
      destruct (parse_complex_content _ _ _ _) as [u|] eqn:S; [|discriminate]. injection E as <- _. apply ccontent in S as (_ & S & _). cbn [set_doc ct_mixed]. rewrite (S Q), M. exact B.
  Qed.
  Theorem type_simple tns root d t : derivation root "simpleContent" d -> parse_complex_type annot tns root = Some t ->
    ct_elems t = [] /\ ct_base t = parse_type (resolve (e_scope d) (attr d "" "base")) /\ (ct_extends t = true <-> nlocal (e_name d) = "extension") /\
    (nlocal (e_name d) = "extension" -> exists adecls, lists d "attribute" adecls /\ Forall2 (fun x a => parse_attribute annot tns x = Some a) adecls (ct_attrs t)) /\
    (nlocal (e_name d) = "restriction" -> ct_attrs t = []).
  Proof.
    intros (c & [O N] & (m1 & m2 & B1 & B2 & K) & Nd) H. destruct (one_content tns root c t O H) as (mi & t0 & t1 & d1 & d0 & B & M & P1 & P2 & P3 & E & d' & ->).
    unfold tstep, local_is in E. rewrite N in E. cbn [String.eqb Ascii.eqb Bool.eqb] in E. destruct (parse_simple_content _ _ _ _) as [u|] eqn:S; [|discriminate]. injection E as <- _.
    rewrite simple_content_is in S. unfold schema_children in K. change (fun e => String.eqb (nspace (e_name e)) schemaNS) with in_schema in K. rewrite <- K in S.
    rewrite foldo_app in S. destruct (foldo _ _ m1) as [[v e1]|] eqn:E1; [|discriminate]. apply sannots_keep in E1; auto. subst v. cbn [foldo] in S.
    destruct (sstep tns _ d) as [[v e2]|] eqn:E2; [|discriminate]. destruct (foldo _ _ m2) as [[w e3]|] eqn:E3; [|discriminate]. apply sannots_keep in E3; auto. subst w. injection S as <-.
    unfold sstep, local_is in E2. destruct Nd as [Nd|Nd]; rewrite Nd in E2 |- *; cbn [String.eqb Ascii.eqb Bool.eqb] in E2.
    - destruct (mapo _ _) as [ats|] eqn:Q; [|discriminate]. injection E2 as <- _. cbn [set_doc set_fields set_extends set_base set_mixed ct_elems ct_attrs ct_base ct_extends]. rewrite P1, P2.
      split; [reflexivity|]. split; [reflexivity|]. split; [split; reflexivity|]. split; [|discriminate]. intros _. exists (find_all "attribute" d). split; [apply find_all_lists|]. apply mapo_forall2. exact Q.
    - injection E2 as <- _. cbn [set_doc set_fields set_extends set_base set_mixed ct_elems ct_attrs ct_base ct_extends]. rewrite P1, P2, P3.
      split; [reflexivity|]. split; [reflexivity|]. split; [split; discriminate|]. split; [discriminate|reflexivity].
  Qed.
  (* documentation *)
  Lemma type_docs tns root t : parse_complex_type annot tns root = Some t ->
    exists d ds, docs annot root = Some d /\ Forall2 (fun c s => docs annot c = Some s) (contents root) ds /\ ct_doc t = all_of ds ++ d.
  Proof.
    rewrite complex_type_is. intros H. destruct (parse_bool (attr root "" "abstract")) as [ab|] eqn:A; [|discriminate]. destruct (parse_bool (attr root "" "mixed")) as [mi|] eqn:M; [|discriminate].
    destruct (foldo _ _ _) as [[u d]|] eqn:E; [|discriminate]. injection H as <-. exists d.
    pose proof (doc_track (tstep tns) (tstep_doc tns) _ _ _ _ _ E) as D.
    assert (X : forall l t d t' d', foldo (tstep tns) (t, d) (filter in_schema l) = Some (t', d') ->
      exists ds, Forall2 (fun c s => docs annot c = Some s) (filter (fun e => String.eqb (nspace (e_name e)) schemaNS && (String.eqb (nlocal (e_name e)) "simpleContent" || String.eqb (nlocal (e_name e)) "complexContent")) l) ds /\ ct_doc t' = ct_doc t ++ all_of ds).
    { clear. induction l as [|x l IH]; intros t d t' d' E; cbn [filter foldo] in E |- *.
      - injection E as <- _. exists []. split; [constructor|]. simpl. rewrite app_nil_s. reflexivity.
      - unfold in_schema in E at 1. destruct (String.eqb (nspace (e_name x)) schemaNS) eqn:S; [|cbn [andb]; eapply IH; eauto]. cbn [foldo] in E. 
        destruct (tstep tns (t, d) x) as [[t1 d1]|] eqn:F; [|discriminate]. apply IH in E as (ds & G & E). cbn [andb]. unfold tstep in F.
        change (String.eqb (nlocal (e_name x)) "simpleContent") with (local_is x "simpleContent"). change (String.eqb (nlocal (e_name x)) "complexContent") with (local_is x "complexContent").
        destruct (local_is x "annotation") eqn:Q.
        + rewrite (local_annot x "simpleContent" Q), (local_annot x "complexContent" Q) by discriminate. cbn [orb]. destruct (annot x); [|discriminate]. injection F as <- _. exists ds. auto.
        + destruct (local_is x "simpleContent") eqn:Q1; cbn [orb].
          * destruct (parse_simple_content _ _ _ _) as [v|] eqn:V; [|discriminate]. injection F as <- _. apply scontent in V as (_ & _ & _ & s & V1 & V2). exists (s :: ds). split; [constructor; auto|]. rewrite E, V2. simpl. rewrite app_assoc_s. reflexivity.
          * destruct (local_is x "complexContent") eqn:Q2; [|discriminate]. destruct (parse_complex_content _ _ _ _) as [v|] eqn:V; [|discriminate]. injection F as <- _. apply ccontent in V as (_ & _ & _ & s & V1 & V2). exists (s :: ds). split; [constructor; auto|]. rewrite E, V2. simpl. rewrite app_assoc_s. reflexivity. }
    apply X in E as (ds & G & E). exists ds. split; [exact D|]. split; [exact G|]. cbn [set_doc ct_doc]. rewrite E. reflexivity.
  Qed.
  (* what is refused *)
  Theorem type_refused tns root x : In x (e_children root) -> nspace (e_name x) = schemaNS -> ~ In (nlocal (e_name x)) ["annotation"; "simpleContent"; "complexContent"] -> parse_complex_type annot tns root = None.
  Proof.
    intros I S N. rewrite complex_type_is. destruct (parse_bool _); [|reflexivity]. destruct (parse_bool _); [|reflexivity].
    assert (F : forall l st, In x l -> foldo (tstep tns) st l = None).
    { induction l as [|y l IH]; intros [t d] J; [destruct J|]. cbn [foldo]. destruct J as [->|J].
      - unfold tstep, local_is. simpl in N. destruct (String.eqb_spec (nlocal (e_name x)) "annotation"); [exfalso; apply N; auto|]. destruct (String.eqb_spec (nlocal (e_name x)) "simpleContent"); [exfalso; apply N; auto|]. destruct (String.eqb_spec (nlocal (e_name x)) "complexContent"); [exfalso; apply N; auto|]. reflexivity.
      - destruct (tstep tns (t, d) y); auto. }
    rewrite F; [reflexivity|]. apply filter_In. split; [exact I|]. unfold in_schema. apply String.eqb_eq. exact S.
  Qed.
  (* what is accepted *)
  Lemma dsteps l : (forall e, annot e <> None) -> XsdSpec.annotations l -> forall ns t d, (exists d', foldo (tstep ns) (t, d) l = Some (t, d')) /\ (exists d', foldo (sstep ns) (t, d) l = Some (t, d')) /\ (exists d', foldo (cstep ns) (t, d) l = Some (t, d')).
  Proof.
    intros T. induction l as [|x l IH]; intros A ns t d; [split; [|split]; exists d; reflexivity|].
    assert (A' : XsdSpec.annotations l) by (intros y J; apply A; right; exact J). destruct (annot x) as [s|] eqn:E; [|destruct (T x E)].
    destruct (IH A' ns t (doc_append d s)) as (X & Y & Z). pose proof (A x (or_introl eq_refl)) as N.
    cbn [foldo]. unfold tstep at 1, sstep at 1, cstep at 1. unfold local_is. rewrite N. cbn [String.eqb Ascii.eqb Bool.eqb]. rewrite E. cbn [option_map]. auto.
  Qed.
  Theorem type_accepted tns root kind c d : (forall e, annot e <> None) -> content root kind c -> (kind = "simpleContent" \/ kind = "complexContent") ->
    XsdSpec.only_child c d -> (nlocal (e_name d) = "extension" \/ nlocal (e_name d) = "restriction") ->
    (exists a, boolean (attr root "" "abstract") a) -> (exists a, boolean (attr root "" "mixed") a) -> (exists a, boolean (attr c "" "mixed") a) ->
    (forall decls e, lists d "element" decls -> In e decls -> parse_element annot tns e <> None) ->
    (forall e decls, lists d "any" (e :: decls) -> parse_any e <> None) ->
    exists t, parse_complex_type annot tns root = Some t.
  Proof.
    intros T [(l1 & l2 & A1 & A2 & K) N] Q (m1 & m2 & B1 & B2 & K') Nd [ab Ha] [mi Hm] [cm Hc] He Hw. apply parse_bool_spec in Ha, Hm, Hc.
    unfold schema_children in K, K'. change (fun e => String.eqb (nspace (e_name e)) schemaNS) with in_schema in K, K'.
    assert (AT : forall el, exists ats, mapo (parse_attribute annot tns) (find_all "attribute" el) = Some ats).
    { intros el. induction (find_all "attribute" el) as [|x l [ats IH]]; [exists []; reflexivity|]. cbn [mapo]. assert (exists a, parse_attribute annot tns x = Some a) as [a ->].
      { unfold parse_attribute. assert (exists s, docs annot x = Some s) as [s ->]; [|eexists; reflexivity]. change (docs annot x) with (foldo dstep "" (filter in_schema (e_children x))).
        enough (G : forall k s, exists s', foldo dstep s k = Some s') by apply G. clear -T. induction k as [|y k IHk]; intros s; [exists s; reflexivity|]. cbn [foldo]. unfold dstep at 1.
        destruct (local_is y "annotation"); [|apply IHk]. destruct (annot y) eqn:Y; [apply IHk|destruct (T y Y)]. }
      rewrite IH. eexists. reflexivity. }
    assert (DV : forall t, exists t', parse_derivation annot tns t d = Some t').
    { intros t. unfold parse_derivation. destruct (AT d) as [ats ->].
      assert (exists es, mapo (parse_element annot tns) (find_all "element" d) = Some es) as [es ->].
      { assert (G : forall e, In e (find_all "element" d) -> parse_element annot tns e <> None) by (intros e; apply He, find_all_lists).
        induction (find_all "element" d) as [|x l IH]; [exists []; reflexivity|]. cbn [mapo]. destruct (parse_element annot tns x) as [e|] eqn:E; [|destruct (G x (or_introl eq_refl) E)]. destruct IH as [es ->]; [intros y J; apply G; right; exact J|]. eexists. reflexivity. }
      pose proof (find_all_lists "any" d) as L. destruct (find_all "any" d) as [|x l]; [eexists; reflexivity|]. destruct (parse_any x) as [w|] eqn:W; [|destruct (Hw x l L W)]. eexists. reflexivity. }
    assert (CC : forall t dd, exists t' , tstep tns (t, dd) c = Some (t', dd)).
    { intros t dd. unfold tstep, local_is. rewrite N. destruct Q as [-> | ->]; cbn [String.eqb Ascii.eqb Bool.eqb].
      - rewrite simple_content_is, <- K', foldo_app. destruct (dsteps m1 T B1 tns (set_mixed t true) "") as (_ & [e1 ->] & _). cbn [foldo].
        assert (exists u, sstep tns (set_mixed t true, e1) d = Some (u, e1)) as [u ->].
        { unfold sstep, local_is. destruct Nd as [-> | ->]; cbn [String.eqb Ascii.eqb Bool.eqb]; [destruct (AT d) as [ats ->]|]; eexists; reflexivity. }
        destruct (dsteps m2 T B2 tns u e1) as (_ & [e2 ->] & _). eexists. reflexivity.
      - rewrite complex_content_is. assert (exists b, (if String.eqb (attr c "" "mixed") "" then Some (ct_mixed t) else parse_bool (attr c "" "mixed")) = Some b) as [b ->] by (destruct (String.eqb _ ""); eauto).
        rewrite <- K', foldo_app. destruct (dsteps m1 T B1 tns (set_mixed t b) "") as (_ & _ & [e1 ->]). cbn [foldo].
        assert (exists u, cstep tns (set_mixed t b, e1) d = Some (u, e1)) as [u ->].
        { unfold cstep, local_is. destruct Nd as [-> | ->]; cbn [String.eqb Ascii.eqb Bool.eqb]; [destruct (DV (set_extends (set_mixed t b) true)) as [u ->]|destruct (DV (set_mixed t b)) as [u ->]]; eexists; reflexivity. }
        destruct (dsteps m2 T B2 tns u e1) as (_ & _ & [e2 ->]). eexists. reflexivity. }
    rewrite complex_type_is, Ha, Hm, <- K, foldo_app. match goal with |- exists t, match match foldo _ (?u, _) _ with _ => _ end with _ => _ end = _ => set (t0 := u) end.
    destruct (dsteps l1 T A1 tns t0 "") as ([e1 ->] & _ & _). cbn [foldo]. destruct (CC t0 e1) as [t1 ->]. destruct (dsteps l2 T A2 tns t1 e1) as ([e2 ->] & _ & _). eexists. reflexivity.
  Qed.
  Theorem element_keeps ns el e : parse_element annot ns el = Some e -> el_attr e = e_attrs el /\ el_scope e = e_scope el.
  Proof. unfold parse_element. repeat (match goal with |- match ?x with _ => _ end = _ -> _ => destruct x end; try discriminate). all: intros H; injection H as <-; split; reflexivity. Qed.
End Content.
Theorem wildcard_type el e : parse_any el = Some e -> attr el "" "type" <> "" -> el_type e = parse_type (resolve (e_scope el) (attr el "" "type")) /\ el_abstract e = false /\ el_nillable e = false /\ el_default e = "".
Proof. unfold parse_any. destruct (parse_plural el); [|discriminate]. intros H N. apply String.eqb_neq in N. rewrite N in H. injection H as <-. repeat split. Qed.
(* documentation as paragraphs *)
Theorem type_told raw : (forall c, untagged (raw c)) -> forall tns root t, Forall (telling raw) (DocSpec.annotations root) -> (forall c, In c (contents root) -> Forall (telling raw) (DocSpec.annotations c)) ->
  parse_complex_type (parse_annotation raw) tns root = Some t -> ct_doc t = all_of (map (told_by raw) (contents root)) ++ told_by raw root.
Proof.
  intros U tns root t A C H. apply type_docs in H as (d & ds & D & F & ->). rewrite docs_told in D by (try exact U; exact A). injection D as <-. f_equal. f_equal.
  induction F as [|c s l ds F1 F IH]; [reflexivity|]. cbn [map]. rewrite docs_told in F1 by (try exact U; apply C; left; reflexivity). injection F1 as <-. f_equal. apply IH. intros x J. apply C. right. exact J.
Qed.
Theorem simple_told raw : (forall c, untagged (raw c)) -> forall F T f0 t0 pf pd pr comp msg tns root s, Forall (telling raw) (DocSpec.annotations root) ->
  parse_simple_type (parse_annotation raw) F T f0 t0 pf pd pr comp msg tns root = Some s -> st_doc F T s = told_by raw root.
Proof.
  intros U F T f0 t0 pf pd pr comp msg tns root s A H. unfold parse_simple_type, walk in H.
  match type of H with option_map ?g (foldo ?ff ?x _) = _ => set (f := ff) in H; destruct (foldo f x (filter in_schema (e_children root))) as [[[[[a b] c] e] d]|] eqn:E; [|discriminate] end.
  injection H as <-. cbn [st_doc].
  assert (X : forall l p d p' d', foldo f (p, d) l = Some (p', d') -> foldo (dstep (parse_annotation raw)) d l = Some d').
  { apply (doc_track (parse_annotation raw) f). clear. intros [[[lst un] r] bb] d x t' d' Q. unfold f in Q. unfold dstep. destruct (local_is x "annotation") eqn:A.
    - rewrite (local_annot x "restriction" A), (local_annot x "list" A), (local_annot x "union" A) in Q by discriminate. destruct (parse_annotation raw x); [|discriminate]. injection Q as _ <-. reflexivity.
    - destruct (local_is x "restriction"); [destruct (parse_restriction _ _ _ _ _ _ _ _ _ _ _ _); [|discriminate]; injection Q as _ <-; reflexivity|].
      destruct (local_is x "list"); [injection Q as _ <-; reflexivity|]. destruct (local_is x "union"); [destruct (map _ _); injection Q as _ <-; reflexivity|]. injection Q as _ <-. reflexivity. }
  apply X in E. pose proof (docs_told raw U root A) as D. unfold docs, walk in D. change (foldo (dstep (parse_annotation raw)) "" (filter in_schema (e_children root)) = Some (told_by raw root)) in D. congruence.
Qed.
(* bounds of a type with a base that is not built in: a date, or else a number *)
Theorem linked_bounds annot F T f0 t0 pf pd pr comp msg root n r : parse_restriction annot F T f0 t0 pf pd pr comp msg root (TLink n) = Some r ->
  let kids := filter (fun e => String.eqb (nspace (e_name e)) schemaNS) (e_children root) in
  let ok := fun f d x => (forall y, pd (value f) = Some y -> d = y /\ x = f0) /\
    (pd (value f) = None -> pr (value f) = None -> d = t0 /\ (trim_space (value f) = "" /\ x = f0 \/ trim_space (value f) <> "" /\ pf (trim_space (value f)) = Some x)) in
  match rev (filter is_min kids) with [] => rs_mindate F T r = t0 /\ rs_min F T r = f0 | f :: _ => ok f (rs_mindate F T r) (rs_min F T r) end /\
  match rev (filter is_max kids) with [] => rs_maxdate F T r = t0 /\ rs_max F T r = f0 | f :: _ => ok f (rs_maxdate F T r) (rs_max F T r) end.
Proof.
  intros H kids ok. unfold parse_restriction, walk in H. destruct (foldo _ _ _) as [[r1 doc]|] eqn:E; [|discriminate]. injection H as <-.
  apply restr_bounds in E as (E1 & E2). change in_schema with (fun e => String.eqb (nspace (e_name e)) schemaNS) in E1, E2. fold kids in E1, E2. cbn [fst snd set_rdoc rs_mindate rs_min rs_maxdate rs_max].
  assert (X : forall l d x, bound F T f0 t0 pf pd pr (TLink n) l = Some (d, x) -> match rev l with [] => d = t0 /\ x = f0 | f :: _ => ok f d x end).
  { intros l d x. unfold bound. destruct (rev l) as [|f l']; [intros [= <- <-]; auto|]. unfold parse_min_max, ok. fold (value f). intros Q. split.
    - intros y Y. rewrite Y in Q. injection Q as <- <-. auto.
    - intros Y Y'. rewrite Y, Y' in Q. unfold parse_decimal in Q. destruct (String.eqb_spec (trim_space (value f)) "") as [Z|Z]; cbn [option_map] in Q.
      + injection Q as <- <-. auto.
      + destruct (pf (trim_space (value f))) as [z|]; [|discriminate]. injection Q as <- <-. auto. }
  split; apply X; assumption.
Qed.
(* documentation of a restriction *)
Section Restr.
  Variable annot : elem -> option string.
  Variables (F T : Type) (f0 : F) (t0 : T).
  Variables (pf : string -> option F) (pd pr : string -> option T) (comp : string -> bool) (msg : string -> string).
  Notation step := (restr_step annot F T f0 t0 pf pd pr comp msg).
  Lemma step_shape base r d x r' d' : step base (r, d) x = Some (r', d') ->
    (local_is x "pattern" = false -> rs_pattern F T r' = rs_pattern F T r /\ dstep annot d x = Some d') /\
    (local_is x "pattern" = true -> let p := match rs_pattern F T r with Some q => q ++ "|" ++ value x | None => value x end in
       d' = if comp p then d else doc_append d (msg p)).
  Proof.
    destruct r as [prec enum mn mx len minl maxl mnd mxd pat tot rd]. unfold restr_step. fold (value x). intros E.
    assert (N : forall s, local_is x s = true -> forall s', s <> s' -> local_is x s' = false) by (intros s H s' Q; unfold local_is in *; apply String.eqb_eq in H; apply String.eqb_neq; congruence).
    unfold dstep. cbn [rs_pattern].
    destruct (local_is x "enumeration") eqn:K1; [rewrite (N _ K1 "pattern"), (N _ K1 "annotation") by discriminate; injection E as <- <-; split; [auto|discriminate]|].
    destruct (local_is x "minExclusive") eqn:K2; [rewrite (N _ K2 "pattern"), (N _ K2 "annotation") by discriminate; cbn [orb] in E; destruct (parse_min_max _ _ _ _ _ _ _ _ _); [|discriminate]; injection E as <- <-; split; [auto|discriminate]|].
    destruct (local_is x "minInclusive") eqn:K3; [rewrite (N _ K3 "pattern"), (N _ K3 "annotation") by discriminate; cbn [orb] in E; destruct (parse_min_max _ _ _ _ _ _ _ _ _); [|discriminate]; injection E as <- <-; split; [auto|discriminate]|].
    destruct (local_is x "maxExclusive") eqn:K4; [rewrite (N _ K4 "pattern"), (N _ K4 "annotation") by discriminate; cbn [orb] in E; destruct (parse_min_max _ _ _ _ _ _ _ _ _); [|discriminate]; injection E as <- <-; split; [auto|discriminate]|].
    destruct (local_is x "maxInclusive") eqn:K5; [rewrite (N _ K5 "pattern"), (N _ K5 "annotation") by discriminate; cbn [orb] in E; destruct (parse_min_max _ _ _ _ _ _ _ _ _); [|discriminate]; injection E as <- <-; split; [auto|discriminate]|].
    cbn [orb] in E.
    destruct (local_is x "length") eqn:K6; [rewrite (N _ K6 "pattern"), (N _ K6 "annotation") by discriminate; destruct (parse_int _); [|discriminate]; injection E as <- <-; split; [auto|discriminate]|].
    destruct (local_is x "maxLength") eqn:K7; [rewrite (N _ K7 "pattern"), (N _ K7 "annotation") by discriminate; destruct (parse_int _); [|discriminate]; injection E as <- <-; split; [auto|discriminate]|].
    destruct (local_is x "minLength") eqn:K8; [rewrite (N _ K8 "pattern"), (N _ K8 "annotation") by discriminate; destruct (parse_int _); [|discriminate]; injection E as <- <-; split; [auto|discriminate]|].
    destruct (local_is x "pattern") eqn:K9; [split; [discriminate|]; intros _; destruct (comp _); injection E as <- <-; reflexivity|].
    split; [intros _|discriminate].
    destruct (local_is x "fractionDigits") eqn:K10; [rewrite (N _ K10 "annotation") by discriminate; destruct (parse_int _) as [n|]; [|discriminate]; destruct (n <? 0)%Z; [discriminate|]; injection E as <- <-; auto|].
    destruct (local_is x "annotation") eqn:K11; [destruct (annot x); [|discriminate]; injection E as <- <-; auto|].
    destruct (local_is x "totalDigits"); [destruct (parse_int _); [|discriminate]|]; injection E as <- <-; auto.
  Qed.
  Lemma grows d x : exists b, doc_append d x = d ++ b /\ exists a, doc_append d x = a ++ x.
  Proof. unfold doc_append. destruct (String.eqb_spec d "") as [->|N]; [exists x; split; [reflexivity|exists ""; reflexivity]|]. exists (nl ++ nl ++ x). rewrite !app_assoc_s. split; [reflexivity|]. exists (d ++ nl ++ nl). rewrite !app_assoc_s. reflexivity. Qed.
  Lemma fold_grows base l : forall r d r' d', foldo (step base) (r, d) l = Some (r', d') -> exists b, d' = d ++ b.
  Proof.
    induction l as [|x l IH]; intros r d r' d' E; cbn [foldo] in E; [injection E as _ <-; exists ""; rewrite app_nil_s; reflexivity|].
    destruct (step base (r, d) x) as [[r1 d1]|] eqn:S; [|discriminate]. destruct (IH _ _ _ _ E) as [b ->]. apply step_shape in S as [S1 S2].
    assert (exists c, d1 = d ++ c) as [c ->]; [|exists (c ++ b); apply app_assoc_s].
    destruct (local_is x "pattern").
    - specialize (S2 eq_refl). cbn in S2. rewrite S2. destruct (comp _); [exists ""; rewrite app_nil_s; reflexivity|]. destruct (grows d (msg (match rs_pattern F T r with Some q => q ++ "|" ++ value x | None => value x end))) as (c & C & _). exists c. exact C.
    - destruct (S1 eq_refl) as [_ D]. unfold dstep in D. destruct (local_is x "annotation"); [|injection D as <-; exists ""; rewrite app_nil_s; reflexivity]. destruct (annot x) as [y|]; [|discriminate]. injection D as <-. destruct (grows d y) as (c & C & _). exists c. exact C.
  Qed.
  Theorem restr_docs root base r : parse_restriction annot F T f0 t0 pf pd pr comp msg root base = Some r -> facets root "pattern" = [] \/ (forall s, comp s = true) -> docs annot root = Some (rs_doc F T r).
  Proof.
    unfold parse_restriction, walk. intros H P. destruct (foldo _ _ _) as [[r1 d]|] eqn:E; [|discriminate]. injection H as <-. cbn [fst snd set_rdoc rs_doc].
    change (docs annot root) with (foldo (dstep annot) "" (filter in_schema (e_children root))).
    assert (Q : forall x s, In x (filter in_schema (e_children root)) -> local_is x "pattern" = true -> comp s = true).
    { intros x s I L. destruct P as [P|P]; [|apply P]. exfalso. assert (J : In x (facets root "pattern")) by (apply filter_In; split; [exact I|exact L]). rewrite P in J. destruct J. }
    enough (G : forall l r0 s d, (forall x s, In x l -> local_is x "pattern" = true -> comp s = true) -> foldo (step base) (r0, s) l = Some (r1, d) -> foldo (dstep annot) s l = Some d) by (eapply G; eauto).
    clear. induction l as [|x l IH]; intros r0 s d Q E; cbn [foldo] in *; [injection E as _ <-; reflexivity|].
    destruct (step base (r0, s) x) as [[r2 d2]|] eqn:S; [|discriminate]. apply step_shape in S as [S1 S2]. assert (D : dstep annot s x = Some d2).
    { destruct (local_is x "pattern") eqn:L; [|apply S1; reflexivity]. specialize (S2 eq_refl). cbn in S2. rewrite (Q x _ (or_introl eq_refl) L) in S2. subst d2. unfold dstep. unfold local_is in *. apply String.eqb_eq in L. rewrite L. reflexivity. }
    rewrite D. eapply IH; [|exact E]. intros y t I. apply Q. right. exact I.
  Qed.
  Theorem restr_uncompiled root base r x l l' : parse_restriction annot F T f0 t0 pf pd pr comp msg root base = Some r ->
    facets root "pattern" = [x] -> filter (fun e => String.eqb (nspace (e_name e)) schemaNS) (e_children root) = (l ++ x :: l')%list -> comp (value x) = false ->
    exists a b, rs_doc F T r = a ++ msg (value x) ++ b.
  Proof.
    unfold parse_restriction, walk. intros H P K C. destruct (foldo _ _ _) as [[r1 d]|] eqn:E; [|discriminate]. injection H as <-. cbn [fst snd set_rdoc rs_doc].
    change in_schema with (fun e => String.eqb (nspace (e_name e)) schemaNS) in E. rewrite K, foldo_app in E. destruct (foldo _ _ l) as [[r2 d2]|] eqn:E1; [|discriminate]. cbn [foldo] in E.
    destruct (step base (r2, d2) x) as [[r3 d3]|] eqn:S; [|discriminate]. apply fold_grows in E as [b ->].
    unfold facets in P. rewrite K in P. rewrite filter_app in P. cbn [filter] in P.
    assert (L : String.eqb (nlocal (e_name x)) "pattern" = true).
    { assert (I : In x [x]) by (left; reflexivity). rewrite <- P in I. apply in_app_iff in I. destruct I as [I|I]; [apply filter_In in I; apply I|]. destruct (String.eqb (nlocal (e_name x)) "pattern") eqn:Q; [reflexivity|]. apply filter_In in I. rewrite <- Q. apply I. }
    rewrite L in P. assert (FL : filter (fun e => String.eqb (nlocal (e_name e)) "pattern") l = []).
    { destruct (filter _ l) as [|y m]; [reflexivity|]. exfalso. injection P as _ P. destruct m; discriminate P. }
    assert (R : rs_pattern F T r2 = None).
    { clear -E1 FL. revert E1. assert (G : forall l r d r' d', filter (fun e => String.eqb (nlocal (e_name e)) "pattern") l = [] -> foldo (step base) (r, d) l = Some (r', d') -> rs_pattern F T r' = rs_pattern F T r).
      { clear. induction l as [|y l IH]; intros r d r' d' Q E; cbn [foldo] in E; [injection E as <- _; reflexivity|]. cbn [filter] in Q. destruct (String.eqb (nlocal (e_name y)) "pattern") eqn:L; [discriminate|].
        destruct (step base (r, d) y) as [[r1 d1]|] eqn:S; [|discriminate]. apply step_shape in S as [S1 _]. destruct (S1 L) as [S2 _]. rewrite (IH _ _ _ _ Q E). exact S2. }
      intros E1. rewrite (G _ _ _ _ _ FL E1). reflexivity. }
    apply step_shape in S as [_ S]. specialize (S L). cbn in S. rewrite R, C in S. subst d3. destruct (grows d2 (msg (value x))) as (_ & _ & a & ->). exists a, b. apply app_assoc_s.
  Qed.
End Restr.
Theorem restr_told raw : (forall c, untagged (raw c)) -> forall F T f0 t0 pf pd pr comp msg root base r, Forall (telling raw) (DocSpec.annotations root) -> facets root "pattern" = [] \/ (forall s, comp s = true) ->
  parse_restriction (parse_annotation raw) F T f0 t0 pf pd pr comp msg root base = Some r -> rs_doc F T r = told_by raw root.
Proof. intros U F T f0 t0 pf pd pr comp msg root base r A P H. apply restr_docs in H; [|exact P]. rewrite docs_told in H by (try exact U; exact A). injection H as <-. reflexivity. Qed.
