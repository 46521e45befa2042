(* Documentation: proofs. *)
From Verif Require Import Base ScopeModel TreeModel TreeSpec TreeProofs ParseModel EqualModel EqualSpec EqualProofs BuiltinModel XsdModel SgModel DocModel DocSpec.
Local Open Scope string_scope.

Lemma para_joined l : joined blank_line l = paragraphs l.
Proof. induction l as [|x [|y l] IH]; auto. change (joined blank_line (x :: y :: l)) with (x ++ blank_line ++ joined blank_line (y :: l)). rewrite IH. reflexivity. Qed.

Section Raw.
  Variable raw : string -> list dtok.
  Hypothesis Hr : forall c, untagged (raw c).

  Lemma skip_untagged l : untagged l -> forall d r, skip_el d (l ++ r)%list = skip_el d r.
  Proof. induction 1 as [|t l Ht H IH]; intros d r; cbn [app skip_el]; auto. destruct t; try contradiction; apply IH. Qed.
  Lemma skip_inner : forall e d r, skip_el d (inner raw e ++ r)%list = skip_el d r.
  Proof.
    induction e as [n a s c ks IH] using elem_ind'. intros d r. cbn [inner]. destruct ks as [|k ks]; [apply skip_untagged, Hr|].
    revert IH. generalize (k :: ks). clear k ks. intros ks IH. induction ks as [|k ks IHk]; cbn [flat_map app]; auto. rewrite <- !app_assoc. cbn [app skip_el]. rewrite (IH k (or_introl eq_refl)). cbn [skip_el]. rewrite IHk; auto.
    intros k' H. apply IH. right. exact H.
  Qed.
  Lemma bytes_untagged l : untagged l -> forall f acc r, List.length l < f -> bytes_of f acc (l ++ DEnd :: r)%list = Some (acc ++ text_in l, r).
  Proof.
    induction 1 as [|t l Ht H IH]; intros f acc r Hf; cbn [List.length] in Hf; (destruct f as [|f]; [lia|]); cbn [app bytes_of].
    - cbn [text_in fold_right]. rewrite sapp_nil_r. reflexivity.
    - destruct t; try contradiction; rewrite IH by lia; cbn [text_in fold_right]; [fold (text_in l); rewrite <- sapp_assoc|]; reflexivity.
  Qed.
  Definition toks (ks : list elem) : list dtok := flat_map (fun k => DStart (e_name k) :: inner raw k ++ [DEnd])%list ks.
  Lemma bytes_toks ks : forall f acc r, List.length ks < f -> bytes_of f acc (toks ks ++ DEnd :: r)%list = Some (acc, r).
  Proof.
    induction ks as [|k ks IH]; intros f acc r Hf; cbn [List.length] in Hf; (destruct f as [|f]; [lia|]); cbn [toks flat_map app bytes_of]; [reflexivity|].
    rewrite <- !app_assoc. cbn [app]. rewrite skip_inner. cbn [skip_el]. apply IH. lia.
  Qed.
  Lemma toks_length ks : List.length ks <= List.length (toks ks).
  Proof. induction ks as [|k ks IH]; cbn [toks flat_map List.length app]; auto. fold (toks ks). rewrite app_length. lia. Qed.
  Lemma inner_eq e : inner raw e = match e_children e with [] => raw (e_content e) | ks => toks ks end.
  Proof. destruct e as [n a s c [|k ks]]; reflexivity. Qed.
  Lemma bytes_inner e f r : List.length (inner raw e) < f -> exists x, bytes_of f "" (inner raw e ++ DEnd :: r)%list = Some (x, r) /\ trim_space x = said raw e.
  Proof.
    rewrite inner_eq. unfold said. destruct (e_children e) as [|k ks] eqn:E; intros Hf.
    - eexists. split; [apply bytes_untagged; auto|]. reflexivity.
    - exists "". pose proof (toks_length (k :: ks)). split; [|reflexivity]. apply bytes_toks. lia.
  Qed.
  Lemma read_untagged l : untagged l -> forall f buf r, List.length l < f -> read_docs f buf (l ++ DEnd :: r)%list = Some buf.
  Proof. induction 1 as [|t l Ht H IH]; intros f buf r Hf; cbn [List.length] in Hf; (destruct f as [|f]; [lia|]); cbn [app read_docs]; auto. destruct t; try contradiction; apply IH; lia. Qed.
  Lemma read_doc n l f buf : n = mkName schemaNS "documentation" -> read_docs (S f) buf (DStart n :: l) = match bytes_of f "" l with None => None | Some (frag, l2) => read_docs f (buf ++ [trim_space frag])%list l2 end.
  Proof. intros ->. reflexivity. Qed.
  Lemma read_other n l f buf : n <> mkName schemaNS "documentation" -> read_docs (S f) buf (DStart n :: l) =
    match skip_el 0 l with None => None | Some l => match bytes_of f "" l with None => None | Some (frag, l2) => read_docs f (buf ++ [trim_space frag])%list l2 end end.
  Proof. intros H. cbn [read_docs]. destruct (xname_eqb n (mkName schemaNS "documentation")) eqn:E; [apply xname_eqb_eq in E; contradiction|]. reflexivity. Qed.
  Lemma read_toks ks : Forall is_doc ks -> forall f buf r, List.length (toks ks) < f -> exists f', List.length (toks ks) + f' >= f /\ read_docs f buf (toks ks ++ r)%list = read_docs f' (buf ++ map (said raw) ks)%list r.
  Proof.
    induction 1 as [|k ks Hk H IH]; intros f buf r Hf.
    - exists f. cbn [toks flat_map app map]. rewrite app_nil_r. split; [cbn; lia|reflexivity].
    - cbn [toks flat_map List.length app] in *. fold (toks ks) in *. rewrite app_length, app_length in *. cbn [List.length] in *. destruct f as [|f]; [lia|]. rewrite <- !app_assoc. cbn [app]. rewrite read_doc by exact Hk.
      destruct (bytes_inner k f (toks ks ++ r) ltac:(lia)) as (x & E & T). rewrite E, T.
      destruct (IH f (buf ++ [said raw k])%list r ltac:(lia)) as (f' & G & E'). exists f'. split; [lia|]. rewrite E'. rewrite <- app_assoc. reflexivity.
  Qed.
  Lemma annotation_docs el : Forall is_doc (e_children el) -> parse_annotation raw el = Some (trim_space (paragraphs ("" :: map (said raw) (e_children el)))).
  Proof.
    intros F. unfold parse_annotation, annotation_doc. rewrite inner_eq. destruct (e_children el) as [|k ks] eqn:E.
    - rewrite read_untagged; [|apply Hr|rewrite app_length; cbn; lia]. reflexivity.
    - destruct (read_toks (k :: ks) F (S (List.length (toks (k :: ks) ++ [DEnd]))) [""] [DEnd] ltac:(rewrite app_length; lia)) as (f' & G & ->).
      rewrite app_length in G. cbn [List.length] in G. destruct f' as [|f']; [lia|]. cbn [read_docs option_map]. rewrite para_joined. reflexivity.
  Qed.
  Lemma annotation_other el pre k post : e_children el = (pre ++ k :: post)%list -> Forall is_doc pre -> ~ is_doc k ->
    parse_annotation raw el = Some (trim_space (paragraphs ("" :: map (said raw) pre ++ [""])%list)).
  Proof.
    intros E F Nk. unfold parse_annotation, annotation_doc. rewrite inner_eq. destruct (e_children el) as [|k0 ks0] eqn:E0; [destruct pre; discriminate|]. rewrite E. clear E0.
    assert (Et : toks (pre ++ k :: post) = (toks pre ++ (DStart (e_name k) :: inner raw k ++ [DEnd]) ++ toks post)%list) by (unfold toks; rewrite flat_map_app; reflexivity).
    assert (El : List.length (toks (pre ++ k :: post)) = List.length (toks pre) + S (List.length (inner raw k) + 1) + List.length (toks post)).
    { rewrite Et, !app_length. cbn [List.length]. rewrite app_length. cbn [List.length]. lia. }
    pose proof (toks_length post) as Lp. rewrite app_length, El, Et. cbn [List.length]. rewrite <- !app_assoc. cbn [app]. rewrite <- !app_assoc.
    match goal with |- context [read_docs ?f [""] ?l] => set (ff := f) end.
    match goal with |- context [read_docs ff [""] (toks pre ++ ?l)%list] => destruct (read_toks pre F ff [""] l ltac:(subst ff; lia)) as (f' & G & ->) end.
    destruct f' as [|f']; [subst ff; lia|]. cbn [app]. rewrite read_other by exact Nk. rewrite skip_inner. cbn [skip_el].
    rewrite bytes_toks by (subst ff; lia). destruct f' as [|f']; [subst ff; lia|]. cbn [read_docs option_map]. rewrite para_joined. reflexivity.
  Qed.
End Raw.

(* ---------- blank lines at the ends ---------- *)
Lemma nl_blank : blank (String "010" (String "010" "")).
Proof.
  assert (W : In (String "010" "") white) by (right; left; reflexivity).
  apply (bl_cons (String "010" "") (String "010" "") W). apply (bl_cons (String "010" "") "" W). constructor.
Qed.
Lemma trim_blank_l w s : blank w -> trim_space (w ++ s) = trim_space s.
Proof.
  intros W. destruct (trim_space_split s) as (u & v & Hu & Hv & E & I1 & I2). rewrite E at 1. rewrite sapp_assoc. apply trim_unique; auto using blank_app.
Qed.
Lemma trim_blank_r w s : blank w -> trim_space (s ++ w) = trim_space s.
Proof.
  intros W. destruct (trim_space_split s) as (u & v & Hu & Hv & E & I1 & I2). rewrite E at 1. rewrite <- !sapp_assoc. apply trim_unique; auto using blank_app.
Qed.
Lemma para_front l : trim_space (paragraphs ("" :: l)) = trim_space (paragraphs l).
Proof. destruct l as [|x l]; [reflexivity|]. apply (trim_blank_l (String "010" (String "010" "")) (paragraphs (x :: l)) nl_blank). Qed.
Lemma para_back_eq l : l <> [] -> paragraphs (l ++ [""])%list = paragraphs l ++ String "010" (String "010" "").
Proof. induction l as [|x [|y l] IH]; intros H; [congruence|reflexivity|]. change (paragraphs ((x :: y :: l) ++ [""])%list) with (x ++ String "010" (String "010" (paragraphs ((y :: l) ++ [""])%list))). rewrite IH by discriminate. cbn [paragraphs]. rewrite <- sapp_assoc. reflexivity. Qed.
Lemma para_back l : trim_space (paragraphs (l ++ [""])%list) = trim_space (paragraphs l).
Proof. destruct l as [|x l]; [reflexivity|]. rewrite para_back_eq by discriminate. apply trim_blank_r, nl_blank. Qed.

(* ---------- texts that are not blank ---------- *)
Definition trimmed (s : string) : Prop := irr white s /\ irr (map s_rev white) (s_rev s).
Lemma trimmed_trim s : trimmed (trim_space s).
Proof. destruct (trim_space_split s) as (u & v & Hu & Hv & E & I1 & I2). split; auto. Qed.
Lemma trimmed_eq s : trimmed s -> trim_space s = s.
Proof. intros [H1 H2]. pose proof (trim_unique "" s "" (bl_nil) (bl_nil) H1 H2) as H. cbn [append] in H. rewrite sapp_nil_r in H. exact H. Qed.

Lemma irr_line ws a b : (forall w, In w ws -> s_in "010" w = true -> String.length w <= 1) -> a <> "" -> irr ws a -> irr ws (a ++ String "010" (String "010" b)).
Proof.
  intros Hn Ha Hi w r Hw E. destruct (sapp_cmp _ _ _ _ E) as [(q & Hq & Hq')|(q & -> & _)].
  - destruct q as [|z q]; [apply (Hi w ""); auto; rewrite sapp_nil_r in *; auto|]. cbn in Hq'. injection Hq' as <- _. destruct a as [|c a]; [congruence|].
    assert (L : String.length w <= 1). { apply Hn; auto. subst w. clear. induction (String c a) as [|x s IH]; cbn; [reflexivity|]. fold append. cbn [append s_in] in *. rewrite IH. apply orb_true_r. }
    subst w. cbn in L. clear -L. induction a; cbn in L; lia.
  - eapply (Hi w q); auto.
Qed.
Lemma white_line w : In w white -> s_in "010" w = true -> String.length w <= 1.
Proof. assert (H : forallb (fun w => negb (s_in "010" w) || Nat.leb (String.length w) 1) white = true) by (vm_compute; reflexivity). rewrite forallb_forall in H. intros Hw Hs. apply H in Hw. rewrite Hs in Hw. apply Nat.leb_le. exact Hw. Qed.
Lemma rwhite_line w : In w (map s_rev white) -> s_in "010" w = true -> String.length w <= 1.
Proof. assert (H : forallb (fun w => negb (s_in "010" w) || Nat.leb (String.length w) 1) (map s_rev white) = true) by (vm_compute; reflexivity). rewrite forallb_forall in H. intros Hw Hs. apply H in Hw. rewrite Hs in Hw. apply Nat.leb_le. exact Hw. Qed.
Lemma rev_empty s : s_rev s = "" -> s = "".
Proof. intros H. apply (f_equal s_rev) in H. rewrite s_rev_rev in H. exact H. Qed.
Lemma para_nonempty l : l <> [] -> Forall (fun s => trimmed s /\ s <> "") l -> paragraphs l <> "".
Proof. intros H F. destruct F as [|x [|y l] [_ N] F]; [congruence|exact N|]. cbn [paragraphs]. destruct x; [congruence|discriminate]. Qed.
Lemma trimmed_empty : trimmed "".
Proof.
  assert (H : forallb (fun w => negb (String.eqb w "")) (white ++ map s_rev white)%list = true) by (vm_compute; reflexivity). rewrite forallb_forall in H.
  split; intros w r Hw E; destruct w; try discriminate; pose proof (H "" ltac:(apply in_or_app; auto)); discriminate.
Qed.
Lemma para_trimmed l : Forall (fun s => trimmed s /\ s <> "") l -> trimmed (paragraphs l).
Proof.
  induction 1 as [|x [|y l] [T N] F IH]; [exact trimmed_empty|exact T|].
  change (paragraphs (x :: y :: l)) with (x ++ String "010" (String "010" (paragraphs (y :: l)))). set (p := paragraphs (y :: l)) in *. assert (Np : p <> "") by (apply para_nonempty; [discriminate|exact F]).
  split; [apply irr_line; [exact white_line|exact N|apply T]|].
  rewrite s_rev_app. change (String "010" (String "010" p)) with (String "010" (String "010" "") ++ p). rewrite s_rev_app, <- sapp_assoc. change (s_rev (String "010" (String "010" "")) ++ s_rev x) with (String "010" (String "010" (s_rev x))).
  apply irr_line; [exact rwhite_line|intros E; apply Np, rev_empty, E|apply IH].
Qed.

(* ---------- the elements ---------- *)
Section Elements.
  Variable raw : string -> list dtok.
  Hypothesis Hr : forall c, untagged (raw c).

  Lemma said_trimmed k : trimmed (said raw k).
  Proof. unfold said. destruct (e_children k); [apply trimmed_trim|exact trimmed_empty]. Qed.
  Lemma documentation el : Forall is_doc (e_children el) -> parse_annotation raw el = Some (trim_space (paragraphs (map (said raw) (e_children el)))).
  Proof. intros F. rewrite annotation_docs by auto. rewrite para_front. reflexivity. Qed.
  Lemma after_other el pre k post : e_children el = (pre ++ k :: post)%list -> Forall is_doc pre -> ~ is_doc k ->
    parse_annotation raw el = Some (trim_space (paragraphs (map (said raw) pre))).
  Proof. intros E F N. rewrite (annotation_other raw Hr el pre k post E F N). rewrite app_comm_cons, para_back, para_front. reflexivity. Qed.
  Lemma nonblank ks : Forall (fun k => is_doc k /\ said raw k <> "") ks -> Forall (fun s => trimmed s /\ s <> "") (map (said raw) ks).
  Proof. induction 1 as [|k ks [_ N] H IH]; constructor; auto. split; [apply said_trimmed|exact N]. Qed.
  Lemma told a : Forall (fun k => is_doc k /\ said raw k <> "") (e_children a) -> parse_annotation raw a = Some (paragraphs (map (said raw) (e_children a))).
  Proof.
    intros F. rewrite documentation; [|eapply Forall_impl; [|exact F]; intros k [D _]; exact D]. f_equal. apply trimmed_eq, para_trimmed, nonblank, F.
  Qed.
  Lemma para_app l m : l <> [] -> m <> [] -> paragraphs (l ++ m)%list = paragraphs l ++ nl ++ nl ++ paragraphs m.
  Proof.
    intros Hl Hm. induction l as [|x [|y l] IH]; [congruence| |].
    - cbn [app]. destruct m; [congruence|]. reflexivity.
    - change (paragraphs ((x :: y :: l) ++ m)%list) with (x ++ nl ++ nl ++ paragraphs ((y :: l) ++ m)%list). rewrite IH by discriminate.
      change (paragraphs (x :: y :: l)) with (x ++ nl ++ nl ++ paragraphs (y :: l)). rewrite <- !sapp_assoc. reflexivity.
  Qed.
  Lemma doc_append_para l m : Forall (fun s => trimmed s /\ s <> "") l -> m <> [] -> doc_append (paragraphs l) (paragraphs m) = paragraphs (l ++ m)%list.
  Proof.
    intros F Hm. unfold doc_append. destruct l as [|x l]; [reflexivity|]. assert (N : paragraphs (x :: l) <> "") by (apply para_nonempty; [discriminate|exact F]).
    destruct (String.eqb (paragraphs (x :: l)) "") eqn:E; [apply String.eqb_eq in E; contradiction|]. rewrite para_app by (auto; discriminate). rewrite <- !sapp_assoc. reflexivity.
  Qed.
  Lemma docs_fold l : Forall (telling raw) (filter (fun e => local_is e "annotation") l) -> forall acc, Forall (fun s => trimmed s /\ s <> "") acc ->
    foldo (fun d e => if local_is e "annotation" then match parse_annotation raw e with Some x => Some (doc_append d x) | None => None end else Some d) (paragraphs acc) l =
    Some (paragraphs (acc ++ flat_map (fun a => map (said raw) (e_children a)) (filter (fun e => local_is e "annotation") l))%list).
  Proof.
    induction l as [|a l IH]; intros F acc Ha; cbn [foldo filter flat_map] in *; [rewrite app_nil_r; reflexivity|].
    destruct (local_is a "annotation") eqn:E; [|apply IH; auto]. inversion F as [|? ? [N T] F']; subst. rewrite told by exact T.
    rewrite doc_append_para; auto; [|destruct (e_children a); [congruence|discriminate]]. rewrite IH; auto; [|apply Forall_app; split; [exact Ha|apply nonblank, T]].
    cbn [flat_map]. rewrite <- app_assoc. reflexivity.
  Qed.
  Lemma docs_told el : Forall (telling raw) (annotations el) ->
    docs (parse_annotation raw) el = Some (paragraphs (flat_map (fun a => map (said raw) (e_children a)) (annotations el))).
  Proof. intros F. unfold docs, walk. apply (docs_fold _ F []). constructor. Qed.
  Lemma element_told ns el e : Forall (telling raw) (annotations el) -> parse_element (parse_annotation raw) ns el = Some e ->
    el_doc e = paragraphs (flat_map (fun a => map (said raw) (e_children a)) (annotations el)).
  Proof.
    intros F. unfold parse_element. rewrite docs_told by exact F. repeat (match goal with |- match ?x with _ => _ end = _ -> _ => destruct x end; try discriminate). intros H. injection H as <-. reflexivity.
  Qed.
  Lemma attribute_told ns el : Forall (telling raw) (annotations el) ->
    exists a, parse_attribute (parse_annotation raw) ns el = Some a /\ at_doc a = paragraphs (flat_map (fun a => map (said raw) (e_children a)) (annotations el)).
  Proof. intros F. unfold parse_attribute. rewrite docs_told by exact F. eexists. split; reflexivity. Qed.
  Lemma always_read el : exists d, parse_annotation raw el = Some d.
  Proof.
    assert (H : Forall is_doc (e_children el) \/ exists pre k post, e_children el = (pre ++ k :: post)%list /\ Forall is_doc pre /\ ~ is_doc k).
    { induction (e_children el) as [|k ks [IH|(pre & k' & post & -> & F & N)]]; [left; constructor| |].
      - destruct (xname_eqb (e_name k) (mkName schemaNS "documentation")) eqn:E.
        + left. constructor; auto. apply xname_eqb_eq, E.
        + right. exists [], k, ks. repeat split; auto. intros D. apply xname_eqb_eq in D. congruence.
      - destruct (xname_eqb (e_name k) (mkName schemaNS "documentation")) eqn:E.
        + right. exists (k :: pre), k', post. repeat split; auto. constructor; auto. apply xname_eqb_eq, E.
        + right. exists [], k, (pre ++ k' :: post)%list. repeat split; auto. intros D. apply xname_eqb_eq in D. congruence. }
    destruct H as [F|(pre & k & post & E & F & N)]; [rewrite documentation by exact F|rewrite (after_other el pre k post E F N)]; eauto.
  Qed.
End Elements.
