(* The fields of the structs made from the texts of schemas. *)
From Coq Require Import Permutation.
From Verif Require Import Base SortLib ScopeModel ScopeSpec TreeModel TreeSpec EqualModel ParseModel GraphModel BuiltinModel CodecModel XsdModel XsdProofs NormModel NormMem NormOps NormPath NormSpec NormExpand NormDefaults NormFixed NormAgain NormStart NormDocs NormPlainDocs XsdparseModel XsdparseSpec XsdparseProofs TypesModel TypesSpec TypesProofs TypesMixed TypesParse TypesFinal TypesOrder GenModel SgModel SgStruct SgDecl SgFlatSpec SgExpandSpec SliceModel SgGen SgGenSpec SgOrderSpec SgShapeSpec SgShape FilesModel PipeModel PipeSpec PipeProofs PipeParse PipeWholeSpec PipeWhole TextModel TextSpec TextProofs.
Local Open Scope string_scope.

Section Fields.
  Variables (public : xname -> string) (fa : option (attribute -> bool)) (fe : option (element -> bool)) (ft : option (xname -> bool)) (allow : option (list xname)) (helpers : list Z).
  Variables (h : xname -> nat) (l : list rd) (namespaces targets ns : list string).
  Hypothesis Hn : forall b, non_trivial b = true -> memb b helpers = true.
  Hypothesis Hfa : forall a t, filtered fa (retype_at a t) = filtered fa a.
  Hypothesis Hfe : forall e t, filtered fe (retype_el e t) = filtered fe e.
  Hypothesis D : documents h l.
  Hypothesis Hh : forall n, h n <= N.to_nat 1000.
  Hypothesis Im : PipeSpec.imports_first l.
  Hypothesis Wd : wild_declared l.
  Hypothesis Fd : firm_declared fa l.
  Hypothesis Ens : namespaces = [] /\ ns = targets \/ namespaces <> [] /\ ns = namespaces.
  Hypothesis Nn : NoDup ns.
  Hypothesis Hns : forall s, In s ns -> exists r, In r l /\ rd_tns r = s.
  Variables (ord : nat -> list (xname * ty) -> list (xname * ty)) (ord' : string -> list (xname * ty) -> list (xname * ty)).
  Hypothesis O : any_order ord.
  Hypothesis O' : forall s m, Permutation m (ord' s m).
  (* a struct for a complex type of anyType: every element and every attribute has its field *)
  Theorem struct_of_documents : exists c, gen_code public fa fe ft allow helpers false ord ord' namespaces targets l = Ret (Coded c) /\
    forall n ct x sp, PipeSpec.declares l n (DC ct) -> ct_base ct = TB 0 -> only_name public l n -> In (x, sp) (co_decls c) -> x = public n ->
      exists fs, sp_struct sp = Some fs /\
        (forall m, In m (ct_elems ct) -> filtered fe m = false -> exists f, In f fs /\ sf_tag f = if el_wild m then quoted ",any" else element_tag m) /\
        forall a, In a (ct_attrs ct) -> filtered fa a = false -> exists f, In f fs /\ sf_tag f = attribute_tag a.
  Proof.
    destruct (documents_shape public fa fe ft allow helpers h l namespaces targets ns Hn Hfa Hfe D Hh Im Wd Fd Ens Nn Hns ord ord' O O') as (st & parsed & c & E & G & Sh). exists c. split; [exact G|].
    intros n ct x sp Dn Bn (On & Hhn) Hx ->. destruct (Sh _ _ Hx) as [(i & S & Es)|(b & Nb & Eb & _)]; [|exfalso; exact (Hhn b Nb Eb)].
    destruct S as (_ & S). destruct (nth_error st i) as [[c1|s1]|] eqn:Ei; [| |destruct S].
    - destruct S as (Sn & _ & _ & fs & Ef & Sf). exists fs. split; [exact Ef|]. destruct (was_complex h l D ord O st parsed E i c1 Ei) as (m & c0 & Hi & Dm & Re & B).
      pose proof Re as (Nc & Es1 & As1 & _). destruct (st_nth h l D ord O st parsed E i _ Ei) as (m' & d0 & Hi' & Nd & _). assert (Nm : m = ct_name c1) by (cbn [def_name] in Nd; congruence). clear m' d0 Hi' Nd.
      assert (Q : m = n) by (apply (On m (DC c0) Dm); congruence). clear Nm. subst m. assert (X := decl_once h l D n _ _ Dm Dn). injection X as ->.
      destruct Sf as (es & ats & ts & efs & afs & Ih & -> & _ & Fe & Fa).
      assert (Bt : ct_base c1 = TB 0) by (rewrite Bn in B; exact B).
      assert (Root : es = ct_elems c1 /\ ats = ct_attrs c1).
      { inversion Ih as [i' c' Hc' Nr|i' j' c' es' ats' Hc' (c2 & Hc2 & Eb2 & _) _]; subst; [assert (c' = c1) by congruence; subst; auto|]. assert (c2 = c1) by congruence. subst c2. congruence. }
      destruct Root as [-> ->]. split.
      + intros m Hm Fm. destruct (forall2_in_l _ _ _ Es1 m Hm) as (m1 & Hm1 & _ & Em1). assert (Hm2 : In m1 (filter (fun e => negb (filtered fe e)) (ct_elems c1))) by (apply filter_In; split; [exact Hm1|rewrite Em1, Hfe, Fm; reflexivity]).
        destruct (forall2_in_l _ _ _ Fe m1 Hm2) as (f & Hf & u & g & _ & _ & Tf & _). exists f. split; [apply in_or_app; right; apply in_or_app; left; exact Hf|]. rewrite Tf, Em1. reflexivity.
      + intros a Ha Faa. destruct (forall2_in_l _ _ _ As1 a Ha) as (a1 & Ha1 & _ & Ea1). assert (Ha2 : In a1 (filter (fun a => negb (filtered fa a)) (ct_attrs c1))) by (apply filter_In; split; [exact Ha1|rewrite Ea1, Hfa, Faa; reflexivity]).
        destruct (forall2_in_l _ _ _ Fa a1 Ha2) as (f & Hf & u & _ & _ & Tf). exists f. split; [apply in_or_app; right; apply in_or_app; right; exact Hf|]. rewrite Tf, Ea1. reflexivity.
    - exfalso. destruct S as (Sn & _). destruct (st_nth h l D ord O st parsed E i _ Ei) as (m & d0 & Hi & Nd & Re). cbn [def_name] in Nd. assert (Nm : m = sd_name s1) by congruence. clear Nd. assert (Dm : PipeSpec.declares l m d0) by (apply declares_in; exact (nth_error_In _ _ Hi)).
      assert (Q : m = n) by (apply (On m d0 Dm); congruence). clear Nm. subst m. assert (X := decl_once h l D n _ _ Dm Dn). subst d0. destruct Re.
  Qed.
End Fields.
Section Texts.
  Variable sortns : list xname -> list xname.
  Variable dec : string -> stream.
  Variables grow agrow : nat -> nat -> nat.
  Variables cap_of acap_of : nat -> nat.
  Variable standard : list string.
  Variable fuel : nat.
  Variable annot : elem -> option string.
  Variables (F T : Type) (f0 : F) (t0 : T).
  Variables (pf : string -> option F) (pd pr : string -> option T) (comp : string -> bool) (msg : string -> string).
  Notation parses := (fun s e => parse_text sortns dec s = Some e).
  Variables (texts : list string) (docs std : list elem) (l : list rd).
  Variables (public : xname -> string) (fa : option (attribute -> bool)) (fe : option (element -> bool)) (ft : option (xname -> bool)) (allow : option (list xname)) (helpers : list Z).
  Variables (h : xname -> nat) (namespaces ns : list string).
  Theorem fields_of_texts : Forall2 parses texts docs -> Forall2 parses standard std -> workable fuel (docs ++ std) -> parse_texts sortns dec grow agrow cap_of acap_of standard fuel annot F T f0 t0 pf pd pr comp msg texts = Ret (Some l) ->
    (forall b, non_trivial b = true -> memb b helpers = true) -> (forall a t, filtered fa (retype_at a t) = filtered fa a) -> (forall e t, filtered fe (retype_el e t) = filtered fe e) ->
    unnested docs -> documents h l -> (forall n, h n <= N.to_nat 1000) -> PipeSpec.imports_first l -> wild_declared l -> firm_declared fa l ->
    (namespaces = [] /\ ns = spaces_of docs \/ namespaces <> [] /\ ns = namespaces /\ forall s, In s ns -> In s (map namespace_of (flat_map schemas_of (docs ++ std)))) -> NoDup ns ->
    forall (ord : nat -> list (xname * ty) -> list (xname * ty)) (ord' : string -> list (xname * ty) -> list (xname * ty)), any_order ord -> (forall s m, Permutation m (ord' s m)) ->
    exists c, gen_texts sortns dec grow agrow cap_of acap_of standard fuel annot F T f0 t0 pf pd pr comp msg public fa fe ft allow helpers false ord ord' namespaces texts = Ret (Coded c) /\
      forall e k, In e (flat_map schemas_of docs) -> NormAgain.plain e -> 3 * height e <= fuel -> namespace_of e <> "" -> In (namespace_of e) ns -> In k (e_children e) -> s_in colon (attr k "" "name") = false ->
        let n := mkName (namespace_of e) (attr k "" "name") in
        picked ft allow n -> short k -> clean_scope (e_scope k) -> only_name public l n ->
        exists sp fs, In (public n, sp) (co_decls c) /\ sp_struct sp = Some fs /\
          (forall el, member k el -> s_in colon (attr el "" "name") = false -> (forall m, nlocal (el_name m) = attr el "" "name" -> filtered fe m = false) ->
             exists f space rest, In f fs /\ sf_tag f = quoted (space ++ " " ++ attr el "" "name" ++ rest) /\ (rest = "" \/ rest = ",omitempty")) /\
          forall a, attribute_of k a -> s_in colon (attr a "" "name") = false -> (forall x, at_name x = mkName (namespace_of e) (attr a "" "name") -> filtered fa x = false) ->
             exists f space rest, In f fs /\ sf_tag f = quoted (space ++ attr a "" "name" ++ ",attr" ++ rest) /\ (space = "" \/ space = namespace_of e ++ " ") /\ (rest = "" /\ attr a "" "use" = "required" \/ rest = ",omitempty" /\ attr a "" "use" <> "required").
  Proof.
    intros Hd Hs W Pt Hn Hfa Hfe U D Hh Im Wd Fd Ens Nn ord ord' O O'.
    destruct (code_of_texts sortns dec grow agrow cap_of acap_of standard fuel annot F T f0 t0 pf pd pr comp msg texts docs std l Hd Hs W Pt public fa fe ft allow helpers false h namespaces ns Hn Hfa U D Hh Im Ens Nn ord ord' O O') as (c & G & _ & Dc).
    exists c. split; [exact G|]. pose proof (texts_read sortns dec grow agrow cap_of acap_of standard fuel annot F T f0 t0 pf pd pr comp msg texts docs std l Hd Hs W Pt) as R.
    assert (Hns : forall s, In s ns -> exists r, In r l /\ rd_tns r = s).
    { intros s Hs'. assert (X : In s (map namespace_of (flat_map schemas_of (docs ++ std)))). { destruct Ens as [[_ ->]|(_ & _ & X)]; [|exact (X s Hs')]. unfold spaces_of in Hs'. apply filter_In in Hs' as [Hs' _]. rewrite flat_map_app, map_app. apply in_or_app. left. exact Hs'. }
      apply in_map_iff in X as (e & <- & He). destruct (forall2_in_l _ _ _ R _ He) as (r & Hr & t & A & _ & Rt). exists r. split; [exact Hr|exact (tns_is annot F T f0 t0 pf pd pr comp msg e t r A Rt)]. }
    assert (Ens' : namespaces = [] /\ ns = spaces_of docs \/ namespaces <> [] /\ ns = namespaces) by tauto.
    destruct (struct_of_documents public fa fe ft allow helpers h l namespaces (spaces_of docs) ns Hn Hfa Hfe D Hh Im Wd Fd Ens' Nn Hns ord ord' O O') as (c2 & G2 & Sf).
    assert (c2 = c) as ->. { unfold gen_texts in G. rewrite Pt in G. cbn [andthen] in G. rewrite (spaces_found sortns dec texts docs Hd U) in G. congruence. }
    intros e k He P Hhe Ne Hin Hk Cn n Pk Shk Cs On. pose proof (Dc e k He P Hhe Ne Hin Hk Cn Pk (or_introl (conj Shk Cs))) as Hc. fold n in Hc. apply in_map_iff in Hc as ((x & sp) & Ex & Hx). cbn [fst] in Ex.
    destruct (written_types sortns dec grow agrow cap_of acap_of standard fuel annot F T f0 t0 pf pd pr comp msg texts docs std l Hd Hs W Pt e k He P Hhe Ne Hk Cn) as (WC & _). destruct (WC Shk Cs) as (ct & Dct & Bct & Me & Ma). fold n in Dct.
    destruct (Sf n ct x sp Dct Bct On Hx Ex) as (fs & Ef & Fe & Fa). exists sp, fs. split; [rewrite <- Ex; exact Hx|]. split; [exact Ef|]. split.
    - intros el Mel Cel Fel. destruct (Me el Mel Cel) as (m & Hm & Nm & Wm). destruct (Fe m Hm (Fel m Nm)) as (f & Hf & Tf). rewrite Wm in Tf. unfold element_tag in Tf. rewrite Nm in Tf. eexists f, _, _. split; [exact Hf|]. split; [exact Tf|]. destruct (_ || _)%bool; auto.
    - intros a Aa Ca Faa. destruct (Ma a Aa Ca) as (x' & Hx' & Nx & Ox). destruct (Fa x' Hx' (Faa x' Nx)) as (f & Hf & Tf). unfold attribute_tag in Tf. rewrite Nx in Tf. cbn [nspace nlocal] in Tf. eexists f, _, _. split; [exact Hf|]. split; [exact Tf|].
      split; [destruct (existsb _ _); auto|]. destruct (at_optional x'); [right|left; split; [reflexivity|apply Ox; reflexivity]]. split; [reflexivity|]. intros Z. apply Ox in Z. discriminate.
  Qed.
End Texts.
Lemma mapo_none {A B} (f : A -> option B) l a : In a l -> f a = None -> mapo f l = None.
Proof. induction l as [|b l IH]; intros H E; [destruct H|]. cbn [mapo]. destruct H as [->|H]; [rewrite E; reflexivity|]. rewrite (IH H E). destruct (f b); reflexivity. Qed.
Lemma malformed sortns dec grow agrow cap_of acap_of standard fuel annot F T f0 t0 pf pd pr comp msg public fa fe ft allow helpers slices ord ord' namespaces texts s :
  In s texts -> parse_text sortns dec s = None -> gen_texts sortns dec grow agrow cap_of acap_of standard fuel annot F T f0 t0 pf pd pr comp msg public fa fe ft allow helpers slices ord ord' namespaces texts = Ret Unparsed.
Proof. intros H E. unfold gen_texts, parse_texts, normalize_texts. rewrite (mapo_none _ _ s) by (auto; apply in_or_app; left; exact H). reflexivity. Qed.
