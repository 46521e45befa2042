(* Generating code from types: the declarations together. *)
From Verif Require Import Base SortLib ScopeModel TreeModel EqualModel Utf8 Decimal BuiltinModel CodecModel XsdModel XsdProofs TypesModel TypesSpec TypesProofs GraphModel GenModel SgModel SgStruct SgProofs SgNames SgTags SgDecl SgExamples SgFlat SgClosed SgFlatSpec SgFlatten SgExpandSpec SgExpand SgExpandFields SliceModel SliceExamples SgGen SgGenSpec SgGenProofs SgGenCode.
Local Open Scope string_scope.

Lemma sset_key_in {V} k (v : V) m x : In x (map fst (sset k v m)) <-> x = k \/ In x (map fst m).
Proof.
  induction m as [|[k' v'] m IH]; cbn [sset map fst In]; [intuition congruence|]. destruct (String.eqb k' k) eqn:E; cbn [map fst In]; [apply String.eqb_eq in E as ->; intuition congruence|]. rewrite IH. intuition congruence.
Qed.
Lemma declare_in {V} (l : list (string * V)) : forall m p, In p (declare m l) -> In p m \/ In p l.
Proof.
  induction l as [|[k v] l IH]; intros m p H; [left; exact H|]. unfold declare in H. cbn [fold_left fst snd] in H. apply IH in H as [H|H]; [|right; right; exact H]. apply in_sset in H as [->|H]; [right; left; reflexivity|left; exact H].
Qed.
Lemma declare_keys {V} (l : list (string * V)) : forall m x, In x (map fst (declare m l)) <-> In x (map fst m) \/ In x (map fst l).
Proof.
  induction l as [|[k v] l IH]; intros m x; [cbn [map In]; tauto|]. unfold declare. cbn [fold_left fst snd]. fold (declare (sset k v m) l). rewrite IH, sset_key_in. cbn [map fst In]. intuition congruence.
Qed.

Section Closed.
  Variable public : xname -> string.
  Variable fa : option (attribute -> bool).
  Variable fe : option (element -> bool).
  Variable ft : option (xname -> bool).
  Variable allow : option (list xname).
  Variable helpers : list Z.
  Hypothesis Hh : forall b, non_trivial b = true -> memb b helpers = true.
  Variable h : nat -> nat.

  (* post-processing keeps the name, and drops identifiers at most *)
  Definition less (s s' : spec) : Prop := sp_name s' = sp_name s /\ sp_type s' = sp_type s /\ sp_overrides s' = sp_overrides s /\ sp_helpers s' = sp_helpers s /\ incl (spec_ids s') (spec_ids s).
  Lemma less_refl s : less s s.
  Proof. repeat (split; [reflexivity|]). apply incl_refl. Qed.
  Lemma post_ok slices st s : complete st -> exists s', post slices st s = Ret s' /\ less s s'.
  Proof.
    intros C. unfold post. destruct slices; [|exists s; split; [reflexivity|apply less_refl]]. unfold sliced.
    assert (X : exists o, to_slice st s = Ret o).
    { unfold to_slice. destruct (sp_struct s) as [[|f [|? ?]]|]; eauto. destruct (sf_expr f); eauto. destruct (sp_type s) as [| | |i]; eauto. destruct (get_c st i) as [c|] eqn:Ec; eauto. destruct (find el_wild (ct_elems c)) as [w|] eqn:Ew; eauto.
      apply find_some in Ew as [Ew _]. unfold get_c in Ec. destruct (nth_error st i) as [[c0|]|] eqn:E; try discriminate. injection Ec as ->.
      assert (K : known st (el_type w)). { apply (proj2 (C i _ E)). right. apply in_or_app. left. apply in_map. exact Ew. }
      destruct (el_type w) as [|b|n|j]; cbn [known] in K; try contradiction; cbn [type_name].
      - destruct (_ && _)%bool; cbn [tag_key andthen]; eauto.
      - destruct (nth_error st j) as [d|] eqn:Ej; [|apply nth_error_None in Ej; lia]. cbn [option_map]. destruct (_ && _)%bool; cbn [tag_key andthen]; eauto. }
    destruct X as [o Ho]. rewrite Ho. cbn [andthen]. destruct o as [sl|]; [|exists s; split; [reflexivity|apply less_refl]]. eexists. split; [reflexivity|]. repeat (split; [reflexivity|]).
    destruct (slice_shape _ _ _ Ho) as (_ & f & i & c & w & H1 & H2 & _). unfold spec_ids. cbn [sp_struct sp_expr app]. rewrite H1. intros x [<-|[]]. cbn [map]. apply in_or_app. left. left. rewrite H2. reflexivity.
  Qed.
  Lemma posts_ok slices st : complete st -> forall (l acc : list (string * spec)), exists out, foldr (fun m p => andthen (post slices st (snd p)) (fun s => Ret (m ++ [(fst p, s)])%list)) acc l = Ret (acc ++ out)%list /\
    Forall2 (fun p q => fst q = fst p /\ less (snd p) (snd q)) l out.
  Proof.
    intros C. induction l as [|[k s] l IH]; intros acc; [exists []; rewrite app_nil_r; split; [reflexivity|constructor]|]. cbn [foldr fst snd]. destruct (post_ok slices st s C) as (s' & -> & L). cbn [andthen].
    destruct (IH (acc ++ [(k, s')])%list) as (out & -> & F). exists ((k, s') :: out). rewrite <- app_assoc. split; [reflexivity|]. constructor; auto.
  Qed.
  (* the names of types *)
  Lemma names_ok st : forall (specs : list spec) (acc : list (xname * string)), (forall s, In s specs -> exists n, type_name st (sp_type s) = Some n /\ sp_name s = public n) -> (forall n id, lookup n acc = Some id -> id = public n) ->
    exists names, foldr (fun m s => match type_name st (sp_type s) with Some n => Ret (mset n (sp_name s) m) | None => Panic end) acc specs = Ret names /\
      (forall n id, lookup n names = Some id -> id = public n) /\
      (forall n, lookup n names <> None <-> lookup n acc <> None \/ exists s, In s specs /\ type_name st (sp_type s) = Some n).
  Proof.
    induction specs as [|s specs IH]; intros acc H A; cbn [foldr].
    - exists acc. split; [reflexivity|]. split; [exact A|]. intros n. split; [auto|]. intros [Q|(? & [] & _)]. exact Q.
    - destruct (H s (or_introl eq_refl)) as (n & Hn & Hs). rewrite Hn. cbn [andthen]. destruct (IH (mset n (sp_name s) acc)) as (names & E & P & Q).
      + intros s' Hs'. apply H. right. exact Hs'.
      + intros m id. rewrite lookup_mset. destruct (xname_eqb n m) eqn:Em; [apply xname_eqb_eq in Em as ->; congruence|apply A].
      + exists names. split; [exact E|]. split; [exact P|]. intros m. rewrite Q, lookup_mset. destruct (xname_eqb n m) eqn:Em.
        * apply xname_eqb_eq in Em as ->. split; [|intros _; left; discriminate]. intros _. right. exists s. split; [left; reflexivity|exact Hn].
        * split; [intros [X|(s' & X1 & X2)]; [left; exact X|right; exists s'; split; [right; exact X1|exact X2]]|]. intros [X|(s' & [->|X1] & X2)]; [left; exact X| |right; exists s'; auto].
          exfalso. assert (n = m) by congruence. subst. rewrite xname_eqb_refl in Em. discriminate.
  Qed.
  Lemma helpers_ok decls : let r := add_helpers helpers decls in
    (forall x, In x (map fst r) <-> In x (map fst decls) \/ exists b p, In p decls /\ In b (sp_helpers (snd p)) /\ memb b helpers = true /\ x = helper_name b) /\
    (forall p, In p r -> In p decls \/ exists b q, In q decls /\ In b (sp_helpers (snd q)) /\ p = (helper_name b, helper_spec b)).
  Proof.
    cbv zeta. unfold add_helpers. set (bs := flat_map (fun p => sp_helpers (snd p)) decls).
    assert (B : forall b, In b bs <-> exists p, In p decls /\ In b (sp_helpers (snd p))) by (intros b; unfold bs; apply in_flat_map).
    assert (X : forall l m, let r := fold_left (fun m b => if memb b helpers then sset (helper_name b) (helper_spec b) m else m) l m in
      (forall x, In x (map fst r) <-> In x (map fst m) \/ exists b, In b l /\ memb b helpers = true /\ x = helper_name b) /\
      (forall p, In p r -> In p m \/ exists b, In b l /\ p = (helper_name b, helper_spec b))).
    { clear. induction l as [|b l IH]; intros m; cbv zeta; cbn [fold_left].
      - split; [intros x; split; [auto|intros [H|(? & [] & _)]; exact H]|auto].
      - destruct (IH (if memb b helpers then sset (helper_name b) (helper_spec b) m else m)) as [I1 I2]. cbv zeta in I1, I2. split.
        + intros x. rewrite I1. destruct (memb b helpers) eqn:Eb.
          * rewrite sset_key_in. split; [intros [[->|H]|(c & C1 & C2)]; [right; exists b; cbn [In]; auto|left; exact H|right; exists c; cbn [In]; auto]|].
            intros [H|(c & [->|C1] & C2 & C3)]; [left; right; exact H|left; left; exact C3|right; exists c; auto].
          * split; [intros [H|(c & C1 & C2)]; [left; exact H|right; exists c; cbn [In]; auto]|]. intros [H|(c & [->|C1] & C2 & C3)]; [left; exact H|congruence|right; exists c; auto].
        + intros p Hp. apply I2 in Hp as [Hp|(c & C1 & C2)]; [|right; exists c; cbn [In]; auto]. destruct (memb b helpers); [|left; exact Hp]. apply in_sset in Hp as [->|Hp]; [right; exists b; cbn [In]; auto|left; exact Hp]. }
    destruct (X bs decls) as [X1 X2]. cbv zeta in X1, X2. split.
    - intros x. rewrite X1. split; (intros [H|H]; [left; exact H|right]); [destruct H as (b & H1 & H2 & H3); apply B in H1 as (p & P1 & P2); exists b, p; auto|destruct H as (b & p & P1 & P2 & P3 & P4); exists b; split; [apply B; eauto|auto]].
    - intros p Hp. destruct (X2 p Hp) as [H|(b & H1 & H2)]; [left; exact H|right]. apply B in H1 as (q & Q1 & Q2). exists b, q. auto.
  Qed.

  Theorem gen_main slices st schemas : (forall a t, filtered fa (retype_at a t) = filtered fa a) -> generable h st -> (forall i, h i <= N.to_nat 1000) -> (forall types t, In types schemas -> In t types -> known st t) ->
    exists c, gen public fa fe ft allow helpers slices st schemas = Ret (inr c) /\ closed_code (co_decls c) /\
      (forall types t n, In types schemas -> In t types -> type_name st t = Some n -> selected ft allow n = true ->
         present fa st (fun j => forall m, type_name st (TPtr j) = Some m -> lookup m (co_names c) = Some (public m) /\ In (public m) (map fst (co_decls c))) t) /\
      (forall x, In x (map fst (co_decls c)) -> (exists j n, type_name st (TPtr j) = Some n /\ x = public n) \/ exists b, non_trivial b = true /\ x = helper_name b) /\
      (forall n id, lookup n (co_names c) = Some id -> id = public n /\ In id (map fst (co_decls c))) /\
      follows fa st (co_store c) /\ generable h (co_store c).
  Proof.
    intros Hfa G Hb K. unfold gen. destruct (schemas_ok public fa fe ft allow helpers Hh h Hfa Hb schemas st [] G K) as (st' & sps & E & G' & F & S & P). cbn [app] in E. rewrite E. cbn [andthen].
    destruct (names_ok st' sps []) as (names & En & N1 & N2).
    { intros s Hs. destruct (S s Hs) as ((j & n & H1 & H2 & H3) & _). exists n. rewrite H1, (fo_name _ _ _ F). auto. }
    { intros n id. discriminate. }
    rewrite En. cbn [andthen]. set (ds := declare [] (map (fun s => (sp_name s, s)) sps)).
    destruct (posts_ok slices st' (gn_complete _ _ G') ds []) as (out & Eo & Fo). cbn [app] in Eo. rewrite Eo. cbn [andthen]. eexists. split; [reflexivity|]. cbn [co_decls co_names co_store].
    assert (Kd : forall x, In x (map fst ds) <-> In x (map sp_name sps)). { intros x. unfold ds. rewrite declare_keys. cbn [map In]. rewrite map_map. cbn [fst]. tauto. }
    assert (Ko : map fst out = map fst ds). { clear - Fo. induction Fo as [|p q l m [H _] Fo IH]; cbn [map]; congruence. }
    assert (Io : forall q, In q out -> exists s, In s sps /\ less s (snd q)).
    { intros q Hq. assert (Y : exists p, In p ds /\ less (snd p) (snd q)). { clear - Fo Hq. induction Fo as [|p q' l m [_ H] Fo IH]; [destruct Hq|]. destruct Hq as [->|Hq]; [exists p; split; [left; reflexivity|exact H]|]. destruct (IH Hq) as (p' & P1 & P2). exists p'. split; [right; exact P1|exact P2]. }
      destruct Y as (p & Hp & L). unfold ds in Hp. apply declare_in in Hp as [[]|Hp]. apply in_map_iff in Hp as (s & <- & Hs). exists s. auto. }
    destruct (helpers_ok out) as [H1 H2]. cbv zeta in H1, H2.
    assert (Kall : forall x, In x (map sp_name sps) -> In x (map fst (add_helpers helpers out))). { intros x Hx. apply H1. left. rewrite Ko. apply Kd. exact Hx. }
    assert (Hlp : forall q b, In q out -> In b (sp_helpers (snd q)) -> non_trivial b = true). { intros q b Hq Hbq. destruct (Io q Hq) as (s & Hs & (_ & _ & _ & L & _)). rewrite L in Hbq. exact (proj2 (proj2 (proj2 (S s Hs))) b Hbq). }
    split; [|split; [|split; [|split; [|split; [exact F|exact G']]]]].
    - intros n s Hns. apply H2 in Hns as [Hns|(b & q & Q1 & Q2 & Q3)].
      + destruct (Io _ Hns) as (s0 & Hs0 & (_ & _ & L1 & L2 & L3)). cbn [snd] in *. destruct (S s0 Hs0) as (_ & S1 & S2 & S3). split.
        * intros x Hx. destruct (S1 x (L3 x Hx)); auto.
        * rewrite L1. intros o Ho. destruct (S2 o Ho) as [Q|(b & B1 & B2)]; [left; exact Q|right]. apply H1. right. exists b, (n, s). split; [exact Hns|]. cbn [snd]. rewrite L2. split; [exact B1|]. split; [exact (Hh b (S3 b B1))|exact B2].
      + injection Q3 as -> ->. split; [|intros o []]. pose proof (non_trivial_translated b (Hlp q b Q1 Q2)) as T. destruct (translated_expr b T) as (g & Eg & Ig).
        unfold spec_ids, helper_spec. cbn [sp_struct sp_expr app]. rewrite Eg. intros x [<-|[]]. left. exact Ig.
    - intros types t n T1 T2 T3 T4. destruct (P types t n T1 T2 T3 T4) as (v & V1 & V2 & V3). exists v. split; [exact V1|]. split; [exact V2|]. intros j J1 m J2. destruct (V3 j J1) as (s & Hs & Es).
      destruct (S s Hs) as ((j' & m' & S1 & S2 & S3) & _). assert (j' = j) as -> by congruence. assert (m' = m) as -> by congruence. split; [|apply Kall; rewrite <- S3; apply in_map; exact Hs].
      assert (X : lookup m names <> None). { apply N2. right. exists s. split; [exact Hs|]. rewrite Es, (fo_name _ _ _ F). exact J2. }
      destruct (lookup m names) as [id|] eqn:El; [|congruence]. rewrite (N1 m id El). reflexivity.
    - intros x Hx. apply H1 in Hx as [Hx|(b & p & P1 & P2 & P3 & ->)]; [left|right; exists b; split; [exact (Hlp p b P1 P2)|reflexivity]]. rewrite Ko in Hx. apply Kd in Hx. apply in_map_iff in Hx as (s & <- & Hs). destruct (S s Hs) as ((j & n & S1 & S2 & S3) & _). eauto.
    - intros n id Hn. split; [exact (N1 n id Hn)|]. apply Kall. assert (X : lookup n names <> None) by congruence. apply N2 in X as [X|(s & X1 & X2)]; [exfalso; apply X; reflexivity|].
      destruct (S s X1) as ((j & m & S1 & S2 & S3) & _). rewrite (N1 n id Hn). rewrite S1, (fo_name _ _ _ F) in X2. assert (m = n) as -> by congruence. rewrite <- S3. apply in_map. exact X1.
  Qed.
End Closed.
