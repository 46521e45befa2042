(* What the errors about types that are not found tell. *)
From Coq Require Import Permutation.
From Verif Require Import Base ScopeModel TreeModel BuiltinModel XsdModel TypesModel TypesSpec TypesProofs TypesMixed TypesParse TypesFinal TypesOrder MissModel MissSpec.
Local Open Scope string_scope.

Definition forget {A} (x : got A) : option A := match x with Got a => Some a | Missing _ => None end.
Lemma forget_map {A B} (f : A -> got B) g l : (forall a, forget (f a) = g a) -> forget (mapg f l) = mapo g l.
Proof.
  intros H. induction l as [|a l IH]; [reflexivity|]. cbn [mapg mapo]. rewrite <- (H a). destruct (f a); cbn [bind forget]; [|reflexivity].
  rewrite <- IH. destruct (mapg f l); reflexivity.
Qed.
Lemma forget_fold {A B} (f : A -> B -> got A) g l : (forall a b, forget (f a b) = g a b) -> forall a, forget (foldg f a l) = foldo g a l.
Proof.
  intros H. induction l as [|b l IH]; intros a; [reflexivity|]. cbn [foldg foldo]. rewrite <- (H a b). destruct (f a b); cbn [bind forget]; auto.
Qed.
Lemma forget_one look cx k ro t : forget (resolve_one look cx k ro t) = resolve_ty look t.
Proof. destruct t; try reflexivity. cbn [resolve_one resolve_ty]. destruct (look n); reflexivity. Qed.
Lemma forget_def look k d : forget (resolve_told look k d) = resolve_def look d.
Proof.
  destruct d as [c|s]; cbn [resolve_told resolve_def].
  - rewrite <- (forget_one look true k RBase). destruct (resolve_one _ _ _ _ _); cbn [bind forget]; [|reflexivity].
    erewrite <- (forget_map (element_told look k)).
    2:{ intros e. unfold element_told. rewrite <- (forget_one look true k (RElement (el_name e))). destruct (resolve_one _ _ _ _ _); reflexivity. }
    destruct (mapg _ (ct_elems c)); cbn [bind forget]; [|reflexivity].
    erewrite <- (forget_map (attribute_told look k)).
    2:{ intros e. unfold attribute_told. rewrite <- (forget_one look true k (RAttribute (at_name e))). destruct (resolve_one _ _ _ _ _); reflexivity. }
    destruct (mapg _ (ct_attrs c)); reflexivity.
  - rewrite <- (forget_one look false k RBase). destruct (resolve_one _ _ _ _ _); cbn [bind forget]; [|reflexivity].
    rewrite <- (forget_map (resolve_one look false k RMember) _ _ (forget_one look false k RMember)).
    destruct (mapg _ (sd_union s)); reflexivity.
Qed.
Lemma forget_entry look st e : forget (entry_told look st e) = resolve_entry look st e.
Proof.
  unfold entry_told, resolve_entry. destruct (snd e) as [|?|?|i]; try reflexivity. destruct (nth_error st i); [|reflexivity].
  rewrite <- (forget_def look (fst e)). destruct (resolve_told _ _ _); reflexivity.
Qed.
Lemma forget_alias g own a : forget (alias_told g own a) = add_alias g own a.
Proof. unfold alias_told, add_alias. destruct (lookup (fst a) own); [reflexivity|]. destruct (lookup_type g own (snd a)); reflexivity. Qed.
Lemma untold_one g ord r s : untold (one_told g ord r s) = finish_one g ord r s.
Proof.
  destruct s as [st parsed]. unfold one_told, finish_one. destruct (sget (rd_tns r) parsed) as [own|]; [|reflexivity].
  unfold resolve_types. rewrite <- (forget_fold _ _ _ (forget_entry (lookup_type g own))). destruct (foldg _ st _); cbn [forget]; [|reflexivity].
  rewrite <- (forget_fold _ _ _ (forget_alias g)). destruct (foldg _ own _); cbn [forget]; [|reflexivity].
  destruct (propagate_all _ _); reflexivity.
Qed.
Lemma untold_finish g ord : forall l k s, untold (finish_told g ord k l s) = finish g ord k l s.
Proof.
  induction l as [|r l IH]; intros k s; [reflexivity|]. cbn [finish_told finish]. rewrite <- untold_one.
  destruct (one_told g (ord k) r s); cbn [untold]; auto.
Qed.
Theorem told_same ord l : untold (parse_told ord l) = parse_rds ord l.
Proof. unfold parse_told, parse_rds. destruct (alloc_all [] [] l). apply untold_finish. Qed.

(* ---------- one definition ---------- *)
Lemma one_missing look cx k ro t m : resolve_one look cx k ro t = Missing m -> exists n, t = TLink n /\ look n = None /\ m = MsType cx k ro n.
Proof. destruct t; try discriminate. cbn [resolve_one]. destruct (look n) eqn:E; [discriminate|]. intros H. injection H as <-. eauto. Qed.
Lemma one_got look cx k ro t u : resolve_one look cx k ro t = Got u -> forall n, t = TLink n -> look n <> None.
Proof. intros H n ->. cbn [resolve_one] in H. destruct (look n); discriminate. Qed.
Section Split.
  Context {A B : Type} (f : A -> got B) (ro : A -> role) (ty_ : A -> ty) (look : xname -> option ty) (cx : bool) (k : xname).
  Hypothesis Hf : forall a, match resolve_one look cx k (ro a) (ty_ a) with Got _ => exists b, f a = Got b | Missing m => f a = Missing m end.
  Definition fine (p : list (role * ty)) : Prop := forall r n, In (r, TLink n) p -> look n <> None.
  Lemma map_missing l m : mapg f l = Missing m -> exists pre r n post,
    map (fun a => (ro a, ty_ a)) l = (pre ++ (r, TLink n) :: post)%list /\ fine pre /\ look n = None /\ m = MsType cx k r n.
  Proof.
    induction l as [|a l IH]; [discriminate|]. cbn [mapg map]. specialize (Hf a). destruct (resolve_one _ _ _ _ _) as [u|m'] eqn:E.
    - destruct Hf as (b & ->). cbn [bind]. destruct (mapg f l) as [bs|m'] eqn:Em; [discriminate|]. cbn [bind]. intros H. injection H as ->.
      destruct (IH eq_refl) as (pre & r & n & post & -> & F & L & ->). exists ((ro a, ty_ a) :: pre), r, n, post. split; [reflexivity|]. split; auto.
      intros r' n' [H|H]; [|eapply F; eauto]. injection H as _ H. exact (one_got _ _ _ _ _ _ E _ H).
    - rewrite Hf. cbn [bind]. intros H. injection H as ->. apply one_missing in E as (n & E & L & ->). exists [], (ro a), n, (map (fun a => (ro a, ty_ a)) l).
      rewrite E. split; [reflexivity|]. split; auto. intros ? ? [].
  Qed.
  Lemma map_got l bs : mapg f l = Got bs -> fine (map (fun a => (ro a, ty_ a)) l).
  Proof.
    revert bs. induction l as [|a l IH]; intros bs; [intros _ ? ? []|]. cbn [mapg map]. specialize (Hf a). destruct (resolve_one _ _ _ _ _) as [u|m'] eqn:E.
    - destruct (f a); [|destruct Hf; discriminate]. cbn [bind]. destruct (mapg f l) as [bs'|]; [|discriminate]. intros _ r n [H|H]; [|eapply (IH _ eq_refl); eauto].
      injection H as _ H. exact (one_got _ _ _ _ _ _ E _ H).
    - rewrite Hf. discriminate.
  Qed.
End Split.
Lemma fine_app look p q : fine look p -> fine look q -> fine look (p ++ q).
Proof. intros P Q r n H. apply in_app_iff in H as [H|H]; eauto. Qed.
Lemma fine_cons look ro t p : (forall n, t = TLink n -> look n <> None) -> fine look p -> fine look ((ro, t) :: p).
Proof. intros P Q r n [H|H]; [injection H as _ H; auto|eauto]. Qed.
Lemma relement_case look k a : match resolve_one look true k (RElement (el_name a)) (el_type a) with Got _ => exists b, element_told look k a = Got b | Missing m => element_told look k a = Missing m end.
Proof. unfold element_told. destruct (resolve_one _ _ _ _ _); cbn [bind]; eauto. Qed.
Lemma rattribute_case look k a : match resolve_one look true k (RAttribute (at_name a)) (at_type a) with Got _ => exists b, attribute_told look k a = Got b | Missing m => attribute_told look k a = Missing m end.
Proof. unfold attribute_told. destruct (resolve_one _ _ _ _ _); cbn [bind]; eauto. Qed.
Lemma rmember_case look k a : match resolve_one look false k RMember a with Got _ => exists b, resolve_one look false k RMember a = Got b | Missing m => resolve_one look false k RMember a = Missing m end.
Proof. destruct (resolve_one _ _ _ _ _); eauto. Qed.
Lemma def_missing look k d m : resolve_told look k d = Missing m -> exists pre ro n post,
  labelled d = (pre ++ (ro, TLink n) :: post)%list /\ fine look pre /\ look n = None /\ m = MsType (is_complex d) k ro n.
Proof.
  destruct d as [c|s]; cbn [resolve_told labelled is_complex].
  - destruct (resolve_one look true k RBase (ct_base c)) as [b|m'] eqn:Eb; cbn [bind].
    2:{ intros H. injection H as ->. apply one_missing in Eb as (n & -> & L & ->). eexists [], RBase, n, _. split; [reflexivity|]. split; auto. intros ? ? []. }
    destruct (mapg _ (ct_elems c)) as [es|m'] eqn:Ee; cbn [bind].
    + destruct (mapg _ (ct_attrs c)) as [ats|m'] eqn:Ea; cbn [bind]; [discriminate|]. intros H. injection H as ->.
      apply (map_missing (attribute_told look k) (fun a => RAttribute (at_name a)) at_type look true k (rattribute_case look k)) in Ea as (pre & ro & n & post & E & F & L & ->).
      apply (map_got (element_told look k) (fun a => RElement (el_name a)) el_type look true k (relement_case look k)) in Ee.
      exists ((RBase, ct_base c) :: map (fun e => (RElement (el_name e), el_type e)) (ct_elems c) ++ pre)%list, ro, n, post. rewrite E. split.
      { cbn [app]. rewrite <- app_assoc. reflexivity. }
      split; auto. apply fine_cons; [exact (one_got _ _ _ _ _ _ Eb)|]. apply fine_app; auto.
    + intros H. injection H as ->.
      apply (map_missing (element_told look k) (fun a => RElement (el_name a)) el_type look true k (relement_case look k)) in Ee as (pre & ro & n & post & E & F & L & ->).
      exists ((RBase, ct_base c) :: pre)%list, ro, n, (post ++ map (fun a => (RAttribute (at_name a), at_type a)) (ct_attrs c))%list. rewrite E. split.
      { cbn [app]. rewrite <- app_assoc. reflexivity. }
      split; auto. apply fine_cons; [exact (one_got _ _ _ _ _ _ Eb)|auto].
  - destruct (resolve_one look false k RBase (sd_base s)) as [b|m'] eqn:Eb; cbn [bind].
    2:{ intros H. injection H as ->. apply one_missing in Eb as (n & -> & L & ->). eexists [], RBase, n, _. split; [reflexivity|]. split; auto. intros ? ? []. }
    destruct (mapg _ (sd_union s)) as [es|m'] eqn:Ee; cbn [bind]; [discriminate|]. intros H. injection H as ->.
    apply (map_missing (resolve_one look false k RMember) (fun _ => RMember) (fun t => t) look false k (rmember_case look k)) in Ee as (pre & ro & n & post & E & F & L & ->).
    exists ((RBase, sd_base s) :: pre)%list, ro, n, post. rewrite E. split; [reflexivity|]. split; auto. apply fine_cons; [exact (one_got _ _ _ _ _ _ Eb)|auto].
Qed.
Lemma labelled_strip d d' : strip d = strip d' -> labelled d = labelled d' /\ is_complex d = is_complex d'.
Proof.
  destruct d as [c|s], d' as [c'|s']; cbn [strip]; intros H; try discriminate.
  - injection H. intros. split; [|reflexivity]. cbn [labelled]. congruence.
  - injection H. intros. subst. auto.
Qed.
Lemma labelled_refs d ro t : In (ro, t) (labelled d) -> In t (refs d).
Proof.
  destruct d as [c|s]; cbn [labelled refs]; intros [H|H].
  - injection H as _ ->. left; auto.
  - right. apply in_app_iff in H as [H|H]; apply in_app_iff; [left|right]; apply in_map_iff in H as (x & E & H); injection E as _ <-; apply in_map; auto.
  - injection H as _ ->. left; auto.
  - right. apply in_map_iff in H as (x & E & H). injection E as _ <-. auto.
Qed.

(* the entry and the state in which resolving fails *)
Lemma fold_missing {A B} (f : A -> B -> got A) l m : forall a, foldg f a l = Missing m -> exists pre b post a',
  l = (pre ++ b :: post)%list /\ foldg f a pre = Got a' /\ f a' b = Missing m.
Proof.
  induction l as [|b l IH]; intros a; [discriminate|]. cbn [foldg]. destruct (f a b) as [a1|m1] eqn:E; cbn [bind].
  - intros H. destruct (IH _ H) as (pre & b' & post & a' & -> & E1 & E2). exists (b :: pre), b', post, a'. split; [reflexivity|]. split; auto. cbn [foldg]. rewrite E. auto.
  - intros H. injection H as ->. exists [], b, l, a. auto.
Qed.

Lemma aliases_keys g als : forall own own', foldo (add_alias g) own als = Some own' ->
  forall k t, In (k, t) own' -> In (k, t) own \/ exists ref, In (k, ref) als.
Proof.
  induction als as [|a als IH]; intros own own' H k t Hk; cbn [foldo] in H; [injection H as <-; auto|].
  destruct (add_alias g own a) as [o|] eqn:E; [|discriminate]. destruct (IH _ _ H k t Hk) as [Ho|(ref & Hr)]; [|right; exists ref; right; auto].
  unfold add_alias in E. destruct (lookup (fst a) own); [injection E as <-; auto|]. destruct (lookup_type g own (snd a)) as [u|]; [|discriminate].
  injection E as <-. apply in_mset in Ho as [Ho|Ho]; [|auto]. injection Ho as -> ->. right. exists (snd a). left. destruct a; reflexivity.
Qed.
Lemma lookup_grow k (own own' : types) : (forall n t, lookup n own = Some t -> lookup n own' = Some t) -> lookup k own' = None -> lookup k own = None.
Proof. intros H E. destruct (lookup k own) eqn:X; auto. apply H in X. congruence. Qed.

Section M.
  Variable l : list rd.
  Variable ord : nat -> list (xname * ty) -> list (xname * ty).
  Hypothesis O : any_order ord.
  Let st0 := fst (initial l).
  Let parsed0 := snd (initial l).
  Let g := index_types st0 (ord 0 (entries l)).

  Definition keys_ok (parsed : list (string * types)) : Prop := forall ns own k t, sget ns parsed = Some own -> In (k, t) own ->
    (exists own0, sget ns parsed0 = Some own0 /\ In (k, t) own0) \/ exists ref, aliased l ns k ref.
  Lemma look_known parsed ns own n : keys_ok parsed -> sget ns parsed = Some own -> lookup_type g own n <> None -> known l n.
  Proof.
    intros K Hs H. unfold lookup_type in H. destruct (parse_builtin n) eqn:B; [left; congruence|]. right.
    destruct (lookup n g) as [t|] eqn:E; [left; exists t; eapply g_called; eauto|]. right.
    destruct (lookup n own) as [t|] eqn:E1; [|congruence]. apply lookup_in in E1.
    destruct (K _ _ _ _ Hs E1) as [(own0 & Ho & Hi)|(ref & Ha)]; [|right; eauto]. left. exists t. unfold entries. apply in_flat_map. exists (ns, own0). split; auto.
    apply sget_in. exact Ho.
  Qed.
  Lemma look_absent parsed st r own n : inv l st parsed -> sget (rd_tns r) parsed = Some own -> lookup_type g own n = None -> absent l (rd_tns r) n.
  Proof.
    intros I Hs H. apply look_none in H as (B & C & L); auto. split; [split; auto|]. intros own0 H0.
    destruct (inv_grow _ _ _ I _ _ H0) as (o & Ho & G & _). rewrite Hs in Ho. injection Ho as <-. eapply lookup_grow; eauto.
  Qed.

  Lemma step_missing k r st parsed m : In r l -> inv l st parsed -> keys_ok parsed -> one_told g (ord k) r (st, parsed) = TErr m ->
    tells_by (fun ns key i => ns = rd_tns r /\ exists own, sget ns parsed = Some own /\ In (key, TPtr i) own) l m.
  Proof.
    intros Hr I K H. unfold one_told in H. destruct (sget (rd_tns r) parsed) as [own|] eqn:Eo; [|discriminate].
    pose proof (look_good l ord O own (inv_maps _ _ _ I _ _ Eo)) as GL.
    destruct (foldg (entry_told _) st _) as [st1|m1] eqn:E1.
    - destruct (foldg (alias_told g) own _) as [own'|m2] eqn:E2; [destruct (propagate_all _ _); discriminate|]. injection H as ->.
      apply fold_missing in E2 as (pre & [el ref] & post & o & Ea & Ef & Em). unfold alias_told in Em. cbn [fst snd] in Em.
      destruct (lookup el o) eqn:El; [discriminate|]. destruct (lookup_type g o ref) eqn:Er; [discriminate|]. injection Em as <-.
      pose proof (forget_fold _ _ pre (forget_alias g) own) as Ff. rewrite Ef in Ff. cbn [forget] in Ff. symmetry in Ff.
      pose proof (aliases_spec l ord O own pre o (inv_maps _ _ _ I _ _ Eo) Ff) as (_ & Gr & _).
      assert (A0 : absent l (rd_tns r) ref).
      { apply look_none in Er as (B & C & L); auto. split; [split; auto|]. intros own0 H0.
        destruct (inv_grow _ _ _ I _ _ H0) as (o1 & Ho & G & _). rewrite Eo in Ho. injection Ho as <-. eapply lookup_grow; [exact G|]. eapply lookup_grow; eauto. }
      exists r, pre, post. split; auto. split; auto. split; auto. split.
      + (* the aliases before are found *)
        intros a Ha. assert (Pf : forall x, In x pre -> In x (rd_aliases r)) by (intros x Hx; rewrite Ea; apply in_app_iff; auto).
        clear - Ha Ff K Eo O Hr Pf.
        assert (Z : forall al o1, (forall x, In x al -> In x (rd_aliases r)) -> (forall n, lookup n o1 <> None -> known l n) -> foldo (add_alias g) o1 al = Some o ->
                    forall x, In x al -> known l (snd x) \/ known l (fst x)).
        { induction al as [|x al IH]; intros o1 P Kn Fo y Hy; [destruct Hy|]. cbn [foldo] in Fo. destruct (add_alias g o1 x) as [o2|] eqn:Ex; [|discriminate].
          assert (Gx : known l (snd x) \/ known l (fst x)).
          { unfold add_alias in Ex. destruct (lookup (fst x) o1) eqn:L1; [right; apply Kn; congruence|].
            destruct (lookup_type g o1 (snd x)) as [u|] eqn:L2; [|discriminate]. left. unfold lookup_type in L2. destruct (parse_builtin (snd x)) eqn:B; [left; congruence|].
            destruct (lookup (snd x) g) as [t|] eqn:L3; [right; left; exists t; eapply g_called; eauto|]. apply Kn. congruence. }
          destruct Hy as [->|Hy]; auto. eapply (IH o2); eauto; [intros; apply P; right; auto|].
          intros n Hn. destruct (lookup n o2) as [t|] eqn:L; [|congruence]. apply lookup_in in L.
          assert (L' : In (n, t) o1 \/ exists ref, In (n, ref) [x]) by (eapply (aliases_keys g [x]); [cbn [foldo]; rewrite Ex; reflexivity|exact L]).
          destruct L' as [L'|(ref & [->|[]])].
          - apply Kn. intros N. clear - L' N. induction o1 as [|[a b] o1 IH]; [destruct L'|]. cbn [lookup] in N. destruct (xname_eqb a n) eqn:E; [discriminate|].
            destruct L' as [L'|L']; auto. injection L' as -> ->. assert (xname_eqb n n = true) by (apply xname_eqb_eq; auto). congruence.
          - right; right; right. exists (rd_tns r), ref. exists r. split; auto. split; auto. apply P. left; reflexivity. }
        eapply Z; eauto. intros n Hn. destruct (lookup n own) as [t|] eqn:L; [|congruence]. apply lookup_in in L.
        destruct (K _ _ _ _ Eo L) as [(own0 & Ho & Hi)|(rf & Hx)]; right; right; [left|right; eauto]. exists t. unfold entries. apply in_flat_map. exists (rd_tns r, own0). split; auto.
        apply sget_in. exact Ho.
      + intros own0 H0. destruct (inv_grow _ _ _ I _ _ H0) as (o1 & Ho & G & _). rewrite Eo in Ho. injection Ho as <-. eapply lookup_grow; [exact G|]. eapply lookup_grow; eauto.
    - injection H as ->. apply fold_missing in E1 as (pre & [key t] & post & st1 & Ee & Ef & Em). unfold entry_told in Em. cbn [fst snd] in Em.
      destruct t as [|?|?|i]; try discriminate. destruct (nth_error st1 i) as [d1|] eqn:Ed; [|discriminate].
      destruct (resolve_told (lookup_type g own) key d1) as [d2|m2] eqn:Er; [discriminate|]. cbn [bind] in Em. injection Em as ->.
      apply def_missing in Er as (p & ro & n & q & El & F & L & ->).
      pose proof (forget_fold _ _ pre (forget_entry (lookup_type g own)) st) as Ff. rewrite Ef in Ff. cbn [forget] in Ff. symmetry in Ff.
      change (resolve_types (lookup_type g own) pre st = Some st1) in Ff. apply resolve_types_spec in Ff as [Le R]; auto.
      assert (Hk : In (key, TPtr i) own). { eapply Permutation_in; [apply Permutation_sym, (O k)|]. rewrite Ee. apply in_app_iff. right. left. reflexivity. }
      destruct (inv_maps _ _ _ I _ _ Eo _ _ Hk) as [(kk & He)|(b & He)]; [|discriminate].
      pose proof (entry_ptr _ _ _ He) as (i' & Ei & Lt). injection Ei as <-.
      destruct (nth_error (fst (initial l)) i) as [d0|] eqn:E0; [|apply nth_error_None in E0; lia].
      destruct (inv_def _ _ _ I i d0 E0) as (d & Hd & C). destruct (R i d Hd) as (d' & Hd' & X & Y). rewrite Ed in Hd'. injection Hd' as <-.
      assert (Hl : In (TLink n) (refs d1)) by (eapply labelled_refs; rewrite El; apply in_app_iff; right; left; reflexivity).
      assert (d1 = d) as ->.
      { destruct (Exists_dec (fun e : xname * ty => snd e = TPtr i) pre (fun e => ty_dec (snd e) (TPtr i))) as [Ex|Ne].
        - apply Exists_exists in Ex as ([m u] & Hm & Hu). cbn in Hu. subst u. specialize (X (ex_intro _ m Hm)).
          pose proof (resolve_def_spec _ _ _ GL X) as [_ Lf]. destruct (Lf _ Hl).
        - apply Y. intros m Hm. apply Ne. apply Exists_exists. exists (m, TPtr i). auto. }
      destruct C as [C|[_ C]]; [|destruct (C _ Hl)]. apply labelled_strip in C as [C1 C2].
      exists r, i, d0, p, q. split; auto. split; [eapply look_absent; eauto|]. split; [eauto|]. split; auto. split; auto. split; [congruence|]. split; [|eauto].
      intros ro' n' Hn. eapply look_known; eauto.
  Qed.

  Lemma step_keys k r st parsed st' parsed' : In r l -> keys_ok parsed -> finish_one g (ord k) r (st, parsed) = Ok (st', parsed') -> keys_ok parsed'.
  Proof.
    intros Hr K H. cbn [finish_one] in H. destruct (sget (rd_tns r) parsed) as [own|] eqn:Eo; [|discriminate].
    destruct (resolve_types _ _ _); [|discriminate]. destruct (foldo (add_alias g) own (rd_aliases r)) as [own'|] eqn:E2; [|discriminate].
    destruct (propagate_all _ _); [|discriminate]. injection H as <- <-. intros ns o kk t Hs Hi. rewrite sget_sset in Hs.
    destruct (String.eqb (rd_tns r) ns) eqn:X; [|eapply K; eauto]. apply String.eqb_eq in X as <-. injection Hs as <-.
    destruct (aliases_keys _ _ _ _ E2 _ _ Hi) as [Ho|(ref & Ha)]; [eapply K; eauto|]. right. exists ref, r. auto.
  Qed.
  Lemma tells_impl (P Q : string -> xname -> nat -> Prop) m : (forall ns key i, P ns key i -> Q ns key i) -> tells_by P l m -> tells_by Q l m.
  Proof.
    intros H. destruct m; [|auto]. intros (r & i & d & pre & post & A & B & C & D & E & F & G & R). exists r, i, d, pre, post.
    repeat (split; [assumption|]). auto.
  Qed.
  Lemma told_ok k r st parsed s : one_told g (ord k) r (st, parsed) = TOk s -> finish_one g (ord k) r (st, parsed) = Ok s.
  Proof. intros H. rewrite <- untold_one, H. reflexivity. Qed.
  Lemma finish_missing : forall l' k st parsed m, (forall r, In r l' -> In r l) -> inv l st parsed -> keys_ok parsed ->
    finish_told g ord k l' (st, parsed) = TErr m -> tells l m.
  Proof.
    induction l' as [|r l' IH]; intros k st parsed m S I K H; cbn [finish_told] in H; [discriminate|].
    destruct (one_told g (ord k) r (st, parsed)) as [[st1 p1]|m1|] eqn:E; try discriminate.
    - apply told_ok in E. eapply IH; [|eapply step; eauto|eapply step_keys; eauto|exact H]; [intros; apply S; right; auto|apply S; left; auto].
    - injection H as ->. apply step_missing in E; auto; [|apply S; left; auto]. eapply tells_impl; [|exact E]. cbv beta.
      intros ns key i (_ & own & Hs & Hi). destruct (K _ _ _ _ Hs Hi) as [X|X]; [left|right]; exact X.
  Qed.
  Lemma keys0 : keys_ok parsed0.
  Proof. intros ns own k t Hs Hi. left. eauto. Qed.
  Theorem told_so m : parse_told ord l = TErr m -> tells l m.
  Proof.
    intros H. unfold parse_told in H. fold (initial l) in H. rewrite (surjective_pairing (initial l)) in H.
    eapply finish_missing; [| |exact keys0|exact H]; [auto|apply initial_inv].
  Qed.

  (* every schema once: nothing has been added to its map *)
  Lemma finish_missing1 : forall l' k st parsed m, (forall r, In r l' -> In r l) -> inv l st parsed -> keys_ok parsed -> NoDup (map rd_tns l') ->
    (forall r, In r l' -> sget (rd_tns r) parsed = sget (rd_tns r) parsed0) ->
    finish_told g ord k l' (st, parsed) = TErr m -> tells_by (declared_under l) l m.
  Proof.
    induction l' as [|r l' IH]; intros k st parsed m S I K N Fr H; cbn [finish_told] in H; [discriminate|].
    cbn [map] in N. inversion N as [|? ? N1 N2]; subst.
    destruct (one_told g (ord k) r (st, parsed)) as [[st1 p1]|m1|] eqn:E; try discriminate.
    - apply told_ok in E. eapply IH; [|eapply step; eauto|eapply step_keys; eauto|exact N2| |exact H]; [intros; apply S; right; auto|apply S; left; auto|].
      intros r' Hr'. rewrite <- (Fr r' (or_intror Hr')). cbn [finish_one] in E. destruct (sget (rd_tns r) parsed); [|discriminate].
      destruct (resolve_types _ _ _); [|discriminate]. destruct (foldo _ _ _); [|discriminate]. destruct (propagate_all _ _); [|discriminate]. injection E as <- <-.
      rewrite sget_sset. destruct (String.eqb (rd_tns r) (rd_tns r')) eqn:X; auto. apply String.eqb_eq in X. destruct N1. rewrite X. apply in_map. auto.
    - injection H as ->. apply step_missing in E; auto; [|apply S; left; auto]. eapply tells_impl; [|exact E]. cbv beta.
      intros ns key i (-> & own & Hs & Hi). exists own. split; auto. transitivity (sget (rd_tns r) parsed); [symmetry; exact (Fr r (or_introl eq_refl))|exact Hs].
  Qed.
  Theorem told_name m : keyed l -> NoDup (map rd_tns l) -> parse_told ord l = TErr m -> tells_name l m.
  Proof.
    intros Ky N H. unfold parse_told in H. fold (initial l) in H. rewrite (surjective_pairing (initial l)) in H.
    eapply tells_impl; [|eapply finish_missing1; [| |exact keys0|exact N| |exact H]]; [|auto|apply initial_inv|auto].
    intros ns key i D. split; auto. destruct D as (own & Hs & Hi).
    assert (He : In (key, TPtr i) (entries l)) by (unfold entries; apply in_flat_map; exists (ns, own); split; [apply sget_in|]; auto).
    exact (proj1 (entries_named l Ky _ _ He)).
  Qed.
End M.

(* ---------- a name that nothing has ---------- *)
Lemma forall2_in_l {A B} (R : A -> B -> Prop) l l' : Forall2 R l l' -> forall a, In a l -> exists b, In b l' /\ R a b.
Proof. induction 1 as [|a b l l' H F IH]; intros x []; [subst; exists b; split; [left|]; auto|]. destruct (IH _ H0) as (y & Hy & Hr). exists y. split; [right|]; auto. Qed.
Lemma resolved_target tgt d d' n : resolved tgt d d' -> In (TLink n) (refs d) -> exists t, tgt n t.
Proof.
  assert (P : forall t u, points tgt t u -> t = TLink n -> exists v, tgt n v) by (intros t u []; intros E; try discriminate; injection E as <-; eauto).
  destruct d as [c|s], d' as [c'|s']; cbn [resolved refs]; try contradiction.
  - intros (Hb & He & Ha & _) [H|H]; [eapply P; eauto|]. apply in_app_iff in H as [H|H]; apply in_map_iff in H as (x & E & H).
    + destruct (forall2_in_l _ _ _ He _ H) as (y & _ & Hp & _). eapply P; eauto.
    + destruct (forall2_in_l _ _ _ Ha _ H) as (y & _ & Hp & _). eapply P; eauto.
  - intros (Hb & Hu & _) [H|H]; [eapply P; eauto|]. destruct (forall2_in_l _ _ _ Hu _ H) as (y & _ & Hp). eapply P; eauto.
Qed.
Section N.
  Variable l : list rd.
  Variable ord : nat -> list (xname * ty) -> list (xname * ty).
  Hypothesis O : any_order ord.
  Let g := index_types (fst (initial l)) (ord 0 (entries l)).
  Lemma finish_keys : forall l' k st parsed st' parsed', (forall r, In r l' -> In r l) -> keys_ok l parsed -> finish g ord k l' (st, parsed) = Ok (st', parsed') -> keys_ok l parsed'.
  Proof.
    induction l' as [|r l' IH]; intros k st parsed st' parsed' S K H; cbn [finish] in H; [injection H as <- <-; auto|].
    destruct (finish_one g (ord k) r (st, parsed)) as [[st1 p1]| |] eqn:E; try discriminate.
    eapply IH; [|eapply (step_keys l ord k r); [apply S; left; auto|exact K|exact E]|exact H]. intros; apply S; right; auto.
  Qed.
  Theorem unknown_fails k i d n s : In (k, TPtr i) (entries l) -> nth_error (fst (initial l)) i = Some d -> In (TLink n) (refs d) ->
    ~ known l n -> parse_told ord l <> TOk s.
  Proof.
    intros He Hd Hn U H. pose proof (told_same ord l) as T. rewrite H in T. cbn [untold] in T. symmetry in T. destruct s as [st parsed].
    destruct (parse_resolved l ord st parsed O T) as (_ & R & _). destruct (R _ _ He) as (d0 & d1 & H0 & _ & Re & _). rewrite Hd in H0. injection H0 as <-.
    destruct (resolved_target _ _ _ _ Re Hn) as (t & Tg). apply U. unfold target in Tg. unfold known. destruct (parse_builtin n); [left; discriminate|]. right.
    destruct Tg as [C|(_ & ns & own & Hs & Hl)]; [left; eauto|]. right.
    unfold parse_rds in T. fold (initial l) in T. rewrite (surjective_pairing (initial l)) in T.
    apply finish_keys in T; [|auto|exact (keys0 l)]. apply lookup_in in Hl. destruct (T _ _ _ _ Hs Hl) as [(own0 & Ho & Hi)|(ref & Ha)]; [left|right; eauto].
    exists t. unfold entries. apply in_flat_map. exists (ns, own0). split; auto. apply sget_in. exact Ho.
  Qed.
End N.
Theorem told_reported ord l :
  (forall s, parse_told ord l = TOk s <-> parse_rds ord l = Ok s) /\ ((exists m, parse_told ord l = TErr m) <-> parse_rds ord l = Err) /\
  (parse_told ord l = TPanics <-> parse_rds ord l = Panics).
Proof.
  rewrite <- told_same. destruct (parse_told ord l) as [a|m|]; cbn [untold]; (split; [|split]).
  - intros s. split; intros H; injection H as <-; reflexivity.
  - split; [intros (x & H)|intros H]; discriminate.
  - split; discriminate.
  - intros s. split; discriminate.
  - split; eauto.
  - split; discriminate.
  - intros s. split; discriminate.
  - split; [intros (x & H)|intros H]; discriminate.
  - split; reflexivity.
Qed.
