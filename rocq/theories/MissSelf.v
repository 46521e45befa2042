(* A top-level element whose type is not found is told as an element of the type that stands
   for the document. *)
From Coq Require Import Permutation.
From Verif Require Import Base ScopeModel TreeModel TreeSpec EqualModel BuiltinModel CodecModel XsdModel XsdSpec XsdProofs TypesModel TypesSpec TypesProofs TypesMixed TypesParse TypesFinal TypesOrder TypesRead PartSpec PartProofs MissModel MissSpec MissProofs.
Local Open Scope string_scope.

Lemma resolve_nothing s : nlocal (resolve s "") = "".
Proof. unfold resolve, resolve_ns. change (split_qname "") with ("", ""). cbn [String.eqb]. destruct (find_last _ s); reflexivity. Qed.
Lemma key_space l : keyed l -> forall ns own n t, sget ns (snd (initial l)) = Some own -> In (n, t) own -> nspace n = ns.
Proof.
  intros K.
  assert (G : forall l st parsed, keyed l -> (forall ns own, In (ns, own) parsed -> forall n t, In (n, t) own -> nspace n = ns) ->
    forall ns own, In (ns, own) (snd (alloc_all st parsed l)) -> forall n t, In (n, t) own -> nspace n = ns).
  { clear. induction l as [|r l IH]; intros st parsed K P ns own Ho n t Ht; cbn [alloc_all] in Ho; [eauto|].
    destruct (alloc st [] (rd_types r)) as [st1 m] eqn:E. apply alloc_spec in E as (-> & Em & _).
    eapply IH; [| |exact Ho|exact Ht]; [intros r' k d Hr; apply K; right; auto|]. intros ns' own' Ho' n' t' Ht'. apply in_sset in Ho' as [Ho'|Ho']; [|eauto].
    injection Ho' as -> ->. apply Em in Ht' as [[]|(i & d & -> & Hi)]. exact (proj2 (K r n' d (or_introl eq_refl) (nth_error_In _ _ Hi))). }
  intros ns own n t Hs. apply (G l [] [] K ltac:(intros ? ? []) ns own). apply sget_in. exact Hs.
Qed.

Section Read.
  Variable annot : elem -> option string.
  Variables (F T : Type) (f0 : F) (t0 : T).
  Variables (pf : string -> option F) (pd pr : string -> option T) (comp : string -> bool) (msg : string -> string).
  Let rd_of := read annot F T f0 t0 pf pd pr comp msg.
  Lemma self_last root r : rd_of root = Some r -> rd_tns r <> "" -> plain_tops root -> exists front self,
    rd_types r = (front ++ [(mkName (rd_tns r) "_self", DC self)])%list /\
    forall el ref, In (el, ref) (rd_aliases r) -> parse_builtin ref = None -> In (TLink ref) (refs (DC self)).
  Proof.
    intros H N P. unfold rd_of, read in H. destruct (read_types annot F T f0 t0 pf pd pr comp msg root) as [ts|] eqn:E; [|discriminate]. cbn [option_map] in H. injection H as <-. cbn [rd_tns rd_types rd_aliases] in *. unfold read_types in E. cbv zeta in E. set (tns := attr root "" "targetNamespace") in *.
    destruct (mapo (parse_complex_type annot tns) _) as [cs|]; [|discriminate]. destruct (mapo (parse_simple_type annot F T f0 t0 pf pd pr comp msg tns) _) as [ss|]; [|discriminate]. destruct (parse_complex_type annot tns (self_elem root)) as [self|] eqn:Ef; [|discriminate]. injection E as <-.
    eexists _, self. split; [rewrite app_assoc; reflexivity|]. destruct (self_parsed annot F T f0 t0 pf pd pr comp msg tns root self P Ef) as (es & Em & Es). apply mapo_forall2 in Em.
    assert (G : Forall2 (fun el e => el_name e = mkName (el_space tns el) (attr el "" "name") /\ el_type e = el_ty el) (tops root) es).
    { pose proof (pt_names _ P) as C. clear - Em N C. induction Em as [|el e l es' He Em IH]; constructor; [eapply top_parsed; eauto; apply C; left; reflexivity|apply IH; intros x Hx; apply C; right; exact Hx]. }
    assert (X : ct_elems self = es).
    { rewrite Es. unfold merge_elems. rewrite merge_distinct; [reflexivity| |reflexivity]. pose proof (pt_once _ P) as O. clear - G O. revert O. induction G as [|el e l es' [He _] G IH]; intros O; [constructor|]. cbn [map] in *. inversion O as [|x m Hx Hm]; subst. constructor; [|auto].
      intros X. apply Hx. apply in_map_iff in X as (y & Ey & Hy). clear - G He Ey Hy. induction G as [|a b l es' [Hb _] G IH]; [destruct Hy|]. destruct Hy as [<-|Hy]; [left; cbn; rewrite Hb, He in Ey; injection Ey; auto|right; auto]. }
    intros nm ref Ha B. unfold read_aliases in Ha. cbv zeta in Ha. apply filter_In in Ha as [Ha Hc]. apply in_map_iff in Ha as (el & Ee & He). injection Ee as _ Er. change (In el (tops root)) in He.
    assert (exists e, In e es /\ el_type e = el_ty el) as (e & Hi & Ht).
    { clear - G He. induction G as [|a b l es' [_ Hb] G IH]; [destruct He|]. destruct He as [->|He]; [exists b; split; [left|]; auto|]. destruct (IH He) as (e & Hi & Ht). exists e. split; [right|]; auto. }
    cbn [refs]. right. apply in_app_iff. left. rewrite X. assert (el_type e = TLink ref) as <-; [|apply in_map; auto]. rewrite Ht. unfold el_ty.
    destruct (String.eqb (attr el "" "type") "") eqn:Et.
    - exfalso. apply String.eqb_eq in Et. rewrite Et in Er. apply andb_prop in Hc as [Hc _]. cbn [snd] in Hc. rewrite <- Er in Hc. rewrite resolve_nothing in Hc. discriminate.
    - rewrite Er. unfold parse_type. rewrite B. reflexivity.
  Qed.
End Read.

Section M.
  Variable l : list rd.
  Variable ord : nat -> list (xname * ty) -> list (xname * ty).
  Hypothesis O : any_order ord.
  Hypothesis K : keyed l.
  Let st0 := fst (initial l).
  Let parsed0 := snd (initial l).
  Let g := index_types st0 (ord 0 (entries l)).
  (* a type of the schema refers to all the types of its elements *)
  Definition gathers (r : rd) : Prop := exists own n i d, sget (rd_tns r) parsed0 = Some own /\ In (n, TPtr i) own /\ nth_error st0 i = Some d /\
    forall el ref, In (el, ref) (rd_aliases r) -> parse_builtin ref = None -> In (TLink ref) (refs d).
  (* the types of these schemas are as read *)
  Definition untouched (st : store) (l' : list rd) : Prop := forall r own n i d, In r l' -> sget (rd_tns r) parsed0 = Some own -> In (n, TPtr i) own ->
    nth_error st0 i = Some d -> exists d', nth_error st i = Some d' /\ strip d' = strip d.

  Lemma entry_of ns own n t : sget ns parsed0 = Some own -> In (n, t) own -> In (n, t) (entries l).
  Proof. intros Hs Hi. unfold entries. apply in_flat_map. exists (ns, own). split; [apply sget_in; exact Hs|exact Hi]. Qed.
  Lemma finish_no_alias : forall l' k st parsed el ref, (forall r, In r l' -> In r l) -> inv l st parsed -> NoDup (map rd_tns l') ->
    (forall r, In r l' -> sget (rd_tns r) parsed = sget (rd_tns r) parsed0) -> untouched st l' -> (forall r, In r l' -> gathers r) ->
    finish_told g ord k l' (st, parsed) <> TErr (MsAlias el ref).
  Proof.
    induction l' as [|r l' IH]; intros k st parsed el ref S I N Fr U Ga H; cbn [finish_told] in H; [discriminate|].
    cbn [map] in N. inversion N as [|? ? N1 N2]; subst.
    destruct (one_told g (ord k) r (st, parsed)) as [[st2 p2]|m|] eqn:E; try discriminate.
    - pose proof (told_ok l ord k r st parsed _ E) as E'. revert H. eapply IH; auto; [intros; apply S; right; auto|eapply step; eauto| | |intros; apply Ga; right; auto].
      + intros r' Hr'. rewrite <- (Fr r' (or_intror Hr')). cbn [finish_one] in E'. destruct (sget (rd_tns r) parsed); [|discriminate].
        destruct (resolve_types _ _ _); [|discriminate]. destruct (foldo _ _ _); [|discriminate]. destruct (propagate_all _ _); [|discriminate]. injection E' as <- <-.
        rewrite sget_sset. destruct (String.eqb (rd_tns r) (rd_tns r')) eqn:X; auto. apply String.eqb_eq in X. destruct N1. rewrite X. apply in_map. auto.
      + intros r' own' n i d Hr' Hs Hi Hd. destruct (U r' own' n i d (or_intror Hr') Hs Hi Hd) as (d1 & H1 & S1).
        pose proof (Fr r (or_introl eq_refl)) as Fo. cbn [finish_one] in E'. destruct (sget (rd_tns r) parsed) as [own|] eqn:Eo; [|discriminate]. symmetry in Fo.
        destruct (resolve_types _ _ _) as [st1|] eqn:E1; [|discriminate]. destruct (foldo _ _ _) as [own2|]; [|discriminate]. destruct (propagate_all _ _) as [st3|] eqn:E3; [|discriminate]. injection E' as <- <-.
        apply resolve_types_spec in E1 as [_ R]; [|exact (look_good l ord O own (inv_maps _ _ _ I _ _ Eo))]. destruct (R i d1 H1) as (d2 & H2 & _ & Y).
        apply propagate_all_alike in E3 as [AL _]. pose proof (alike_nth _ _ i AL) as Q. rewrite H2 in Q. destruct (nth_error st3 i) as [d3|]; [|discriminate].
        exists d3. split; auto. cbn [option_map] in Q. injection Q as Q. rewrite <- Q, Y; auto.
        intros m Hm. apply N1. eapply Permutation_in in Hm; [|apply Permutation_sym, O].
        pose proof (entries_named l K _ _ (entry_of _ _ _ _ Fo Hm)) as (A1 & _). pose proof (entries_named l K _ _ (entry_of _ _ _ _ Hs Hi)) as (A2 & _).
        assert (m = n) as -> by congruence. rewrite <- (key_space l K _ _ _ _ Fo Hm), (key_space l K _ _ _ _ Hs Hi). apply in_map. exact Hr'.
    - injection H as ->. unfold one_told in E. pose proof (Fr r (or_introl eq_refl)) as Fo. destruct (sget (rd_tns r) parsed) as [own|] eqn:Eo; [|discriminate].
      pose proof (look_good l ord O own (inv_maps _ _ _ I _ _ Eo)) as GL.
      destruct (foldg (entry_told _) st _) as [st1|m1] eqn:E1.
      + pose proof (forget_fold _ _ (ord k own) (forget_entry (lookup_type g own)) st) as Ff. rewrite E1 in Ff. cbn [forget] in Ff. symmetry in Ff.
        change (resolve_types (lookup_type g own) (ord k own) st = Some st1) in Ff. apply resolve_types_spec in Ff as [_ R]; auto.
        destruct (foldg (alias_told g) own _) as [own2|m2] eqn:E2; [destruct (propagate_all _ _); discriminate|]. injection E as ->.
        apply fold_missing in E2 as (pre & [el' ref'] & post & o & Ea & Ef & Em). unfold alias_told in Em. cbn [fst snd] in Em.
        destruct (lookup el' o); [discriminate|]. destruct (lookup_type g o ref') eqn:Er; [discriminate|]. injection Em as -> ->.
        pose proof (forget_fold _ _ pre (forget_alias g) own) as Fa. rewrite Ef in Fa. cbn [forget] in Fa. symmetry in Fa.
        pose proof (aliases_spec l ord O own pre o (inv_maps _ _ _ I _ _ Eo) Fa) as (_ & Gr & _).
        destruct (Ga r (or_introl eq_refl)) as (own' & n & i & d & Hs & Hi & Hd & Al).
        assert (Eq : own' = own) by congruence. subst own'.
        destruct (U r own n i d (or_introl eq_refl) Hs Hi Hd) as (d1 & H1 & S1). destruct (R i d1 H1) as (d2 & _ & X & _).
        assert (Hr : resolve_def (lookup_type g own) d1 = Some d2) by (apply X; exists n; eapply Permutation_in; [apply O|exact Hi]).
        unfold lookup_type in Er. destruct (parse_builtin ref) eqn:B; [discriminate|]. destruct (lookup ref g) eqn:Lg; [discriminate|].
        apply resolve_def_spec in Hr as [Re _]; auto. destruct (resolved_target _ _ _ ref Re) as (t & Ht).
        { rewrite (refs_strip _ _ S1). apply (Al el); auto. rewrite Ea. apply in_app_iff. right. left. reflexivity. }
        unfold lookup_type in Ht. rewrite B, Lg in Ht. apply Gr in Ht. congruence.
      + injection E as ->. apply fold_missing in E1 as (? & [key t] & ? & st2 & _ & _ & Em). unfold entry_told in Em. cbn [fst snd] in Em.
        destruct t as [|?|?|i]; try discriminate. destruct (nth_error st2 i) as [d|]; [|discriminate]. destruct (resolve_told _ key d) eqn:Er; [discriminate|].
        cbn [bind] in Em. injection Em as ->. apply def_missing in Er as (? & ? & ? & ? & _ & _ & _ & Er). discriminate.
  Qed.
  Theorem no_alias el ref : NoDup (map rd_tns l) -> (forall r, In r l -> gathers r) -> parse_told ord l <> TErr (MsAlias el ref).
  Proof.
    intros N Ga. unfold parse_told. fold (initial l). rewrite (surjective_pairing (initial l)).
    apply finish_no_alias; auto; [apply initial_inv|]. intros r own n i d _ _ _ Hd. exists d. auto.
  Qed.
End M.

Theorem told_as_self annot F T f0 t0 pf pd pr comp msg roots l ord m :
  any_order ord -> Forall2 (fun root r => read annot F T f0 t0 pf pd pr comp msg root = Some r) roots l -> keyed l ->
  NoDup (map rd_tns l) -> (forall root, In root roots -> plain_tops root /\ attr root "" "targetNamespace" <> "") ->
  parse_told ord l = TErr m -> exists cx key ro ref, m = MsType cx key ro ref.
Proof.
  intros O Rd K N P H. destruct m as [cx key ro ref|el ref]; [eauto|]. exfalso. revert H. apply no_alias; auto.
  intros r Hr. apply in_split in Hr as (l1 & l2 & E).
  assert (exists root, In root roots /\ read annot F T f0 t0 pf pd pr comp msg root = Some r) as (root & Hroot & R).
  { assert (Hr : In r l) by (rewrite E; apply in_app_iff; right; left; auto). clear - Rd Hr. induction Rd as [|a b la lb H Rd IH]; [destruct Hr|].
    destruct Hr as [->|Hr]; [exists a; split; [left|]; auto|]. destruct (IH Hr) as (x & Hx & X). exists x. split; [right|]; auto. }
  destruct (P root Hroot) as [Pt Tn].
  assert (Tr : rd_tns r <> "").
  { unfold read in R. destruct (read_types _ _ _ _ _ _ _ _ _ _ root); [|discriminate]. cbn [option_map] in R. injection R as <-. exact Tn. }
  destruct (self_last annot F T f0 t0 pf pd pr comp msg root r R Tr Pt) as (front & self & Et & Al).
  assert (D : forall r', In r' l2 -> rd_tns r' <> rd_tns r).
  { intros r' Hr' X. rewrite E, map_app in N. apply NoDup_remove_2 in N. apply N. apply in_app_iff. right. rewrite <- X. apply in_map. exact Hr'. }
  destruct (declared_initial l1 r l2 (mkName (rd_tns r) "_self") (DC self) (List.length front) D) as (own & i & Hs & Hl & Hd).
  - rewrite Et, nth_error_app2, Nat.sub_diag by lia. reflexivity.
  - intros j e Hj He. rewrite Et in He. assert (j < List.length (front ++ [(mkName (rd_tns r) "_self", DC self)])) by (apply nth_error_Some; congruence). rewrite app_length in *. cbn [List.length] in *. lia.
  - rewrite <- E in Hs, Hd. exists own, (mkName (rd_tns r) "_self"), i, (DC self). split; auto. split; [apply lookup_in; exact Hl|]. split; auto.
Qed.
