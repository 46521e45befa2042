(* The methods and functions of a file: proofs. *)
From Coq Require Import Sorted.
From Verif Require Import Base SortLib ScopeModel TreeModel EqualModel BuiltinModel CodecModel XsdModel TypesModel TypesProofs GraphModel GenModel SgModel SgStruct SgProofs SgNames SgTags SgDecl SgFlat SliceModel SliceExamples SgGen SgGenSpec SgGenCode SgGenClosed SgOrder SgOrderCode MethodModel MethodSpec.
Local Open Scope string_scope.

(* ---------- what the types are does not change ---------- *)
Definition kin (st st' : store) : Prop := forall i, match nth_error st i, nth_error st' i with
  | Some (DS s), Some (DS s') => sd_list s' = sd_list s | Some (DC _), Some (DC _) => True | None, None => True | _, _ => False end.
Lemma kin_refl st : kin st st.
Proof. intros i. destruct (nth_error st i) as [[c|s]|]; auto. Qed.
Lemma kin_trans a b c : kin a b -> kin b c -> kin a c.
Proof. intros H K i. specialize (H i). specialize (K i). destruct (nth_error a i) as [[x|x]|], (nth_error b i) as [[y|y]|], (nth_error c i) as [[z|z]|]; auto; try contradiction; congruence. Qed.
Lemma kin_put_c st i c c' : get_c st i = Some c -> kin st (put_c st i c').
Proof. intros H k. apply get_c_nth in H. unfold put_c. rewrite (put_nth _ _ _ _ k H). destruct (Nat.eqb_spec k i) as [->|N]; [rewrite H; exact I|apply kin_refl]. Qed.
Lemma kin_put_s st i s s' : get_s st i = Some s -> sd_list s' = sd_list s -> kin st (put_s st i s').
Proof. intros H L k. apply get_s_nth in H. unfold put_s. rewrite (put_nth _ _ _ _ k H). destruct (Nat.eqb_spec k i) as [->|N]; [rewrite H; exact L|apply kin_refl]. Qed.
Lemma kin_rebase st v b : kin st (rebase st v b).
Proof. destruct v as [| | |i]; try apply kin_refl. cbn [rebase]. destruct (get_s st i) as [s|] eqn:E; [|apply kin_refl]. apply (kin_put_s st i s); [exact E|reflexivity]. Qed.
Lemma kin_rebases b l : forall st, kin st (fold_left (fun st v => rebase st v b) l st).
Proof. induction l as [|v l IH]; intros st; [apply kin_refl|]. cbn [fold_left]. exact (kin_trans _ _ _ (kin_rebase st v b) (IH _)). Qed.
Lemma kin_simple st i st' p v : flatten_simple st i = Ret (st', p, v) -> kin st st'.
Proof.
  unfold flatten_simple. destruct (chain_of st (TPtr i)) as [[chain b]| | |]; cbn [andthen]; try discriminate.
  set (st2 := rebase (fold_left (fun st v => rebase st v b) chain st) (TPtr i) b). assert (K : kin st st2) by exact (kin_trans _ _ _ (kin_rebases b chain st) (kin_rebase _ _ _)).
  destruct (get_s st2 i) as [s|] eqn:E; [|discriminate]. destruct (_ || _)%bool; [intros [= <- _ _]; exact K|]. destruct (non_trivial_ty (sd_base s)); [intros [= <- _ _]; exact K|].
  destruct (simple_doc s) as [d|]; intros [= <- _ _]; [|exact K]. exact (kin_trans _ _ _ K (kin_put_s st2 i s (with_doc_s s d) E eq_refl)).
Qed.
Lemma kin_foldr {A B} (f : store * A -> B -> run (store * A)) : (forall st a b st' a', f (st, a) b = Ret (st', a') -> kin st st') -> forall l st a st' a', foldr f (st, a) l = Ret (st', a') -> kin st st'.
Proof.
  intros H. induction l as [|b l IH]; intros st a st' a'; cbn [foldr]; [intros [= <- _]; apply kin_refl|]. destruct (f (st, a) b) as [[st1 a1]| | |] eqn:E; cbn [andthen]; try discriminate. intros F. exact (kin_trans _ _ _ (H _ _ _ _ _ E) (IH _ _ _ _ F)).
Qed.
Section Kin.
  Variable fa : option (attribute -> bool).
  Lemma kin_flatten1 : forall k st t st' p v, flatten1 fa k st t = Ret (st', p, v) -> kin st st'.
  Proof.
    induction k as [|k IH]; intros st t st' p v; cbn [flatten1]; [intros [= <- _ _]; apply kin_refl|]. destruct t as [|b|n|i]; try discriminate; [intros [= <- _ _]; apply kin_refl|].
    destruct (nth_error st i) as [[c|s]|] eqn:E; try discriminate; [|apply kin_simple]. destruct (unpacks fa st c).
    - destruct (ct_base c); try apply IH. intros [= <- _ _]. apply kin_refl.
    - destruct (foldr (visit (flatten1 fa k) i) (st, []) (slots c)) as [[st1 pushed]| | |] eqn:F; cbn [andthen]; try discriminate.
      assert (K1 : kin st st1).
      { refine (kin_foldr _ _ _ _ _ _ _ F). clear -IH. intros st a s st' a'. unfold visit. destruct (get_c st i) as [c|] eqn:Ec; [|discriminate]. destruct (slot_ty c s) as [u|]; [|discriminate].
        destruct (flatten1 fa k st u) as [[[st1 p] v]| | |] eqn:E; cbn [andthen]; try discriminate. apply IH in E. destruct v; destruct (get_c st1 i) as [c1|] eqn:E1; try discriminate; intros [= <- _]; exact (kin_trans _ _ _ E (kin_put_c st1 i c1 _ E1)). }
      destruct (get_c st1 i) as [c1|] eqn:E1; [|discriminate]. destruct (flatten1 fa k st1 (ct_base c1)) as [[[st2 p2] b2]| | |] eqn:E2; cbn [andthen]; try discriminate. apply IH in E2.
      destruct b2; destruct (get_c st2 i) as [c2|] eqn:E3; try discriminate; intros [= <- _ _]; exact (kin_trans _ _ _ K1 (kin_trans _ _ _ E2 (kin_put_c st2 i c2 _ E3))).
  Qed.
  Lemma kin_flatten ft allow st types st' l : flatten_types fa ft allow st types = Ret (st', l) -> kin st st'.
  Proof.
    unfold flatten_types. destruct (foldr (flatten_step fa ft allow) (st, []) types) as [[st1 res]| | |] eqn:F; cbn [andthen]; try discriminate. destruct (dedup _ _ _) as [l0| | |]; cbn [andthen]; try discriminate. intros [= <- _].
    refine (kin_foldr _ _ _ _ _ _ _ F). clear. intros st a t st' a'. unfold flatten_step. destruct (type_name st t); [|discriminate]. destruct (selected ft allow x); [|intros [= <- _]; apply kin_refl].
    destruct (flatten1 fa max_depth st t) as [[[st1 p] v]| | |] eqn:E; cbn [andthen]; try discriminate. intros [= <- _]. exact (kin_flatten1 _ _ _ _ _ _ E).
  Qed.
End Kin.
Lemma kin_expand_one st t st' : expand_one st t = Ret st' -> kin st st'.
Proof.
  unfold expand_one. destruct t as [| | |i]; try discriminate. destruct (get_c st i) as [c|] eqn:E; [|discriminate]. destruct (ct_base c) as [| | |j]; try (intros [= <-]; apply kin_refl). destruct (get_c st j) as [b|]; [|intros [= <-]; apply kin_refl].
  destruct (merged_fields c b) as [es ats]. intros [= <-]. exact (kin_put_c st i c _ E).
Qed.
Lemma kin_expand st l st' : expand_types st l = Ret st' -> kin st st'.
Proof.
  unfold expand_types. destruct (index_types st l) as [ix| | |]; cbn [andthen]; try discriminate. destruct (foldr _ (ix, l) l) as [[ix' all]| | |]; cbn [andthen]; try discriminate. destruct (edges st ix' all) as [es| | |]; cbn [andthen]; try discriminate.
  destruct (flatten (build es)) as [order|]; [|discriminate]. revert st. induction order as [|z order IH]; intros st; cbn [foldr]; [intros [= <-]; apply kin_refl|].
  destruct (nth_error all (Z.to_nat z)) as [t|]; [|discriminate]. destruct (expand_one st t) as [st1| | |] eqn:E; cbn [andthen]; try discriminate. intros F. exact (kin_trans _ _ _ (kin_expand_one _ _ _ E) (IH _ F)).
Qed.

(* ---------- the declarations as they are made ---------- *)
Section Born.
  Variable public : xname -> string.
  Variable fa : option (attribute -> bool).
  Variable fe : option (element -> bool).
  Variable helpers : list Z.

  (* where an override comes from *)
  Definition fits (fs : list sfield) (hs : list Z) (o : override) : Prop :=
    (exists e f, In f fs /\ ov_from o = expr_text e /\ expr_id e = expr_id (sf_expr f)) /\ (ov_to o = ov_from o \/ exists b, In b hs /\ ov_to o = helper_name b).
  Record gi (g : gstate) : Prop := mkGi {
    gi_sub : subseq (map ov_field (g_over g)) (map sf_name (g_fields g));
    gi_fit : forall o, In o (g_over g) -> fits (g_fields g) (g_help g) o;
    gi_help : forall b, In b (g_help g) -> memb b helpers = true /\ non_trivial b = true }.
  Lemma fits_more fs fs' hs hs' o : fits fs hs o -> fits (fs ++ fs')%list (hs ++ hs')%list o.
  Proof. intros [(e & f & H1 & H2) H3]. split; [exists e, f; split; [apply in_or_app; left; exact H1|exact H2]|]. destruct H3 as [H3|(b & H3 & H4)]; [left; exact H3|right; exists b; split; [apply in_or_app; left; exact H3|exact H4]]. Qed.
  Lemma subseq_app {A} (l m l' m' : list A) : subseq l m -> subseq l' m' -> subseq (l ++ l')%list (m ++ m')%list.
  Proof. induction 1; intros H'; cbn [app]; [exact H'|apply sub_skip; auto|apply sub_keep; auto]. Qed.
  Lemma override_one st t d nm tg l hs : override_for public helpers st t d nm tg = Ret (l, hs) -> (l = [] /\ hs = [] \/ exists o, l = [o] /\ ov_field o = nm /\ expr_string public st t = Ret (ov_from o) /\ (ov_to o = ov_from o \/ exists b, In b hs /\ ov_to o = helper_name b)) /\ (forall b, In b hs -> memb b helpers = true /\ non_trivial b = true).
  Proof.
    unfold override_for. destruct (_ || _)%bool; [|intros [= <- <-]; split; [left; auto|intros ? []]]. destruct (expr_string public st t) as [x| | |] eqn:E; cbn [andthen]; try discriminate.
    destruct t as [|b|n|i]; try (intros [= <- <-]; split; [right; eexists; split; [reflexivity|]; split; [reflexivity|]; split; [reflexivity|]; left; reflexivity|intros ? []]).
    destruct (non_trivial b) eqn:N; [|intros [= <- <-]; split; [right; eexists; split; [reflexivity|]; split; [reflexivity|]; split; [reflexivity|]; left; reflexivity|intros ? []]].
    destruct (memb b helpers) eqn:M; [|discriminate]. intros [= <- <-]. split; [|intros z [<-|[]]; auto]. right. eexists. split; [reflexivity|]. split; [reflexivity|]. split; [reflexivity|]. right. exists b. split; [left; reflexivity|reflexivity].
  Qed.
  Lemma gi_snoc st t d nm tg tg' l hs e0 e g taken : override_for public helpers st t d nm tg = Ret (l, hs) -> expr_of public st t = Ret e0 -> expr_id e0 = expr_id e -> gi g ->
    gi (mkG taken (g_fields g ++ [mkField nm e tg']) (g_over g ++ l) (g_help g ++ hs)%list).
  Proof.
    intros O E I [G1 G2 G3]. destruct (override_one _ _ _ _ _ _ _ O) as [D H]. unfold expr_string in D. rewrite E in D. split; cbn [g_over g_fields g_help].
    - rewrite !map_app. apply subseq_app; [exact G1|]. destruct D as [[-> _]|(o & -> & <- & _)]; [apply subseq_nil|]. cbn [map sf_name]. apply sub_keep, sub_nil.
    - intros o Ho. apply in_app_or in Ho as [Ho|Ho]; [apply fits_more, G2, Ho|]. destruct D as [[-> _]|(o' & -> & _ & X & D)]; [destruct Ho|]. destruct Ho as [<-|[]]. injection X as X. split.
      + exists e0. eexists. split; [apply in_or_app; right; left; reflexivity|]. cbn [sf_expr]. auto.
      + destruct D as [D|(b & D1 & D2)]; [left; exact D|right; exists b; split; [apply in_or_app; right; exact D1|exact D2]].
    - intros b Hb. apply in_app_or in Hb as [Hb|Hb]; auto.
  Qed.
  Lemma gi_element st g e g' : gi g -> element_field public helpers st g e = Ret g' -> gi g'.
  Proof.
    intros G. unfold element_field. destruct (expr_of public st (el_type e)) as [y| | |] eqn:Ey; cbn [andthen]; try discriminate. destruct (element_name public (g_taken g) (el_name e)) as [taken name]. cbv zeta.
    destruct (override_for public helpers st (el_type e) (el_default e) _ _) as [[l hs]| | |] eqn:O; cbn [andthen]; try discriminate. intros [= <-]. cbn [fst snd]. apply (gi_snoc _ _ _ _ _ _ _ _ y _ _ _ O Ey); [|exact G].
    assert (W : expr_id y = expr_id (if (el_wild e && match el_type e with TB b => (b =? 0)%Z | _ => false end)%bool then EId "string" else y)).
    { destruct (el_wild e); [|reflexivity]. cbn [andb]. destruct (el_type e) as [|b| |]; try reflexivity. destruct (b =? 0)%Z eqn:B; [|reflexivity]. apply Z.eqb_eq in B as ->. cbn in Ey. injection Ey as <-. reflexivity. }
    destruct (el_plural e); exact W.
  Qed.
  Lemma gi_attribute st g a g' : gi g -> attribute_field public helpers st g a = Ret g' -> gi g'.
  Proof.
    intros G. unfold attribute_field. destruct (expr_of public st (at_type a)) as [y| | |] eqn:Ey; cbn [andthen]; try discriminate. destruct (attribute_name public (g_taken g) (at_name a)) as [taken name]. cbv zeta.
    destruct (override_for public helpers st (at_type a) (at_default a) _ _) as [[l hs]| | |] eqn:O; cbn [andthen]; try discriminate. intros [= <-]. cbn [fst snd]. exact (gi_snoc _ _ _ _ _ _ _ _ y _ _ _ O Ey eq_refl G).
  Qed.
  Lemma gi_nil : gi (mkG [] [] [] []).
  Proof. split; [apply sub_nil|intros ? []|intros ? []]. Qed.
  Lemma gi_chardata st c g : chardata public helpers st c = Ret g -> gi g.
  Proof.
    unfold chardata. destruct (ct_mixed c); [|intros [= <-]; exact gi_nil]. destruct (drill _ st (ct_base c)) as [base| | |]; cbn [andthen]; try discriminate. destruct (expr_of public st base) as [e| | |] eqn:E; cbn [andthen]; try discriminate.
    assert (Simple : gi (mkG [] [mkField (expr_text e) e (quoted ",chardata")] [] [])) by (split; [apply subseq_nil|intros ? []|intros ? []]).
    destruct base as [|b|n|i]; try (destruct (is_simple st _); [intros [= <-]; exact Simple|discriminate]). destruct (b =? 0)%Z; [intros [= <-]; exact gi_nil|].
    destruct (non_trivial b).
    - destruct (override_for public helpers st (TB b) "" "Value" (quoted ",chardata")) as [[l hs]| | |] eqn:O; cbn [andthen]; try discriminate. destruct (unique [] "Value") as [taken name] eqn:U. intros [= <-]. cbn [fst snd].
      assert (name = "Value") by (cbn in U; congruence). subst name. exact (gi_snoc _ _ _ _ _ _ _ _ e _ (mkG [] [] [] []) _ O E eq_refl gi_nil).
    - cbn [andthen]. destruct (unique [] "Value") as [taken name]. intros [= <-]. split; [apply subseq_nil|intros ? []|intros ? []].
  Qed.
  Lemma gi_fold {B} (f : gstate -> B -> run gstate) : (forall g b g', gi g -> f g b = Ret g' -> gi g') -> forall l g g', gi g -> foldr f g l = Ret g' -> gi g'.
  Proof. intros H. induction l as [|b l IH]; intros g g' G; cbn [foldr]; [intros [= <-]; exact G|]. destruct (f g b) as [g1| | |] eqn:E; cbn [andthen]; try discriminate. apply IH. exact (H _ _ _ G E). Qed.

  Inductive born (st : store) (s : spec) : Prop :=
  | born_list i d : sp_type s = TPtr i -> nth_error st i = Some (DS d) -> sd_list d = true -> sp_overrides s = [] -> sp_helpers s = [] -> born st s
  | born_text i d : sp_type s = TPtr i -> nth_error st i = Some (DS d) -> sd_list d = false -> sp_struct s = None -> sp_overrides s = [] -> (sp_helpers s = [] \/ exists b, sp_helpers s = [b] /\ memb b helpers = true /\ non_trivial b = true) -> born st s
  | born_struct i c fs : sp_type s = TPtr i -> nth_error st i = Some (DC c) -> sp_struct s = Some fs -> sp_expr s = None -> subseq (map ov_field (sp_overrides s)) (map sf_name fs) ->
      (forall o, In o (sp_overrides s) -> fits fs (sp_helpers s) o) -> (forall b, In b (sp_helpers s) -> memb b helpers = true /\ non_trivial b = true) -> born st s.
  Lemma born_kin st st' s : kin st st' -> born st s -> born st' s.
  Proof.
    intros K B. destruct B as [i d H1 H2 H3|i d H1 H2 H3|i c fs H1 H2]; specialize (K i); rewrite H2 in K; destruct (nth_error st' i) as [[c'|d']|] eqn:E; try contradiction.
    - eapply born_list; eauto; congruence.
    - eapply born_text; eauto; congruence.
    - eapply born_struct; eauto.
  Qed.
  Lemma gen_type_born st t st' l : gen_type public fa fe helpers st t = Ret (st', l) -> kin st st' /\ Forall (born st') l.
  Proof.
    unfold gen_type. destruct t as [|b|n|i]; try discriminate; try (intros [= <- <-]; split; [apply kin_refl|constructor]). destruct (nth_error st i) as [[c|d]|] eqn:E; [| |discriminate].
    - unfold gen_complex. destruct (chardata public helpers st c) as [g| | |] eqn:Ec; cbn [andthen]; try discriminate. apply gi_chardata in Ec. destruct (filter_fields fa fe (inherit st c)) as [ats els].
      set (st1 := put_c st i (inherit st c)). destruct (foldr (element_field public helpers st1) g els) as [g1| | |] eqn:E1; cbn [andthen]; try discriminate. apply (gi_fold _ (gi_element st1)) in E1; [|exact Ec].
      destruct (foldr (attribute_field public helpers st1) g1 ats) as [g2| | |] eqn:E2; cbn [andthen]; try discriminate. apply (gi_fold _ (gi_attribute st1)) in E2; [|exact E1]. intros [= <- <-].
      split; [apply get_c_nth in E; exact (kin_put_c st i c _ E)|]. constructor; [|constructor]. destruct E2 as [G1 G2 G3]. eapply born_struct; cbn [sp_type sp_struct sp_expr sp_overrides sp_helpers]; eauto.
      unfold st1, put_c. rewrite (put_nth _ _ _ _ i E), Nat.eqb_refl. reflexivity.
    - destruct (sd_list d) eqn:L.
      + unfold gen_simple_list. destruct (expr_of public st (sd_base d)) as [e| | |]; cbn [andthen]; try discriminate. destruct (root_base _ st (sd_base d)) as [r| | |]; cbn [andthen]; try discriminate. destruct r as [|b| |]; try discriminate.
        destruct (list_codec b) as [c|]; [|discriminate]. destruct (body_parses c); [|discriminate]. cbn [andthen]. intros [= <- <-]. split; [apply kin_refl|]. constructor; [|constructor]. eapply born_list; cbn; eauto.
      + unfold gen_simple. destruct (sd_union d).
        * destruct (expr_of public st (sd_base d)) as [e| | |]; cbn [andthen]; try discriminate. destruct (sd_base d) as [|b| |]; try destruct (non_trivial b) eqn:N; try destruct (memb b helpers) eqn:M; try discriminate; cbn [andthen];
            intros [= <- <-]; (split; [apply kin_refl|]); constructor; try constructor; eapply born_text; cbn; eauto.
        * cbn [andthen]. intros [= <- <-]. split; [apply kin_refl|]. constructor; [|constructor]. eapply born_text; cbn; eauto.
  Qed.
  Lemma kin_after_error st t : kin st (after_error public helpers st t).
  Proof. unfold after_error. destruct t as [| | |i]; try apply kin_refl. destruct (get_c st i) as [c|] eqn:E; [|apply kin_refl]. destruct (chardata public helpers st c); try apply kin_refl. exact (kin_put_c st i c _ E). Qed.
  Variable ft : option (xname -> bool).
  Variable allow : option (list xname).
  Lemma step_born st errs sps t st' errs' sps' : gen_step public fa fe helpers (st, errs, sps) t = Ret (st', errs', sps') -> Forall (born st) sps -> Forall (born st') sps'.
  Proof.
    unfold gen_step. destruct (gen_type public fa fe helpers st t) as [[st1 l]| | |] eqn:E; try discriminate.
    - intros [= <- _ <-] F. apply gen_type_born in E as [K B]. apply Forall_app. split; [|exact B]. eapply Forall_impl; [|exact F]. intros s. apply born_kin, K.
    - destruct (type_name st t); [|discriminate]. intros [= <- _ <-] F. eapply Forall_impl; [|exact F]. intros s. apply born_kin, kin_after_error.
  Qed.
  Lemma schema_born types : forall st errs sps st' errs' sps', gen_schema public fa fe ft allow helpers (st, errs, sps) types = Ret (st', errs', sps') -> Forall (born st) sps -> Forall (born st') sps'.
  Proof.
    intros st errs sps st' errs' sps'. unfold gen_schema. destruct (flatten_types fa ft allow st types) as [[st1 l]| | |] eqn:E1; cbn [andthen fst snd]; try discriminate. destruct (expand_types st1 l) as [st2| | |] eqn:E2; cbn [andthen]; try discriminate.
    intros F B. assert (B2 : Forall (born st2) sps). { eapply Forall_impl; [|exact B]. intros s. apply born_kin. exact (kin_trans _ _ _ (kin_flatten _ _ _ _ _ _ _ E1) (kin_expand _ _ _ E2)). }
    clear E1 E2 B. revert st2 errs sps F B2. induction l as [|t l IH]; intros st2 errs sps; cbn [foldr]; [intros [= <- _ <-]; auto|].
    destruct (gen_step public fa fe helpers (st2, errs, sps) t) as [[[st3 errs3] sps3]| | |] eqn:E; cbn [andthen]; try discriminate. intros F B. exact (IH _ _ _ F (step_born _ _ _ _ _ _ _ E B)).
  Qed.
  Lemma schemas_born schemas : forall st errs sps st' errs' sps', foldr (gen_schema public fa fe ft allow helpers) (st, errs, sps) schemas = Ret (st', errs', sps') -> Forall (born st) sps -> Forall (born st') sps'.
  Proof.
    induction schemas as [|x l IH]; intros st errs sps st' errs' sps'; cbn [foldr]; [intros [= <- _ <-]; auto|]. destruct (gen_schema public fa fe ft allow helpers (st, errs, sps) x) as [[[st3 errs3] sps3]| | |] eqn:E; cbn [andthen]; try discriminate.
    intros F B. exact (IH _ _ _ _ _ _ F (schema_born _ _ _ _ _ _ _ E B)).
  Qed.
  Lemma posts_born slices st : forall (l acc out : list (string * spec)), foldr (fun m p => andthen (SgGen.post slices st (snd p)) (fun s => Ret (m ++ [(fst p, s)])%list)) acc l = Ret out ->
    exists l', out = (acc ++ l')%list /\ Forall2 (fun p q => fst q = fst p /\ SgGen.post slices st (snd p) = Ret (snd q)) l l'.
  Proof.
    induction l as [|[k s] l IH]; intros acc out; cbn [foldr fst snd]; [intros [= <-]; exists []; rewrite app_nil_r; split; [reflexivity|constructor]|]. destruct (SgGen.post slices st s) as [s'| | |] eqn:E; cbn [andthen]; try discriminate.
    intros F. apply IH in F as (l' & -> & F). exists ((k, s') :: l'). rewrite <- app_assoc. split; [reflexivity|]. constructor; auto.
  Qed.
  (* adding the helper types *)
  Lemma helpers_added decls : NoDup (map fst decls) -> NoDup (map fst (add_helpers helpers decls)) /\
    forall p b, In p decls -> In b (sp_helpers (snd p)) -> memb b helpers = true -> exists b', helper_name b' = helper_name b /\ sget (helper_name b) (add_helpers helpers decls) = Some (helper_spec b').
  Proof.
    intros N. unfold add_helpers.
    assert (X : forall l m, NoDup (map fst m) -> let r := fold_left (fun m b => if memb b helpers then sset (helper_name b) (helper_spec b) m else m) l m in NoDup (map fst r) /\
      forall b, (In b l /\ memb b helpers = true \/ exists b', helper_name b' = helper_name b /\ sget (helper_name b) m = Some (helper_spec b')) -> exists b', helper_name b' = helper_name b /\ sget (helper_name b) r = Some (helper_spec b')).
    { clear. induction l as [|z l IH]; intros m N; cbv zeta; cbn [fold_left]; [split; [exact N|]; intros b [[[] _]|H]; exact H|].
      destruct (memb z helpers) eqn:M; (destruct (IH (if memb z helpers then sset (helper_name z) (helper_spec z) m else m)) as [I1 I2]; rewrite M in *; [try apply sset_nodup; exact N|]; cbv zeta in I1, I2; split; [exact I1|]).
      - intros b [[[->|H] Hb]|(b' & H1 & H2)]; apply I2.
        + right. exists b. split; [reflexivity|]. rewrite sget_sset, String.eqb_refl. reflexivity.
        + left. auto.
        + right. rewrite sget_sset. destruct (String.eqb (helper_name z) (helper_name b)) eqn:E; [apply String.eqb_eq in E; exists z; auto|exists b'; auto].
      - intros b [[[->|H] Hb]|H]; [congruence|apply I2; left; auto|apply I2; right; exact H]. }
    destruct (X (flat_map (fun p => sp_helpers (snd p)) decls) decls N) as [X1 X2]. split; [exact X1|]. intros p b Hp Hb Hm. apply X2. left. split; [|exact Hm]. apply in_flat_map. eauto.
  Qed.
  Definition made (slices : bool) (st : store) (s : spec) : Prop := (exists s0, born st s0 /\ SgGen.post slices st s0 = Ret s) \/ exists b, s = helper_spec b /\ memb b helpers = true /\ non_trivial b = true.
  Lemma post_same slices st s s' : SgGen.post slices st s = Ret s' -> sp_name s' = sp_name s /\ sp_type s' = sp_type s /\ sp_overrides s' = sp_overrides s /\ sp_helpers s' = sp_helpers s.
  Proof. unfold SgGen.post. destruct slices; [|intros [= <-]; auto]. unfold sliced. destruct (to_slice st s) as [[sl|]| | |]; cbn [andthen]; try discriminate; intros [= <-]; auto. Qed.
  Theorem gen_made slices st schemas c : gen public fa fe ft allow helpers slices st schemas = Ret (inr c) ->
    NoDup (map fst (co_decls c)) /\ (forall n s, In (n, s) (co_decls c) -> n = sp_name s /\ made slices (co_store c) s) /\
    forall n s b, In (n, s) (co_decls c) -> In b (sp_helpers s) -> memb b helpers = true -> exists b', helper_name b' = helper_name b /\ In (helper_name b, helper_spec b') (co_decls c).
  Proof.
    unfold gen. destruct (foldr (gen_schema public fa fe ft allow helpers) (st, [], []) schemas) as [[[st1 errs] sps]| | |] eqn:E; cbn [andthen]; try discriminate. pose proof (schemas_born _ _ _ _ _ _ _ E ltac:(constructor)) as B.
    destruct errs; [|discriminate]. destruct (foldr _ [] sps) as [names| | |]; cbn [andthen]; try discriminate. destruct (foldr _ [] (declare [] (map (fun s => (sp_name s, s)) sps))) as [decls| | |] eqn:P; cbn [andthen]; try discriminate. intros [= <-]. cbn [co_decls co_store].
    apply posts_born in P as (l' & Ed & F). cbn [app] in Ed. subst l'. rewrite Forall_forall in B.
    assert (K : map fst decls = map fst (declare [] (map (fun s => (sp_name s, s)) sps))). { clear -F. induction F as [|p q l m [H1 _] F IH]; [reflexivity|]. cbn [map]. rewrite H1, IH. reflexivity. }
    assert (N : NoDup (map fst decls)) by (rewrite K; apply declare_nodup; constructor).
    assert (D : forall n s, In (n, s) decls -> n = sp_name s /\ made slices st1 s).
    { intros n s H. destruct (forall2_back _ _ _ _ F H) as ([n0 s0] & H0 & X1 & X2). cbn [fst snd] in X1, X2. subst n0. apply declare_in in H0 as [[]|H0]. apply in_map_iff in H0 as (s1 & [= Y1 Y2] & H0). subst s1 n.
      destruct (post_same _ _ _ _ X2) as (Z1 & _). split; [congruence|]. left. exists s0. split; [exact (B _ H0)|exact X2]. }
    destruct (helpers_added decls N) as [A1 A2]. destruct (helpers_ok helpers decls) as [_ O2]. split; [exact A1|].
    assert (HB : forall n s b, In (n, s) decls -> In b (sp_helpers s) -> memb b helpers = true /\ non_trivial b = true).
    { intros n s b H Hb. destruct (D _ _ H) as [_ [(s0 & B0 & P0)|(z & -> & _)]]; [|destruct Hb]. destruct (post_same _ _ _ _ P0) as (_ & _ & _ & Z). rewrite Z in Hb.
      destruct B0 as [i d H1 H2 H3 H4 H5|i d H1 H2 H3 H4 H5 [H6|(z & H6 & H7)]|i c0 fs H1 H2 H3 H4 H5 H6 H7]; [rewrite H5 in Hb; destruct Hb|rewrite H6 in Hb; destruct Hb|rewrite H6 in Hb; destruct Hb as [<-|[]]; exact H7|exact (H7 b Hb)]. }
    split.
    - intros n s H. destruct (O2 _ H) as [Hd|(b & [n0 q] & Q1 & Q2 & [= -> ->])]; [exact (D _ _ Hd)|]. split; [reflexivity|]. right. exists b. cbn [snd] in Q2. split; [reflexivity|]. exact (HB _ _ _ Q1 Q2).
    - intros n s b H Hb Hm. destruct (O2 _ H) as [Hd|(z & q & _ & _ & [= -> ->])]; [|destruct Hb]. destruct (A2 (n, s) b Hd Hb Hm) as (b' & B1 & B2). exists b'. split; [exact B1|]. apply sget_in in B2. exact B2.
  Qed.
End Born.
