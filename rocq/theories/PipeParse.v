(* Documents that Parse accepts. *)
From Coq Require Import Permutation.
From Verif Require Import Base SortLib ScopeModel TreeModel EqualModel BuiltinModel BuiltinProofs CodecModel XsdModel XsdProofs TypesModel TypesSpec TypesProofs TypesMixed TypesParse TypesFinal TypesOrder GenModel SgModel SgStruct SgDecl SgFlatSpec SgExpandSpec SliceModel SgGen SgGenSpec BindProofs PipeModel PipeSpec PipeProofs.
Local Open Scope string_scope.

Section Parses.
  Variable h : xname -> nat.
  Variable l : list rd.
  Hypothesis D : documents h l.
  Hypothesis Im : imports_first l.
  Variable ord : nat -> list (xname * ty) -> list (xname * ty).
  Hypothesis O : any_order ord.
  Let st0 := fst (initial l).
  Let parsed0 := snd (initial l).
  Let g := TypesModel.index_types st0 (ord 0 (entries l)).
  Lemma declared_called n d : declares l n d -> exists i, nth_error (decls l) i = Some (n, d) /\ called l n (TPtr i).
  Proof.
    intros Dn. pose proof Dn as Dn'. apply declares_in, In_nth_error in Dn' as (i & Hi). exists i. split; [exact Hi|]. split; [exists n; apply (entry_nth h l D); eauto|].
    cbn [type_name]. rewrite (proj2 (initial_nth h l D i d) (ex_intro _ n Hi)). cbn [option_map]. f_equal. apply (decl_keyed h l D). exact (nth_error_In _ _ Hi).
  Qed.
  Lemma no_error : parse_rds ord l <> Err.
  Proof.
    intros H. destruct (parse_err l ord O H) as (n & [Dn Dt] & [(k & i & d & Hk & Hi & Hr)|(r & a & Hr & Ha & Ea)]).
    - apply (initial_nth h l D) in Hi as (m & Hi). destruct (dc_known _ _ D m d n) as (e & He); [apply declares_in; exact (nth_error_In _ _ Hi)|exact Hr|]. destruct (declared_called n e He) as (j & _ & C). exact (Dt _ C).
    - destruct (dc_elements _ _ D r a Hr Ha) as [(b & B & _)|(e & He)]; [congruence|]. rewrite Ea in He. destruct (declared_called n e He) as (j & _ & C). exact (Dt _ C).
  Qed.
  (* declared in one of these documents *)
  Definition early (m : list rd) (i : nat) : Prop := exists r n d, In r m /\ In (n, d) (rd_types r) /\ nth_error (decls l) i = Some (n, d).
  Lemma early_own m r own0 : incl m l -> In r m -> sget (rd_tns r) parsed0 = Some own0 -> forall n t, In (n, t) own0 -> exists i, t = TPtr i /\ early m i.
  Proof.
    intros Hm Hr Ho n t Ht. destruct (in_split _ _ (Hm r Hr)) as (l1 & l2 & El). destruct (initial_placed h l D) as (_ & _ & Pl). specialize (Pl l1 r l2 El). assert (own0 = placed (List.length (flat_map rd_types l1)) (rd_types r)) as -> by (unfold parsed0 in Ho; congruence).
    apply in_placed in Ht as (i & d & -> & Hi). eexists. split; [reflexivity|]. exists r, n, d. split; [exact Hr|]. split; [exact (nth_error_In _ _ Hi)|]. unfold decls. rewrite El, flat_map_app. cbn [flat_map].
    rewrite nth_error_app2 by lia. rewrite nth_error_app1; [|pose proof (nth_lt _ _ _ Hi); lia]. replace (_ + i - _) with i by lia. exact Hi.
  Qed.
  Lemma early_entry m r i n d : incl m l -> In r m -> In (n, d) (rd_types r) -> nth_error (decls l) i = Some (n, d) -> exists own0, sget (rd_tns r) parsed0 = Some own0 /\ In (n, TPtr i) own0.
  Proof.
    intros Hm Hr Hd Hi. destruct (in_split _ _ (Hm r Hr)) as (l1 & l2 & El). destruct (initial_placed h l D) as (_ & _ & Pl). specialize (Pl l1 r l2 El). exists (placed (List.length (flat_map rd_types l1)) (rd_types r)). split; [exact Pl|].
    apply In_nth_error in Hd as (j & Hj). apply in_placed. exists j, d. split; [|exact Hj]. f_equal. apply (decl_index h l D i _ n d d Hi).
    unfold decls. rewrite El, flat_map_app. cbn [flat_map]. rewrite nth_error_app2 by lia. rewrite nth_error_app1; [|pose proof (nth_lt _ _ _ Hj); lia]. replace (_ + j - _) with j by lia. exact Hj.
  Qed.
  Lemma no_panic : forall l' l1 k st parsed, l = (l1 ++ l')%list -> inv l st parsed -> (forall i, early l1 i -> done l st parsed i) -> (forall r, In r l' -> sget (rd_tns r) parsed = sget (rd_tns r) parsed0) ->
    finish g ord k l' (st, parsed) <> Panics.
  Proof.
    induction l' as [|r l' IH]; intros l1 k st parsed El I Dn Sm; cbn [finish]; [discriminate|]. destruct (finish_one g (ord k) r (st, parsed)) as [[st2 p2]| |] eqn:E; [| discriminate |].
    - pose proof (step l ord O k r st parsed st2 p2 I E) as (I1 & _ & _ & D1 & K1 & _). apply (IH (l1 ++ [r])%list); [rewrite <- app_assoc; exact El|exact I1| |].
      + intros i (r' & n & d & Hr & Hd & Hi). apply in_app_iff in Hr as [Hr|[<-|[]]]; [apply K1, Dn; exists r', n, d; auto|].
        destruct (early_entry l r i n d (incl_refl l)) as (own0 & Ho & Hn); auto; [rewrite El; apply in_or_app; right; left; reflexivity|]. exact (D1 own0 n i Ho Hn).
      + intros r' Hr. cbn [finish_one] in E. destruct (sget (rd_tns r) parsed) as [own|]; [|discriminate]. destruct (resolve_types _ _ st) as [sa|]; [|discriminate]. destruct (foldo (add_alias g) own (rd_aliases r)) as [own'|]; [|discriminate]. destruct (propagate_all _ sa) as [sb|]; [|discriminate]. injection E as <- <-.
        rewrite sget_sset. destruct (String.eqb (rd_tns r) (rd_tns r')) eqn:X; [|apply Sm; right; exact Hr]. exfalso. apply String.eqb_eq in X. pose proof (dc_spaces _ _ D) as N. rewrite El, map_app in N. cbn [map] in N. apply NoDup_remove_2 in N. apply N, in_or_app. right. rewrite X. apply in_map. exact Hr.
    - intros _. pose proof (Sm r (or_introl eq_refl)) as So. assert (Hrl : In r l) by (rewrite El; apply in_or_app; right; left; reflexivity). cbn [finish_one] in E. destruct (sget (rd_tns r) parsed) as [own|] eqn:Eo; [|symmetry in So; exact (key_present l r Hrl So)].
      destruct (resolve_types (lookup_type g own) (ord k own) st) as [st1|] eqn:E1; [|discriminate]. destruct (foldo (add_alias g) own (rd_aliases r)) as [own'|] eqn:E2; [|discriminate]. destruct (propagate_all (ord k own') st1) as [st2|] eqn:E3; [discriminate|]. clear E.
      pose proof (look_good l ord O own (inv_maps _ _ _ I _ _ Eo)) as GL. apply resolve_types_spec in E1 as [L1 R1]; auto.
      assert (Hm : incl (l1 ++ [r])%list l). { intros x Hx. rewrite El. apply in_or_app. apply in_app_or in Hx as [Hx|[<-|[]]]; [left; exact Hx|right; left; reflexivity]. }
      destruct (Im l1 r l' El) as [_ Al].
      (* the types of these documents are resolved *)
      assert (Rs : forall i, early (l1 ++ [r])%list i -> exists n d0 d1, nth_error (decls l) i = Some (n, d0) /\ nth_error st1 i = Some d1 /\ points (target l parsed) (def_base d0) (def_base d1) /\ linkfree d1).
      { intros i (r' & n & d0 & Hr & Hd & Hi). exists n, d0. assert (H0 : nth_error st0 i = Some d0) by (apply (initial_nth h l D); eauto). destruct (inv_def _ _ _ I i d0 H0) as (d & Hds & C). destruct (R1 i d Hds) as (d1 & Hd1 & X & Y). exists d1. split; [exact Hi|]. split; [exact Hd1|].
        assert (Pb : forall P a b, resolved P a b -> points P (def_base a) (def_base b)) by (intros P [a|a] [b|b] Rab; cbn [resolved] in Rab; try contradiction; cbn [def_base]; apply Rab).
        apply in_app_or in Hr as [Hr|[<-|[]]].
        - destruct (Dn i) as (e0 & e & H0' & He & Re & Le); [exists r', n, d0; auto|]. assert (e0 = d0) as -> by (unfold st0 in H0; congruence). assert (e = d) as -> by congruence.
          assert (d1 = d) as ->. { destruct (Exists_dec (fun e : xname * ty => snd e = TPtr i) (ord k own) (fun e => ty_dec (snd e) (TPtr i))) as [Ex|Ne].
            - apply Exists_exists in Ex as ([m u] & Hmu & Hu). cbn in Hu. subst u. specialize (X (ex_intro _ m Hmu)). rewrite (resolve_def_linkfree _ _ Le) in X. congruence.
            - apply Y. intros m Hmu. apply Ne. apply Exists_exists. exists (m, TPtr i). auto. }
          split; [exact (Pb _ _ _ Re)|exact Le].
        - destruct (early_entry l r i n d0 (incl_refl l) Hrl Hd Hi) as (own0 & Ho & Hn). assert (own0 = own) as -> by congruence. assert (Q : resolve_def (lookup_type g own) d = Some d1) by (apply X; exists n; exact (Permutation_in _ (O _ _) Hn)).
          destruct C as [C|[C1 C2]].
          + pose proof (resolve_def_spec _ _ _ GL Q) as [Rq Lq]. split; [|exact Lq]. apply Pb. eapply resolved_impl; [|eapply resolved_strip; [exact C|reflexivity|exact Rq]]. intros m t Ht. cbv beta in Ht. exact (look_target l ord O own _ parsed m t Eo Ht).
          + rewrite (resolve_def_linkfree _ _ C2) in Q. injection Q as <-. split; [exact (Pb _ _ _ C1)|exact C2]. }
      (* and so is whatever they are derived from, or it is derived from a Builtin *)
      set (fine i := early (l1 ++ [r])%list i \/ exists n e b, nth_error (decls l) i = Some (n, e) /\ def_base e = TB b).
      assert (Mo : forall l1' n, incl l1' (l1 ++ [r])%list -> at_hand l1' l n -> exists i e, nth_error (decls l) i = Some (n, e) /\ called l n (TPtr i) /\ fine i).
      { intros l1' n Hi (e & [(rr & H1 & H2)|[H1 (b & H2)]]).
        - destruct (declared_called n e) as (i & Hd & C); [exists rr; split; [apply Hm, Hi; exact H1|exact H2]|]. exists i, e. split; [exact Hd|]. split; [exact C|]. left. exists rr, n, e. auto.
        - destruct (declared_called n e H1) as (i & Hd & C). exists i, e. split; [exact Hd|]. split; [exact C|]. right. exists n, e, b. auto. }
      assert (Nx : forall i, fine i -> exists d1, nth_error st1 i = Some d1 /\ (forall m, def_base d1 <> TLink m) /\ forall j, def_base d1 = TPtr j -> fine j).
      { intros i [Hi|(n & e & b & Hi & Eb)].
        - destruct (Rs i Hi) as (n & d0 & d1 & Hd0 & Hd1 & P & Lf). exists d1. split; [exact Hd1|]. split; [intros m Em; apply (Lf m); destruct d1; left; exact Em|]. intros j Hj. rewrite Hj in P. destruct Hi as (r' & n' & d' & Hr & Hd & Hi). assert (X : (n', d') = (n, d0)) by congruence. injection X as -> ->.
          destruct (def_base d0) as [|b|m|kk] eqn:Eb; try (inversion P; fail).
          + assert (Q : exists l1', incl l1' (l1 ++ [r])%list /\ at_hand l1' l m).
            { apply in_app_or in Hr as [Hr|[<-|[]]]; [|exists (l1 ++ [r])%list; split; [apply incl_refl|exact (proj1 (Im l1 r l' El) n d0 m Hd Eb)]]. destruct (in_split _ _ Hr) as (a & b & Ea). exists (a ++ [r'])%list.
              split; [|exact (proj1 (Im a r' (b ++ r :: l')%list ltac:(rewrite El, Ea, <- app_assoc; reflexivity)) n d0 m Hd Eb)].
              intros x H1. rewrite Ea. apply in_app_or in H1 as [H1|[<-|[]]]; [rewrite <- app_assoc; apply in_or_app; left; exact H1|apply in_or_app; left; apply in_or_app; right; left; reflexivity]. }
            destruct Q as (l1' & Q1 & Q2). destruct (Mo l1' m Q1 Q2) as (i' & e & Hi' & _ & F).
            assert (T : target l parsed m (TPtr j)) by (inversion P; assumption). apply (declared_target h l D parsed m i' e _ Hi') in T. injection T as ->. exact F.
          + exfalso. destruct (dc_raw _ _ D r' n d0 (Hm r' Hr) Hd kk). destruct d0; cbn [refs def_base] in *; left; exact Eb.
        - assert (H0 : nth_error st0 i = Some e) by (apply (initial_nth h l D); eauto). destruct (inv_def _ _ _ I i e H0) as (d & Hds & C). destruct (R1 i d Hds) as (d1 & Hd1 & X & Y). exists d1. split; [exact Hd1|].
          assert (Ed : def_base d = TB b).
          { destruct C as [C|[C _]].
            - apply (f_equal def_base) in C. destruct d as [cd|cd], e as [ce|ce]; first [exact (eq_trans C Eb)|exact (eq_trans (eq_sym C) Eb)].
            - assert (P : points (target l parsed) (def_base e) (def_base d)) by (destruct e, d; cbn [resolved] in C; try tauto; cbn [def_base]; tauto). rewrite Eb in P. inversion P. reflexivity. }
          assert (E1' : def_base d1 = TB b).
          { destruct (Exists_dec (fun e : xname * ty => snd e = TPtr i) (ord k own) (fun e => ty_dec (snd e) (TPtr i))) as [Ex|Ne].
            - apply Exists_exists in Ex as ([m u] & Hmu & Hu). cbn in Hu. subst u. specialize (X (ex_intro _ m Hmu)). pose proof (resolve_def_spec _ _ _ GL X) as [Z _].
              assert (P : points (fun n u => lookup_type g own n = Some u) (def_base d) (def_base d1)) by (destruct d, d1; cbn [resolved] in Z; try tauto; cbn [def_base]; tauto). rewrite Ed in P. inversion P. reflexivity.
            - assert (d1 = d) as -> by (apply Y; intros m Hmu; apply Ne; apply Exists_exists; exists (m, TPtr i); auto). exact Ed. }
          rewrite E1'. split; discriminate. }
      assert (W1 : base_wf st1).
      { assert (RB : forall i d1, nth_error st1 i = Some d1 -> exists d, nth_error st i = Some d /\ (resolve_def (lookup_type g own) d = Some d1 \/ d1 = d)).
        { intros i d1 H1. destruct (nth_error st i) as [d|] eqn:X.
          - destruct (R1 i d X) as (d' & Hd' & P & Q). rewrite H1 in Hd'. injection Hd' as <-. exists d. split; auto.
            destruct (Exists_dec (fun e : xname * ty => snd e = TPtr i) (ord k own) (fun e => ty_dec (snd e) (TPtr i))) as [Ex|Ne].
            + apply Exists_exists in Ex as ([m u] & Hmu & Hu). cbn in Hu. subst u. left. eauto.
            + right. apply Q. intros m Hmu. apply Ne. apply Exists_exists. exists (m, TPtr i). auto.
          - apply nth_error_None in X. rewrite <- L1 in X. apply nth_error_None in X. congruence. }
        intros i d1 j H1 Hb. rewrite L1, (inv_len _ _ _ I).
        assert (Q : exists kk, In (kk, TPtr j) (entries l)).
        { destruct (RB i d1 H1) as (d & Hd & [X| ->]); [|exact (inv_base_ptr l (dc_raw _ _ D) ord st parsed i d j O I Hd Hb)].
          pose proof (resolve_def_spec _ _ _ GL X) as [Y _].
          assert (P : points (fun n u => lookup_type g own n = Some u) (def_base d) (def_base d1)) by (destruct d, d1; cbn [resolved] in Y; try tauto; cbn [def_base]; tauto).
          rewrite Hb in P. inversion P as [nn t Ht Ex Ey| | |kk Ex Ey]; subst.
          - apply (look_proper l ord O) in Ht; [|eapply inv_maps; eauto]. destruct Ht as [Ht|(b & Ht)]; [exact Ht|discriminate].
          - exact (inv_base_ptr l (dc_raw _ _ D) ord st parsed i d j O I Hd (eq_sym Ex)). }
        destruct Q as (kk & Hk). apply entry_ptr in Hk as (j' & Ej & Lt). injection Ej as <-. exact Lt. }
      apply propagate_all_none in E3 as (n & t & i & Hn & Ha & (c & m & Hc & Hb & _)); auto. apply (Permutation_in _ (Permutation_sym (O _ _))) in Hn.
      assert (Ht : forall j, t = TPtr j -> fine j).
      { intros j ->. destruct (aliases_in g _ _ _ E2 n _ Hn) as [H1|(a & o & H1 & H2)].
        - destruct (early_own (l1 ++ [r])%list r own Hm) with (n := n) (t := TPtr j) as (j' & Ej & Hj); auto; [apply in_or_app; right; left; reflexivity|]. injection Ej as ->. left. exact Hj.
        - unfold lookup_type in H2. destruct (parse_builtin (snd a)) as [b|] eqn:Pb; [discriminate|]. destruct (Mo _ (snd a) (incl_refl _) (Al a H1 Pb)) as (i' & e & Hi' & C & F).
          destruct (lookup (snd a) g) as [u|] eqn:Eg; [|destruct (g_total l ord O _ _ C Eg)]. injection H2 as ->. pose proof (keyed_unique l (dc_keyed _ _ D) _ _ _ (g_called l ord O _ _ Eg) C) as X. injection X as ->. exact F. }
      assert (Ei : fine i).
      { clear - Ha Ht Nx Hc. remember (TPtr i) as u eqn:Eu. revert Ht. induction Ha as [t|t u Hn Ha IH]; intros Ht; [apply Ht; exact Eu|]. apply IH; auto. intros j Hj. destruct t as [|b|q|x]; try discriminate. cbn [base_of] in Hj. destruct (Nx x (Ht x eq_refl)) as (d1 & Hd1 & _ & F). rewrite Hd1 in Hj. exact (F j Hj). }
      destruct (Nx i Ei) as (d1 & Hd1 & Lf & _). assert (d1 = DC c) as -> by congruence. exact (Lf m Hb).
  Qed.
  Theorem documents_parse : exists st parsed, parse_rds ord l = Ok (st, parsed).
  Proof.
    destruct (parse_rds ord l) as [[st parsed]| |] eqn:E; [eauto|destruct (no_error E)|]. exfalso. unfold parse_rds in E. fold (initial l) in E. rewrite (surjective_pairing (initial l)) in E.
    refine (no_panic l [] 1 _ _ eq_refl (initial_inv l) _ _ E); [|reflexivity]. intros i (r & n & d & [] & _).
  Qed.
End Parses.

Section Documents.
  Variables (public : xname -> string) (fa : option (attribute -> bool)) (fe : option (element -> bool)) (ft : option (xname -> bool)) (allow : option (list xname)) (helpers : list Z) (slices : bool).
  Variables (h : xname -> nat) (l : list rd) (namespaces targets ns : list string).
  Hypothesis Hn : forall b, non_trivial b = true -> memb b helpers = true.
  Hypothesis Hfa : forall a t, filtered fa (retype_at a t) = filtered fa a.
  Hypothesis D : documents h l.
  Hypothesis Hh : forall n, h n <= N.to_nat 1000.
  Hypothesis Im : imports_first l.
  Hypothesis Ens : namespaces = [] /\ ns = targets \/ namespaces <> [] /\ ns = namespaces.
  Hypothesis Nn : NoDup ns.
  Hypothesis Hns : forall s, In s ns -> exists r, In r l /\ rd_tns r = s.
  Lemma used_is : used_namespaces namespaces targets = ns.
  Proof. unfold used_namespaces. destruct Ens as [[E1 E2]|[E1 E2]]; [rewrite E1; auto|]. rewrite E2. destruct namespaces; [contradiction|reflexivity]. Qed.
  Lemma ns_incl : incl ns (map rd_tns l).
  Proof. intros s Hs. destruct (Hns s Hs) as (r & Hr & <-). apply in_map. exact Hr. Qed.
  Theorem code_of_documents (ord : nat -> list (xname * ty) -> list (xname * ty)) (ord' : string -> list (xname * ty) -> list (xname * ty)) : any_order ord -> (forall s m, Permutation m (ord' s m)) ->
    exists c, gen_code public fa fe ft allow helpers slices ord ord' namespaces targets l = Ret (Coded c) /\ closed_code (co_decls c) /\
      (forall r n d, In r l -> In (rd_tns r) ns -> In (n, d) (rd_types r) -> picked ft allow n -> own_declaration fa l d -> In (public n) (map fst (co_decls c))) /\
      (forall x, In x (map fst (co_decls c)) -> (exists n d, generated ft allow ns l n /\ declares l n d /\ x = public n) \/ exists b, non_trivial b = true /\ x = helper_name b).
  Proof.
    intros O O'. destruct (documents_parse h l D Im ord O) as (st & parsed & E). pose proof used_is as U. pose proof ns_incl as I. pose proof Nn as N. rewrite <- U in I, N.
    pose proof (pipe_code h l D ord O st parsed E Hh ord' namespaces targets O' N I public fa fe ft allow helpers slices Hn Hfa) as P. rewrite U in P. exact P.
  Qed.
  Theorem order_of_documents (ord ord2 : nat -> list (xname * ty) -> list (xname * ty)) (ord' ord2' : string -> list (xname * ty) -> list (xname * ty)) :
    orderly public fa ft allow ns l -> any_order ord -> any_order ord2 -> (forall s m, Permutation m (ord' s m)) -> (forall s m, Permutation m (ord2' s m)) ->
    exists c c', gen_code public fa fe ft allow helpers slices ord ord' namespaces targets l = Ret (Coded c) /\ gen_code public fa fe ft allow helpers slices ord2 ord2' namespaces targets l = Ret (Coded c') /\
      forall sort sort', sorts_strings sort -> sorts_strings sort' -> gen_ast sort' (co_decls c') = gen_ast sort (co_decls c).
  Proof.
    intros Od O O2 O' O2'. destruct (documents_parse h l D Im ord O) as (st & parsed & E). pose proof used_is as U. pose proof ns_incl as I. pose proof Nn as N. rewrite <- U in I, N, Od.
    exact (pipe_order h l D ord O st parsed E Hh ord' namespaces targets O' N I public fa fe ft allow helpers slices Hn Hfa Od ord2 ord2' O2 O2').
  Qed.
End Documents.
