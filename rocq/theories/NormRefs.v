(* flattenRef on memory: every reference is replaced by what it refers to. *)
From Verif Require Import Base GraphModel GraphSpec GraphProofs ScopeModel TreeModel TreeSpec TreeProofs BuiltinModel XsdModel XsdProofs NormModel NormMem NormOps NormPath NormSpec NormUnpack NormUnpackAll NormRefSpec NormRefAttr NormIndex.
From Coq Require Import Sorted.
Local Open Scope string_scope.

Lemma target_fun es k t d t' d' : target_at es k t d -> target_at es k t' d' -> t = t' /\ d = d'.
Proof.
  intros (A1 & A2) (B1 & B2). destruct (Nat.lt_trichotomy t t') as [H|[H|H]]; [exfalso; exact (A2 _ _ H B1)|subst; split; congruence|exfalso; exact (B2 _ _ H A1)].
Qed.
Lemma rep_kid_at h e x j y : rep h e x -> nth_error (kids h x) j = Some y -> exists k, nth_error (e_children e) j = Some k /\ rep h k y.
Proof.
  intros R E. pose proof R as R'. apply rep_eq in R'. destruct R' as (_ & _ & _ & _ & K & B). assert (j < List.length (e_children e)) by (rewrite (Forall2_len _ _ _ B); apply nth_error_Some; congruence).
  destruct (nth_error (e_children e) j) as [k|] eqn:Ek; [|apply nth_error_None in Ek; lia]. exists k. split; auto. destruct (rep_kid h e x j k R Ek) as (y' & E' & R' & _). congruence.
Qed.
Lemma has_ref_dec e : {has_ref e} + {~ has_ref e}.
Proof. unfold has_ref. destruct (string_dec (attr e "" "ref") ""); [right|left]; congruence. Qed.

Lemma mapo_nth {A B} (f : A -> option B) : forall l l' i a, mapo f l = Some l' -> nth_error l i = Some a -> exists b, f a = Some b /\ nth_error l' i = Some b.
Proof.
  induction l as [|x l IH]; intros l' [|i] a E Hi; cbn [mapo nth_error] in *; try discriminate; destruct (f x) as [b|] eqn:Ef; try discriminate; destruct (mapo f l) as [r|]; try discriminate; injection E as <-.
  - injection Hi as ->. exists b. auto.
  - cbn [nth_error]. apply (IH r); auto.
Qed.
Lemma mapo_some {A B} (f : A -> option B) l : (forall a, In a l -> f a <> None) -> exists l', mapo f l = Some l' /\ List.length l' = List.length l.
Proof.
  induction l as [|a l IH]; intros H; cbn [mapo]; [exists []; auto|]. destruct (f a) as [b|] eqn:E; [|exfalso; exact (H a (or_introl eq_refl) E)].
  destruct IH as (r & -> & Hr); [intros x Hx; apply H; right; auto|]. exists (b :: r). cbn [List.length]. auto.
Qed.
Lemma dep_edges_in : forall ds i0 t d, In (t, d) (dep_edges i0 ds) <-> exists i j, nth_error ds i = Some (Some j) /\ t = Z.of_nat (i0 + i) /\ d = Z.of_nat j.
Proof.
  assert (Sh : forall (a : option nat) ds i0 t d, (exists i j, nth_error ds i = Some (Some j) /\ t = Z.of_nat (S i0 + i) /\ d = Z.of_nat j) <-> (exists i j, i <> 0 /\ nth_error (a :: ds) i = Some (Some j) /\ t = Z.of_nat (i0 + i) /\ d = Z.of_nat j)).
  { intros a ds i0 t d. split.
    - intros (i & j & E & -> & ->). exists (S i), j. split; [lia|]. split; [exact E|]. split; auto. f_equal. lia.
    - intros ([|i] & j & N & E & -> & ->); [lia|]. exists i, j. split; [exact E|]. split; auto. f_equal. lia. }
  induction ds as [|[j|] ds IH]; intros i0 t d; cbn [dep_edges].
  - split; [intros []|]. intros (i & j & E & _). destruct i; discriminate.
  - cbn [In]. rewrite IH, (Sh (Some j)). split.
    + intros [E|(i & j' & _ & E)]; [|eauto]. injection E as <- <-. exists 0, j. rewrite Nat.add_0_r. auto.
    + intros ([|i] & j' & E & -> & ->); [|right; exists (S i), j'; auto]. cbn [nth_error] in E. injection E as ->. rewrite Nat.add_0_r. auto.
  - rewrite IH, (Sh None). split; [intros (i & j' & _ & E); eauto|]. intros ([|i] & j' & E & R); [discriminate|]. exists (S i), j'. auto.
Qed.

Lemma e_children_with e ks : e_children (with_children e ks) = ks.
Proof. destruct e. reflexivity. Qed.

Section Refs.
  Variables (grow agrow : nat -> nat -> nat) (h : heap) (roots : list ptr) (es : list elem) (m : list (key * nat)).
  Notation els := (all_below h roots es).
  Hypothesis Hs : Forall2 (shows h) roots es.
  Hypothesis Ix : indexed h (entries es) (els, m).
  Hypothesis Ht : timely es.
  Hypothesis Hc : clear_refs es.
  Hypothesis Hr : forall ke e, In (ke, e) (entries es) -> has_ref e -> exists t d, target_at es (ref_key e) t d.

  Lemma els_length : List.length els = List.length (entries es).
  Proof using Ix. clear -Ix. exact (Forall2_len _ _ _ (proj1 Ix)). Qed.
  Lemma els_cell i q ke e : nth_error els i = Some q -> nth_error (entries es) i = Some (ke, e) -> cell h q e.
  Proof using Ix. clear -Ix. intros E1 E2. destruct Ix as (B & _). cbn [fst] in B. apply Forall2_paired in B. destruct B as (_ & B). apply (B q (ke, e)). exists i. auto. Qed.
  Lemma els_at i ke e : nth_error (entries es) i = Some (ke, e) -> exists q y, nth_error els i = Some q /\ load h q = Some y /\ rep h e y.
  Proof using Ix. clear -Ix.
    intros E. assert (i < List.length els) by (rewrite els_length; apply nth_error_Some; congruence). destruct (nth_error els i) as [q|] eqn:Eq; [|apply nth_error_None in Eq; lia].
    destruct (els_cell i q ke e Eq E) as (y & L & R). eauto.
  Qed.
  Lemma els_entry i q : nth_error els i = Some q -> exists ke e y, nth_error (entries es) i = Some (ke, e) /\ load h q = Some y /\ rep h e y.
  Proof using Ix. clear -Ix.
    intros E. assert (i < List.length (entries es)) by (rewrite <- els_length; apply nth_error_Some; congruence). destruct (nth_error (entries es) i) as [[ke e]|] eqn:Ee; [|apply nth_error_None in Ee; lia].
    destruct (els_cell i q ke e E Ee) as (y & L & R). eauto 6.
  Qed.
  Lemma els_kids i q ke e y j : nth_error els i = Some q -> nth_error (entries es) i = Some (ke, e) -> load h q = Some y -> j < n_len y ->
    exists i', i < i' < i + List.length (subs e) /\ nth_error els i' = Some (n_arr y, j).
  Proof.
    intros E1 E2 L Hj. destruct (all_below_laid_out h roots es Hs) as (_ & F). apply (F i q e y j); auto. rewrite nth_error_map, E2. reflexivity.
  Qed.
  Lemma els_closed q y j : In q els -> load h q = Some y -> j < n_len y -> In (n_arr y, j) els.
  Proof.
    intros Hq L Hj. apply In_nth_error in Hq. destruct Hq as (i & E). destruct (els_entry i q E) as (ke & e & y' & Ee & _). destruct (els_kids i q ke e y j E Ee L Hj) as (i' & _ & E'). eapply nth_error_In; eauto.
  Qed.

  Record replaced (H : heap) (done : list ptr) (q : ptr) (e d : elem) (yd z : node) (l : list node) : Prop := mkReplaced {
    rp_old : exists y, load h q = Some y /\ rep h e y; rp_ref : has_ref e;
    rp_target : exists t qd, target_at es (ref_key e) t d /\ nth_error els t = Some qd /\ load h qd = Some yd; rp_def : rep h d yd;
    rp_new : load H q = Some z; rp_name : n_name z = e_name d; rp_scope : n_scope z = e_scope (merged e d); rp_content : n_content z = e_content d;
    rp_at : List.length h <= n_at z; rp_attrs : attrs_ok H z (merged_attrs e d);
    rp_arr : List.length h <= n_arr z; rp_cells : nth_error H (n_arr z) = Some (Els l); rp_len : n_len z = n_len yd; rp_cap : n_len z <= List.length l;
    rp_kids : firstn (n_len z) l = kids H yd;
    rp_ready : forall j k, nth_error (e_children d) j = Some k -> has_ref k -> In (n_arr yd, j) done }.
  Record settling (H : heap) (done : list ptr) : Prop := mkSettling {
    se_len : List.length h <= List.length H;
    se_ats : forall a l, nth_error h a = Some (Ats l) -> nth_error H a = Some (Ats l);
    se_els : forall a l, nth_error h a = Some (Els l) -> exists l', nth_error H a = Some (Els l') /\ List.length l' = List.length l;
    se_same : forall q y, load h q = Some y -> ~ In q done -> load H q = Some y;
    se_in : forall q, In q done -> In q els;
    se_done : forall q, In q done -> exists e d yd z l, replaced H done q e d yd z l }.
  Lemma settling_start : settling h [].
  Proof. constructor; auto; [intros a l E; eauto|intros q []|intros q []]. Qed.
  Lemma done_ref H done q e y : settling H done -> In q done -> load h q = Some y -> rep h e y -> has_ref e.
  Proof. intros Se Hd L R. destruct (se_done _ _ Se q Hd) as (e' & d & yd & z & l & Rp). destruct (rp_old _ _ _ _ _ _ _ _ Rp) as (y' & L' & R'). assert (y' = y) by congruence. subst y'. rewrite (rep_fun h e e' y R R'). exact (rp_ref _ _ _ _ _ _ _ _ Rp). Qed.
  Lemma settling_kids_ok H done y : settling H done -> kids_ok h y -> kids_ok H y.
  Proof. intros Se (l & E & L). destruct (se_els _ _ Se _ _ E) as (l' & E' & L'). exists l'. split; auto. lia. Qed.

  Lemma step H done i q ke e y : settling H done -> nth_error els i = Some q -> nth_error (entries es) i = Some (ke, e) -> load h q = Some y -> rep h e y ->
    (has_ref e -> forall i' q' ke' e', i' < i -> nth_error els i' = Some q' -> nth_error (entries es) i' = Some (ke', e') -> has_ref e' -> In q' done) ->
    exists H' done', deref_one grow agrow els m H (Z.of_nat i) = Some H' /\ settling H' done' /\ (forall q', In q' done -> In q' done') /\ (has_ref e -> In q done').
  Proof.
    intros Se Eq Ee L R Prev. unfold deref_one. rewrite Nat2Z.id, Eq.
    destruct (in_dec ptr_eq_dec q done) as [Hd|Hd].
    - (* already replaced *)
      destruct (se_done _ _ Se q Hd) as (e' & d & yd & z & l & Rp). rewrite (rp_new _ _ _ _ _ _ _ _ Rp).
      destruct (rp_old _ _ _ _ _ _ _ _ Rp) as (y' & L' & R'). assert (y' = y) by congruence. subst y'. assert (e' = e) by (eapply rep_fun; eauto). subst e'.
      destruct (rp_target _ _ _ _ _ _ _ _ Rp) as (t & qd & T & _). pose proof (rp_ref _ _ _ _ _ _ _ _ Rp) as Hre.
      assert (Nr : ~ has_ref (merged e d)). { destruct Hc as (C1 & C2). apply merged_no_ref; [apply (C2 ke e t d); auto; eapply nth_error_In; eauto| |apply (Ht i ke e t d); auto]. intros a Ha. apply (C1 ke e a); auto. eapply nth_error_In; eauto. }
      assert (E0 : ref_of H z = ""). { unfold ref_of, nattr. rewrite (attrs_ok_eq _ _ _ (rp_attrs _ _ _ _ _ _ _ _ Rp)). destruct (string_dec (attr_get (merged_attrs e d) "" "ref") ""); auto. exfalso. apply Nr. exact n. }
      rewrite E0. cbn [String.eqb]. exists H, done. split; [reflexivity|]. auto.
    - rewrite (se_same _ _ Se q y L Hd). assert (Ea : n_attrs H y = e_attrs e).
      { pose proof R as R'. apply rep_eq in R'. destruct R' as (_ & _ & _ & (la & A1 & A2 & A3) & _). apply attrs_ok_eq. exists la. split; auto. apply (se_ats _ _ Se). auto. }
      assert (Er : ref_of H y = attr e "" "ref") by (unfold ref_of, nattr, attr; rewrite Ea; reflexivity). rewrite Er.
      destruct (has_ref_dec e) as [Hre|Hre]. 2: { assert (E0 : attr e "" "ref" = "") by (destruct (string_dec (attr e "" "ref") ""); auto; exfalso; apply Hre; exact n). rewrite E0. cbn [String.eqb]. exists H, done. split; [reflexivity|]. split; auto. split; auto. intros X. contradiction. }
      assert (E0 : String.eqb (attr e "" "ref") "" = false) by (apply String.eqb_neq; exact Hre). rewrite E0.
      pose proof R as R'. apply rep_eq in R'. destruct R' as (Rn & Rs & _). rewrite Rs, Rn. change (resolve (e_scope e) (attr e "" "ref"), e_name e) with (ref_key e).
      destruct (Hr ke e (nth_error_In _ _ Ee) Hre) as (t & d & T). assert (Ek : key_get (ref_key e) m = Some t) by (apply Ix; exists d; exact T). rewrite Ek.
      destruct (els_at t _ d (proj1 T)) as (qd & yd & Eqd & Ld & Rd). rewrite Eqd. destruct (Ht i ke e t d Ee Hre T) as (Nd & Hord).
      assert (Hqd : ~ In qd done) by (intros X; apply Nd; eapply done_ref; eauto). rewrite (se_same _ _ Se qd yd Ld Hqd).
      assert (Ead : n_attrs H yd = e_attrs d). { pose proof Rd as R'. apply rep_eq in R'. destruct R' as (_ & _ & _ & (la & A1 & A2 & A3) & _). apply attrs_ok_eq. exists la. split; auto. apply (se_ats _ _ Se). auto. }
      (* the references among the definition's children are done *)
      assert (Rdy : forall j k, nth_error (e_children d) j = Some k -> has_ref k -> In (n_arr yd, j) done).
      { intros j k Ej Hk. destruct Hord as [Ho|Ho]; [exfalso; exact (Ho k (nth_error_In _ _ Ej) Hk)|].
        destruct (rep_kid h d yd j k Rd Ej) as (yk & Eyk & Ryk & Lyk & Hj). destruct (els_kids t qd _ d yd j Eqd (proj1 T) Ld Hj) as (i' & Hi' & Ei'). destruct (els_entry i' _ Ei') as (ke' & e' & y' & Ee' & L' & R').
        assert (y' = yk) by congruence. subst y'. assert (e' = k) by (eapply rep_fun; eauto). subst e'. apply (Prev Hre i' _ ke' k); auto. lia. }
      unfold deref_node. set (ksd := kids H yd). unfold alloc, alloc_ats.
      set (A := (ksd ++ repeat zero_node _)%list). set (H1 := (H ++ [Els A])%list).
      assert (EH1 : forall z, n_attrs H1 z = n_attrs H z \/ List.length H <= n_at z).
      { intros z. destruct (Nat.lt_ge_cases (n_at z) (List.length H)) as [X|X]; auto. left. unfold n_attrs, ats, H1. rewrite nth_error_app1; auto. }
      assert (Bd : n_at yd < List.length h). { pose proof Rd as R'. apply rep_eq in R'. destruct R' as (_ & _ & _ & (la & A1 & _) & _). apply nth_error_Some. congruence. }
      assert (By : n_at y < List.length h). { pose proof R as R'. apply rep_eq in R'. destruct R' as (_ & _ & _ & (la & A1 & _) & _). apply nth_error_Some. congruence. }
      pose proof (se_len _ _ Se) as Hlen.
      assert (Ead1 : n_attrs H1 yd = e_attrs d) by (destruct (EH1 yd) as [->|X]; auto; lia).
      assert (Ea1 : n_attrs H1 y = e_attrs e) by (destruct (EH1 y) as [->|X]; auto; lia).
      rewrite Ead1, Ea1. pose proof Rd as Rd'. apply rep_eq in Rd'. destruct Rd' as (Rdn & Rds & Rdc & _ & Kd & Bdk). rewrite Rs, Rds, Rdn, Rdc.
      rewrite (override_merged e d) by (apply (proj2 Hc ke e t d); auto; eapply nth_error_In; eauto).
      set (Q := (merged_attrs e d ++ repeat zero_attr _)%list). set (H2 := (H1 ++ [Ats Q])%list).
      assert (KdH : kids_ok H yd) by (eapply settling_kids_ok; eauto).
      assert (Lk : List.length ksd = n_len yd) by (apply kids_length; auto).
      assert (Esc : match ksd with [] => e_scope e | _ :: _ => join_scope (e_scope d) (e_scope e) end = e_scope (merged e d)).
      { cbn [merged e_scope]. assert (Ll : List.length ksd = List.length (e_children d)) by (rewrite Lk; apply (rep_len h); auto). destruct ksd, (e_children d); try discriminate Ll; auto. }
      rewrite Esc. set (z := mkNode (e_name d) (List.length H1) (List.length (merged_attrs e d)) (e_scope (merged e d)) (e_content d) (List.length H) (List.length ksd)).
      assert (LH1 : List.length H1 = S (List.length H)) by (unfold H1; rewrite app_length; cbn [List.length]; lia).
      pose proof (se_same _ _ Se q y L Hd) as LqH. pose proof (load_bound _ _ _ L) as Bq.
      assert (Old : forall a, a < List.length H -> nth_error H2 a = nth_error H a) by (intros a Ha; unfold H2, H1; rewrite !nth_error_app1; auto; rewrite app_length; lia).
      assert (Lq2 : load H2 q = Some y) by (unfold load, cells; rewrite Old by (pose proof (load_bound _ _ _ LqH); lia); exact LqH).
      pose proof (put_same_but H2 q y z Lq2) as (_ & S2 & l1 & l2 & S3 & S4 & S5 & S6). set (H3 := put H2 q z) in *.
      assert (Lq3 : load H3 q = Some z) by (eapply load_put; eauto).
      assert (Oth : forall q' w, q' <> q -> load H q' = Some w -> load H3 q' = Some w).
      { intros q' w Hn Lw. assert (L2 : load H2 q' = Some w) by (unfold load, cells; rewrite Old by (eapply load_bound; eauto); exact Lw). unfold load, cells in *.
        destruct (Nat.eq_dec (fst q') (fst q)) as [E|E]; [|unfold H3; rewrite put_other by auto; exact L2]. rewrite E in *. rewrite S4. rewrite S3 in L2. rewrite S6; auto. intros X. apply Hn. destruct q, q'; cbn in *; congruence. }
      assert (Arr : forall a, a <> fst q -> a < List.length H -> nth_error H3 a = nth_error H a) by (intros a Hn Ha; unfold H3; rewrite put_other by auto; apply Old; auto).
      assert (EA : nth_error H3 (List.length H) = Some (Els A)).
      { unfold H3. rewrite put_other by lia. unfold H2. rewrite nth_error_app1 by lia. unfold H1. rewrite nth_error_app2, Nat.sub_diag by lia. reflexivity. }
      assert (EQ : nth_error H3 (List.length H1) = Some (Ats Q)).
      { unfold H3. rewrite put_other by lia. unfold H2. rewrite nth_error_app2, Nat.sub_diag by lia. reflexivity. }
      assert (Els3 : forall a l, nth_error h a = Some (Els l) -> exists l', nth_error H3 a = Some (Els l') /\ List.length l' = List.length l).
      { intros a l E. assert (Ha : a < List.length h) by (apply nth_error_Some; congruence). destruct (se_els _ _ Se a l E) as (l' & E' & Hl). destruct (Nat.eq_dec a (fst q)) as [->|Hn].
        - exists l2. split; auto. rewrite Old in S3 by lia. assert (l1 = l') by congruence. subst. lia.
        - exists l'. split; auto. rewrite Arr; auto. lia. }
      (* the children of a definition, none of which is q *)
      assert (Kids3 : forall w dw, rep h dw w -> (forall j k, nth_error (e_children dw) j = Some k -> has_ref k -> In (n_arr w, j) done) -> kids H3 w = kids H w).
      { intros w dw Rw Rdw. pose proof Rw as R'. apply rep_eq in R'. destruct R' as (_ & _ & _ & _ & Kw & _). assert (KwH : kids_ok H w) by (eapply settling_kids_ok; eauto).
        apply kids_eq; auto. { destruct Kw as (l & E & Hl). destruct (Els3 _ _ E) as (l' & E' & Hl'). exists l'. split; auto. lia. }
        intros j c Ej. pose proof (kids_at H w j c KwH Ej) as Lc. apply Oth; auto. intros Eqj. apply Hd. rewrite <- Eqj. assert (Hj : j < n_len w) by (rewrite <- (kids_length H w KwH); apply nth_error_Some; congruence).
        rewrite (rep_len h dw w Rw) in Hj. destruct (nth_error (e_children dw) j) as [k|] eqn:Ek2; [|apply nth_error_None in Ek2; lia]. apply (Rdw j k); auto.
        destruct (rep_kid h dw w j k Rw Ek2) as (yk & _ & Rk & Lyk & _). rewrite Eqj in Lyk. assert (yk = y) by congruence. subst yk. rewrite (rep_fun h k e y Rk R). auto. }
      exists H3, (q :: done). split; [reflexivity|]. split; [|split; [intros q' X; right; auto|intros _; left; auto]]. constructor.
      + unfold H3. rewrite put_length. unfold H2. rewrite app_length. lia.
      + intros a l E. assert (Ha : a < List.length h) by (apply nth_error_Some; congruence). rewrite Arr; [apply (se_ats _ _ Se); auto| |lia]. intros ->. destruct (load_array _ _ _ L) as (l' & E' & _). congruence.
      + exact Els3.
      + intros q' y' L' Hn. apply Oth; [intros ->; apply Hn; left; auto|]. apply (se_same _ _ Se); auto. intros X. apply Hn. right. auto.
      + intros q' [<-|X]; [eapply nth_error_In; eauto|apply (se_in _ _ Se); auto].
      + intros q' [<-|X].
        * exists e, d, yd, z, A. constructor; auto; try reflexivity.
          -- exists y. auto.
          -- exists t, qd. auto.
          -- cbn [n_at z]. lia.
          -- exists Q. cbn [n_at n_alen z]. split; [exact EQ|]. split; [unfold Q; rewrite app_length; lia|]. unfold Q. rewrite firstn_app, Nat.sub_diag, firstn_O, app_nil_r. apply firstn_all.
          -- cbn [n_len z]. unfold A. rewrite app_length. lia.
          -- cbn [n_len z]. rewrite (Kids3 yd d Rd Rdy). unfold A. rewrite firstn_app, Nat.sub_diag, firstn_O, app_nil_r. apply firstn_all.
          -- intros j k E1 E2. right. eauto.
        * destruct (se_done _ _ Se q' X) as (e' & d' & yd' & z' & l' & [P1 P2 P3 P4 P5 P6 P7 P8 P9 P10 P11 P12 P13 P14 P15 P16]).
          assert (Hn : q' <> q) by (intros ->; contradiction). exists e', d', yd', z', l'. constructor; auto.
          -- destruct P10 as (la & B1 & B2 & B3). exists la. split; auto. rewrite Arr; auto; [lia|]. apply nth_error_Some. congruence.
          -- rewrite Arr; auto; [lia|]. apply nth_error_Some. congruence.
          -- rewrite (Kids3 yd' d'); auto.
          -- intros j k E1 E2. right. eauto.
  Qed.

  (* ---------- the order, and all steps ---------- *)
  Definition refers (i : nat) : Prop := exists ke e, nth_error (entries es) i = Some (ke, e) /\ has_ref e.
  Lemma deps : exists ds, mapo (dep_of h m) els = Some ds /\ List.length ds = List.length els /\
    forall i ke e, nth_error (entries es) i = Some (ke, e) -> (has_ref e -> exists t d, target_at es (ref_key e) t d /\ nth_error ds i = Some (Some t)) /\ (~ has_ref e -> nth_error ds i = Some None).
  Proof.
    assert (D : forall i q ke e, nth_error els i = Some q -> nth_error (entries es) i = Some (ke, e) ->
      (has_ref e -> exists t d, target_at es (ref_key e) t d /\ dep_of h m q = Some (Some t)) /\ (~ has_ref e -> dep_of h m q = Some None)).
    { intros i q ke e E1 E2. destruct (els_cell i q ke e E1 E2) as (y & L & R). unfold dep_of. rewrite L. unfold ref_of. rewrite (rep_attr h e y _ R). split.
      - intros Hre. assert (E0 : String.eqb (attr e "" "ref") "" = false) by (apply String.eqb_neq; exact Hre). rewrite E0. pose proof R as R'. apply rep_eq in R'. destruct R' as (Rn & Rs & _). rewrite Rs, Rn.
        change (resolve (e_scope e) (attr e "" "ref"), e_name e) with (ref_key e). destruct (Hr ke e (nth_error_In _ _ E2) Hre) as (t & d & T). exists t, d. split; auto.
        assert (Ek : key_get (ref_key e) m = Some t) by (apply Ix; exists d; exact T). rewrite Ek. reflexivity.
      - intros Hn. destruct (String.eqb (attr e "" "ref") "") eqn:E0; [reflexivity|]. apply String.eqb_neq in E0. contradiction. }
    destruct (mapo_some (dep_of h m) els) as (ds & E & Hl).
    { intros q Hq. apply In_nth_error in Hq. destruct Hq as (i & Eq). destruct (els_entry i q Eq) as (ke & e & y & Ee & _). destruct (D i q ke e Eq Ee) as (D1 & D2). destruct (has_ref_dec e) as [X|X]; [destruct (D1 X) as (t & d & _ & ->)|rewrite (D2 X)]; discriminate. }
    exists ds. split; auto. split; auto. intros i ke e Ee. destruct (els_at i ke e Ee) as (q & y & Eq & _). destruct (D i q ke e Eq Ee) as (D1 & D2). destruct (mapo_nth _ _ _ _ _ E Eq) as (b & Eb & Hb). split.
    - intros X. destruct (D1 X) as (t & d & T & E3). exists t, d. split; auto. congruence.
    - intros X. rewrite (D2 X) in Eb. congruence.
  Qed.

  Lemma steps (refb : Z -> bool) (Hb : forall i, refb (Z.of_nat i) = true <-> refers i) : forall o2 o1 H done,
    StronglySorted Z.lt (filter refb (o1 ++ o2)) -> (forall i, refers i -> In (Z.of_nat i) (o1 ++ o2)%list) -> (forall v, In v o2 -> exists i, v = Z.of_nat i /\ i < List.length els) ->
    settling H done -> (forall i q, refers i -> In (Z.of_nat i) o1 -> nth_error els i = Some q -> In q done) ->
    exists H' done', foldo (deref_one grow agrow els m) H o2 = Some H' /\ settling H' done' /\ (forall i q, refers i -> nth_error els i = Some q -> In q done').
  Proof.
    induction o2 as [|v o2 IH]; intros o1 H done So All Rng Se Pr; cbn [foldo].
    - exists H, done. split; [reflexivity|]. split; auto. intros i q Hi Eq. apply (Pr i); auto. rewrite app_nil_r in All. auto.
    - destruct (Rng v (or_introl eq_refl)) as (i & -> & Hi). destruct (nth_error els i) as [q|] eqn:Eq; [|apply nth_error_None in Eq; lia]. destruct (els_entry i q Eq) as (ke & e & y & Ee & L & R).
      destruct (step H done i q ke e y Se Eq Ee L R) as (H' & done' & E & Se' & Inc & Dn).
      { intros Hre0 i' q' ke' e' Hlt Eq' Ee' Hre. apply (Pr i'); auto; [exists ke', e'; auto|].
        assert (Ri' : refers i') by (exists ke', e'; auto). assert (Ri : refers i) by (exists ke, e; auto). pose proof (All i' Ri') as X. apply in_app_or in X. destruct X as [X|[X|X]]; auto; [lia|].
        exfalso. rewrite filter_app in So. cbn [filter] in So. rewrite (proj2 (Hb i) Ri) in So.
        assert (Y : StronglySorted Z.lt (Z.of_nat i :: filter refb o2)). { clear -So. induction (filter refb o1) as [|a l IHl]; auto. cbn [app] in So. inversion So; auto. }
        inversion Y as [|? ? _ F]; subst. rewrite Forall_forall in F. specialize (F (Z.of_nat i')). assert (Z.of_nat i < Z.of_nat i')%Z by (apply F; apply filter_In; split; auto; apply Hb; auto). lia. }
      rewrite E. destruct (IH (o1 ++ [Z.of_nat i])%list H' done') as (H2 & d2 & F1 & F2 & F3); auto.
      + rewrite <- app_assoc. exact So.
      + intros i' Hi'. rewrite <- app_assoc. apply All. auto.
      + intros v Hv. apply Rng. right. auto.
      + intros i' q' Hi' Hin Eq'. apply in_app_or in Hin. destruct Hin as [Hin|[Hin|[]]]; [apply Inc; apply (Pr i'); auto|]. assert (i' = i) by lia. subst i'. assert (q' = q) by congruence. subst q'. apply Dn. destruct Hi' as (ke' & e' & E1 & E2). congruence.
      + exists H2, d2. auto.
  Qed.

  Lemma replaced_all : exists ds order H done, mapo (dep_of h m) els = Some ds /\ flatten (build (dep_edges 0 ds)) = Some order /\ foldo (deref_one grow agrow els m) h order = Some H /\
    settling H done /\ (forall i q, refers i -> nth_error els i = Some q -> In q done).
  Proof.
    destruct deps as (ds & E & Hl & D). exists ds. set (Ed := dep_edges 0 ds).
    assert (Eg : forall t d, edge Ed t d -> exists i j ke e, t = Z.of_nat i /\ d = Z.of_nat j /\ i < List.length els /\ nth_error (entries es) i = Some (ke, e) /\ has_ref e /\ exists de, target_at es (ref_key e) j de).
    { intros t d X. apply dep_edges_in in X. destruct X as (i & j & X & -> & ->). assert (Hi : i < List.length els) by (rewrite <- Hl; apply nth_error_Some; congruence).
      pose proof Hi as Hi2. rewrite els_length in Hi2. destruct (nth_error (entries es) i) as [[ke e]|] eqn:Ee; [|apply nth_error_None in Ee; lia]. destruct (D i ke e Ee) as (D1 & D2).
      destruct (has_ref_dec e) as [Y|Y]; [|rewrite (D2 Y) in X; discriminate]. destruct (D1 Y) as (t & de & T & Et). assert (t = j) by congruence. subst t. exists i, j, ke, e. cbn [Nat.add]. eauto 8. }
    assert (Sr : forall i, sourceb Ed (Z.of_nat i) = true <-> refers i).
    { intros i. rewrite sourceb_iff. split.
      - intros (d & X). destruct (Eg _ _ X) as (i' & j & ke & e & E1 & _ & _ & E2 & Hre & _). assert (i' = i) by lia. subst i'. exists ke, e. auto.
      - intros (ke & e & E1 & Hre). destruct (D i ke e E1) as (D1 & _). destruct (D1 Hre) as (t & d & _ & Et). exists (Z.of_nat t). apply dep_edges_in. exists i, t. auto. }
    destruct (flatten_sources Ed) as (order & Fo & So & Al).
    { intros t d X d' X'. destruct (Eg _ _ X) as (i & j & ke & e & _ & -> & _ & E1 & Hre & (de & T)). destruct (Eg _ _ X') as (i' & j' & ke' & e' & E2 & _ & _ & E3 & Hre' & _). assert (i' = j) by lia. subst i'.
      destruct (Ht i ke e j de E1 Hre T) as (Nd & _). destruct T as (T & _). rewrite T in E3. injection E3 as _ <-. contradiction. }
    destruct (flatten_once Ed) as (tr & Fo' & _ & V). assert (tr = order) by congruence. subst tr.
    destruct (steps (sourceb Ed) Sr order [] h []) as (H & done & F1 & F2 & F3); auto.
    - intros i Hi. apply Al. apply sourceb_iff, Sr. auto.
    - intros v Hv. apply V in Hv. destruct Hv as (w & [X|X]); destruct (Eg _ _ X) as (i & j & ke & e & -> & -> & Hi & Ee & Hre & (de & T)).
      + exists i. auto.
      + exists j. split; auto. rewrite els_length. apply nth_error_Some. rewrite (proj1 T). discriminate.
    - exact settling_start.
    - exists order, H, done. auto.
  Qed.

  (* ---------- the trees at the end ---------- *)
  Section Final.
    Variables (H : heap) (done : list ptr).
    Hypothesis Se : settling H done.
    Hypothesis All : forall i q, refers i -> nth_error els i = Some q -> In q done.
    Definition inside (e : elem) (z : node) : Prop := forall p, In p (hits_kids everything H (n_arr z) (e_children e) (kids H z) 0) -> In p els \/ List.length h <= fst p.
    Definition final (q : ptr) (e : elem) : Prop := exists z, load H q = Some z /\ rep H e z /\ inside e z.

    Lemma final_kids yd ks : kids_ok h yd -> (forall j, j < n_len yd -> In (n_arr yd, j) els) -> List.length ks = n_len yd ->
      (forall j k', nth_error ks j = Some k' -> final (n_arr yd, j) k') -> Forall2 (rep H) ks (kids H yd) /\ forall j k' c, nth_error ks j = Some k' -> nth_error (kids H yd) j = Some c -> inside k' c.
    Proof.
      intros K Cl Hl F. pose proof (settling_kids_ok H done yd Se K) as KH. pose proof (kids_length H yd KH) as Lk.
      assert (G : forall j k' c, nth_error ks j = Some k' -> nth_error (kids H yd) j = Some c -> rep H k' c /\ inside k' c).
      { intros j k' c E1 E2. destruct (F j k' E1) as (z & L & R & I). rewrite (kids_at H yd j c KH E2) in L. injection L as <-. auto. }
      split; [|intros j k' c E1 E2; apply (G j); auto]. apply Forall2_paired. split; [lia|]. intros k' c (j & E1 & E2). apply (G j); auto.
    Qed.
    Lemma final_attrs e y : rep h e y -> attrs_ok H y (e_attrs e).
    Proof. intros R. apply rep_eq in R. destruct R as (_ & _ & _ & (la & A1 & A2 & A3) & _). exists la. split; auto. apply (se_ats _ _ Se). auto. Qed.
    Lemma final_inside e z : (forall j, j < List.length (kids H z) -> In (n_arr z, j) els \/ List.length h <= n_arr z) ->
      (forall j k' c, nth_error (e_children e) j = Some k' -> nth_error (kids H z) j = Some c -> inside k' c) -> inside e z.
    Proof.
      intros F1 F2 p Hp. apply hits_kids_in in Hp. destruct Hp as (j & k & c & E1 & E2 & Hp). cbn [Nat.add] in Hp. rewrite hits_eq in Hp. apply in_app_or in Hp. destruct Hp as [[<-|[]]|Hp].
      - cbn [fst]. apply F1. apply nth_error_Some. congruence.
      - exact (F2 j k c E1 E2 p Hp).
    Qed.

    Lemma finish : forall n k k' q, height k' <= n -> resolved es k k' -> In q els -> cell h q k -> final q k'.
    Proof.
      induction n as [|n IH]; intros k k' q Hn Rv Hq (y & L & R); [destruct k'; cbn [height] in Hn; lia|].
      assert (Kid : forall d ks yd qd, In qd els -> load h qd = Some yd -> rep h d yd -> Forall2 (resolved es) (e_children d) ks -> (forall k', In k' ks -> height k' <= n) ->
        Forall2 (rep H) ks (kids H yd) /\ forall j k' c, nth_error ks j = Some k' -> nth_error (kids H yd) j = Some c -> inside k' c).
      { intros d ks yd qd Hqd Ld Rd Bk Hh. pose proof Rd as R'. apply rep_eq in R'. destruct R' as (_ & _ & _ & _ & K & _). apply final_kids; auto.
        - intros j Hj. apply (els_closed qd yd); auto.
        - rewrite (rep_len h d yd Rd). symmetry. eapply Forall2_len; eauto.
        - intros j k2 Ej. apply Forall2_paired in Bk. destruct Bk as (Bl & Bk). assert (Hj : j < List.length (e_children d)) by (rewrite Bl; apply nth_error_Some; congruence).
          destruct (nth_error (e_children d) j) as [k1|] eqn:Ek; [|apply nth_error_None in Ek; lia]. destruct (rep_kid h d yd j k1 Rd Ek) as (yk & _ & Rk & Lk & Hj').
          apply (IH k1); [apply Hh; eapply nth_error_In; eauto|apply Bk; exists j; auto|apply (els_closed qd yd); auto|exists yk; auto]. }
      inversion Rv as [e ks Hre Bk E1 E2|e t d ks Hre T Bk E1 E2]; subst e; rewrite <- E2 in *.
      - assert (Hh : forall k', In k' ks -> height k' <= n) by (intros k1 Hk; pose proof (height_kid (with_children k ks) k1) as X; rewrite e_children_with in X; specialize (X Hk); lia).
        destruct (Kid k ks y q Hq L R Bk Hh) as (B & In'). assert (Nd : ~ In q done) by (intros X; apply Hre; eapply done_ref; eauto).
        exists y. split; [apply (se_same _ _ Se); auto|]. pose proof R as R'. apply rep_eq in R'. destruct R' as (R1 & R2 & R3 & _ & K & _). split.
        + apply rep_eq. destruct k as [n0 a0 s0 c0 ks0]. cbn [with_children e_name e_scope e_content e_attrs e_children] in *. repeat split; auto; [exact (final_attrs _ _ R)|eapply settling_kids_ok; eauto].
        + apply final_inside; [|rewrite e_children_with; exact In']. intros j Hj. left. apply (els_closed q y); auto. rewrite (kids_length H y (settling_kids_ok H done y Se K)) in Hj. exact Hj.
      - assert (Hh : forall k', In k' ks -> height k' <= n) by (intros k1 Hk; pose proof (height_kid (with_children (merged k d) ks) k1) as X; rewrite e_children_with in X; specialize (X Hk); lia).
        assert (Hd : In q done). { apply In_nth_error in Hq. destruct Hq as (i & Eq). apply (All i); auto. destruct (els_entry i q Eq) as (ke & e' & y' & Ee & L' & R'). assert (y' = y) by congruence. subst y'. rewrite (rep_fun h e' k y R' R) in Ee. exists ke, k. auto. }
        destruct (se_done _ _ Se q Hd) as (e' & d' & yd & z & l & Rp). destruct (rp_old _ _ _ _ _ _ _ _ Rp) as (y' & L' & R'). assert (y' = y) by congruence. subst y'. assert (e' = k) by (eapply rep_fun; eauto). subst e'.
        destruct (rp_target _ _ _ _ _ _ _ _ Rp) as (t' & qd & T' & Eqd & Ld). destruct (target_fun _ _ _ _ _ _ T T') as (-> & ->). pose proof (rp_def _ _ _ _ _ _ _ _ Rp) as Rd.
        destruct (Kid d' ks yd qd (nth_error_In _ _ Eqd) Ld Rd Bk Hh) as (B & In').
        assert (Ek : kids H z = kids H yd). { unfold kids at 1. unfold cells. rewrite (rp_cells _ _ _ _ _ _ _ _ Rp). exact (rp_kids _ _ _ _ _ _ _ _ Rp). }
        exists z. split; [exact (rp_new _ _ _ _ _ _ _ _ Rp)|]. split.
        + apply rep_eq. cbn [with_children merged e_name e_scope e_content e_attrs e_children]. rewrite Ek. repeat split; auto.
          * exact (rp_name _ _ _ _ _ _ _ _ Rp).
          * exact (rp_scope _ _ _ _ _ _ _ _ Rp).
          * exact (rp_content _ _ _ _ _ _ _ _ Rp).
          * exact (rp_attrs _ _ _ _ _ _ _ _ Rp).
          * exists l. split; [exact (rp_cells _ _ _ _ _ _ _ _ Rp)|exact (rp_cap _ _ _ _ _ _ _ _ Rp)].
        + apply final_inside.
          * intros j _. right. exact (rp_arr _ _ _ _ _ _ _ _ Rp).
          * rewrite Ek, e_children_with. exact In'.
    Qed.
  End Final.
End Refs.
