(* Trees as xmltree.Parse leaves them stand in memory of their own. *)
From Verif Require Import Base ScopeModel TreeModel TreeSpec TreeProofs BuiltinModel XsdModel XsdProofs NormModel NormMem NormOps NormSpec.
Local Open Scope string_scope.

Section Build.
  Variables cap_of acap_of : nat -> nat.
  Notation build_node := (build_node cap_of acap_of).
  Definition built (h h' : heap) (e : elem) (x : node) : Prop :=
    (exists ext, h' = (h ++ ext)%list) /\ rep h' e x /\ NoDup (foot h' e x) /\ forall a, In a (foot h' e x) -> List.length h <= a.
  Fixpoint build_list (l : list elem) (h : heap) : heap * list node :=
    match l with
    | [] => (h, [])
    | k :: l' => let (h, x) := build_node k h in let (h, r) := build_list l' h in (h, x :: r)
    end.
  Lemma build_node_eq n a s c ks h : build_node (Elem n a s c ks) h =
    let '(h, xs) := build_list ks h in let '(h, b) := alloc_ats h a (acap_of (List.length a)) in let '(h, d) := alloc h xs (cap_of (List.length xs)) in
    (h, mkNode n b (List.length a) s c d (List.length xs)).
  Proof. reflexivity. Qed.
  Lemma ext_frame (h ext : heap) a : a < List.length h -> nth_error (h ++ ext)%list a = nth_error h a.
  Proof. intros H. apply nth_error_app1. exact H. Qed.
  Lemma build_list_ok ks : (forall k, In k ks -> forall h, let (h', x) := build_node k h in built h h' k x) ->
    forall h, let (h', xs) := build_list ks h in
    (exists ext, h' = (h ++ ext)%list) /\ Forall2 (rep h') ks xs /\ NoDup (foots h' ks xs) /\ forall a, In a (foots h' ks xs) -> List.length h <= a.
  Proof.
    induction ks as [|k ks IH]; intros H h; cbn [build_list].
    - split; [exists []; rewrite app_nil_r; auto|]. split; [constructor|]. split; [constructor|intros a []].
    - pose proof (H k (or_introl eq_refl) h) as Hk. destruct (build_node k h) as [h1 x]. specialize (IH (fun k' Hk' => H k' (or_intror Hk')) h1).
      destruct (build_list ks h1) as [h2 xs]. destruct Hk as ((e1 & ->) & R1 & N1 & B1), IH as ((e2 & ->) & R2 & N2 & B2).
      assert (Fr : forall a, In a (foot (h ++ e1)%list k x) -> nth_error ((h ++ e1) ++ e2)%list a = nth_error (h ++ e1)%list a).
      { intros a Ha. apply ext_frame. eapply foot_bound; eauto. }
      destruct (rep_frame k _ _ x R1 Fr) as [R3 E3]. split; [exists (e1 ++ e2)%list; rewrite app_assoc; auto|]. split; [constructor; auto|]. cbn [foots]. rewrite E3. split.
      + apply nodup_app; auto. intros a Ha Hb. apply B2 in Hb. pose proof (foot_bound _ _ _ R1 a Ha). lia.
      + intros a Ha. apply in_app_or in Ha. destruct Ha as [Ha|Ha]; auto. apply B2 in Ha. rewrite app_length in Ha. lia.
  Qed.
  Lemma build_node_ok : forall e h, let (h', x) := build_node e h in built h h' e x.
  Proof.
    induction e as [n a s c ks IH] using elem_ind'. intros h. rewrite build_node_eq. pose proof (build_list_ok ks IH h) as Hl. destruct (build_list ks h) as [h1 xs].
    destruct Hl as ((e1 & E1) & R & N & B). unfold alloc_ats, alloc.
    set (A := (a ++ repeat zero_attr (acap_of (List.length a) - List.length a))%list). set (C := (xs ++ repeat zero_node (cap_of (List.length xs) - List.length xs))%list).
    rewrite app_length. cbn [List.length]. set (m := List.length h1). set (h' := ((h1 ++ [Ats A]) ++ [Els C])%list).
    set (x := mkNode n m (List.length a) s c (m + 1) (List.length xs)).
    assert (Fr : forall b, b < m -> nth_error h' b = nth_error h1 b). { intros b Hb. unfold h'. rewrite <- app_assoc. apply ext_frame. exact Hb. }
    assert (Ea : nth_error h' m = Some (Ats A)). { unfold h', m. rewrite <- app_assoc. rewrite nth_error_app2 by lia. rewrite Nat.sub_diag. reflexivity. }
    assert (Ec : nth_error h' (m + 1) = Some (Els C)). { unfold h', m. rewrite nth_error_app2 by (rewrite app_length; cbn; lia). rewrite app_length. cbn [List.length]. rewrite Nat.sub_diag. reflexivity. }
    destruct (reps_frame h1 h' ks xs R) as [R' E']; [intros b Hb; apply Fr; eapply foots_bound; eauto|].
    assert (Ek : kids h' x = xs). { unfold kids, cells. cbn [x n_arr n_len]. rewrite Ec. unfold C. rewrite firstn_app, Nat.sub_diag, firstn_O, app_nil_r. apply firstn_all. }
    assert (Bm : forall b, In b (foots h1 ks xs) -> b < m) by (intros b Hb; eapply foots_bound; eauto).
    split; [exists (e1 ++ [Ats A; Els C])%list; unfold h'; rewrite E1, <- !app_assoc; reflexivity|]. split; [|split].
    - apply rep_eq. cbn [e_name e_scope e_content e_attrs e_children x n_name n_scope n_content]. do 3 (split; [reflexivity|]). fold x. rewrite Ek. split; [|split; [|exact R']].
      + exists A. split; [exact Ea|]. split; [unfold A; rewrite app_length; apply Nat.le_add_r|]. cbn [x n_alen]. unfold A. rewrite firstn_app, Nat.sub_diag, firstn_O, app_nil_r. apply firstn_all.
      + exists C. split; [exact Ec|]. unfold C. rewrite app_length. apply Nat.le_add_r.
    - rewrite foot_eq, Ek. cbn [e_children]. rewrite E'. cbn [x n_at n_arr]. constructor; [|constructor; auto].
      + intros [H|H]; [lia|]. apply Bm in H. lia.
      + intros H. apply Bm in H. lia.
    - rewrite foot_eq, Ek. cbn [e_children]. rewrite E'. cbn [x n_at n_arr]. assert (List.length h <= m) by (unfold m; rewrite E1, app_length; lia).
      intros b [<- |[<- |Hb]]; [lia|lia|auto].
  Qed.
  Lemma build_roots_ok : forall es h, let (h', ps) := build_roots cap_of acap_of es h in
    (exists ext, h' = (h ++ ext)%list) /\ (forall p, In p ps -> List.length h <= fst p) /\ exists xs, Forall2 (fun p x => load h' p = Some x) ps xs /\ Forall2 (rep h') es xs /\ NoDup ps /\
      NoDup (foots h' es xs) /\ (forall p, In p ps -> ~ In (fst p) (foots h' es xs)) /\ forall a, In a (foots h' es xs) -> List.length h <= a.
  Proof.
    induction es as [|e es IH]; intros h; cbn [build_roots].
    - split; [exists []; rewrite app_nil_r; auto|]. split; [intros p []|]. exists []. do 4 (split; [constructor|]). split; [intros p []|intros a []].
    - unfold build_root. pose proof (build_node_ok e h) as Hb. destruct (build_node e h) as [h1 x]. destruct Hb as ((e1 & E1) & R & N & B). unfold alloc.
      set (C := ([x] ++ repeat zero_node (1 - List.length [x]))%list). set (h2 := (h1 ++ [Els C])%list). set (m := List.length h1). specialize (IH h2).
      destruct (build_roots cap_of acap_of es h2) as [h3 ps]. destruct IH as ((e3 & E3) & Bp & xs & I1 & I2 & I3 & I4 & I5 & I6).
      assert (L2 : List.length h2 = m + 1) by (unfold h2; rewrite app_length; reflexivity).
      assert (Fr : forall a, a < m -> nth_error h3 a = nth_error h1 a). { intros a Ha. rewrite E3, ext_frame by lia. unfold h2. apply ext_frame. exact Ha. }
      destruct (rep_frame e h1 h3 x R) as [R' E']; [intros a Ha; apply Fr; eapply foot_bound; eauto|].
      assert (Lx : load h3 (m, 0) = Some x). { unfold load, cells. cbn [fst snd]. rewrite E3, ext_frame by lia. unfold h2, m. rewrite nth_error_app2 by lia. rewrite Nat.sub_diag. reflexivity. }
      split; [exists (e1 ++ [Els C] ++ e3)%list; rewrite E3; unfold h2; rewrite E1, <- !app_assoc; reflexivity|].
      assert (Lm : List.length h <= m) by (unfold m; rewrite E1, app_length; lia).
      split; [intros p [<- |Hp]; [exact Lm|apply Bp in Hp; lia]|]. exists (x :: xs). split; [constructor; auto|]. split; [constructor; auto|]. cbn [foots]. rewrite E'.
      assert (Bf : forall a, In a (foot h1 e x) -> a < m) by (intros a Ha; eapply foot_bound; eauto).
      split; [constructor; auto; intros H; apply Bp in H; cbn [fst] in H; lia|]. split; [|split].
      + apply nodup_app; auto. intros a Ha Hb. apply Bf in Ha. apply I6 in Hb. lia.
      + intros p Hp Hf. apply in_app_or in Hf. destruct Hp as [<- |Hp]; cbn [fst] in *.
        * destruct Hf as [Hf|Hf]; [apply Bf in Hf; lia|apply I6 in Hf; lia].
        * destruct Hf as [Hf|Hf]; [apply Bf in Hf; apply Bp in Hp; lia|]. exact (I5 p Hp Hf).
      + intros a Ha. apply in_app_or in Ha. destruct Ha as [Ha|Ha]; auto. apply I6 in Ha. lia.
  Qed.
  Lemma build_roots_stand es : let (h, ps) := build_roots cap_of acap_of es [] in stands h ps es.
  Proof.
    pose proof (build_roots_ok es []) as H. destruct (build_roots cap_of acap_of es []) as [h ps]. destruct H as (_ & _ & xs & A1 & A2 & A3 & A4 & A5 & _). exists xs. auto 10.
  Qed.
End Build.
