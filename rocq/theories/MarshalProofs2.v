(* C12, C14, C16, C17 and the corollaries of the round trip. *)
From Verif Require Import Base ScopeModel ScopeSpec ScopeProofs TreeModel TreeProofs ParseModel ParseSpec
  ParseProofs DecodeModel DecodeProofs MarshalModel MarshalSpec MarshalProofs.
From Coq Require Import Sorted.
Local Open Scope string_scope.

(* ---------- diffScope ---------- *)
Lemma diff_scope_spec parent child :
  exists common inherited, child = (common ++ diff_scope (Some parent) child)%list /\
    parent = (common ++ inherited)%list /\
    (forall d r1 r2, ~ (diff_scope (Some parent) child = d :: r1 /\ inherited = d :: r2)).
Proof.
  cbn [diff_scope]. revert child. induction parent as [|p parent IH]; intros child.
  - exists [], []. split; [destruct child; auto|]. split; auto. intros ? ? ? [_ ?]; discriminate.
  - destruct child as [|c child].
    + exists [], (p :: parent). cbn. repeat split; auto. intros ? ? ? [? _]; discriminate.
    + cbn [diff_scope_loop]. destruct (xname_eqb c p) eqn:E.
      * apply xname_eqb_eq in E as ->. destruct (IH child) as (co & inh & E1 & E2 & E3).
        exists (p :: co), inh. cbn [app]. rewrite <- E1, <- E2. auto.
      * exists [], (p :: parent). cbn [app]. repeat split; auto. intros d r1 r2 [[= -> _] [= -> _]].
        rewrite xname_eqb_refl in E. discriminate.
Qed.

(* ---------- tags ---------- *)
Fixpoint tag_of (ps : scope) (el : elem) : tagged :=
  match el with
  | Elem n a s c ch => Tag (prefix s n) (map (fun x => (prefix s (aname x), avalue x)) a) (diff_scope_loop s ps) c
                           (map (tag_of s) ch)
  end.

Lemma concat_cons x l : String.concat "" (x :: l) = x ++ String.concat "" l.
Proof. destruct l; cbn [String.concat append]; [rewrite sapp_nil_r|]; auto. Qed.

Lemma attrs_str_concat l : attrs_str l = String.concat "" (map attr_str l).
Proof. induction l as [|x l IH]; auto. cbn [map]. rewrite concat_cons, attrs_str_cons, IH. auto. Qed.

Lemma print_open_str s a ds n :
  print_open (prefix s n) (map (fun x => (prefix s (aname x), avalue x)) a) ds =
  "<" ++ prefix s n ++ attrs_str (raw_list s a ds).
Proof.
  unfold print_open. do 2 f_equal. unfold raw_list. rewrite attrs_str_app, !attrs_str_concat. f_equal.
  f_equal. rewrite map_map. apply map_ext. intros d. unfold print_decl, attr_str, declq, quoted. cbn [fst snd].
  destruct (nlocal d) as [|b p]; reflexivity.
Qed.

Lemma mstrs_concat s l : mstrs s l = String.concat "" (map (mstr s) l).
Proof. induction l as [|x l IH]; auto. cbn [map]. rewrite concat_cons, mstrs_cons, IH. auto. Qed.

Lemma mstr_print : forall el ps, mstr ps el = print (tag_of ps el).
Proof.
  induction el as [n a s c ch IH] using elem_ind'. intros ps. cbn [mstr tag_of print].
  rewrite print_open_str.
  destruct ch as [|x ch].
  - destruct c; cbn [map]; rewrite <- ?sapp_assoc; reflexivity.
  - fold (mstrs s (x :: ch)). rewrite mstrs_concat.
    assert (E : map (mstr s) (x :: ch) = map print (map (tag_of s) (x :: ch))).
    { rewrite map_map. apply map_ext_in. intros e He. apply IH; auto. }
    rewrite E. cbn [map]. rewrite <- ?sapp_assoc. reflexivity.
Qed.

Lemma times_output ind k : output (repeat (Unchecked ind) k) = times k ind.
Proof. induction k; auto. cbn [repeat times]. rewrite output_cons, IHk. auto. Qed.

Lemma start_str n a s c ch ds :
  output (start_tag (Elem n a s c ch) ds) =
  print_open (prefix s n) (map (fun x => (prefix s (aname x), avalue x)) a) ds ++
  match ch, c with [], EmptyString => " />" | _, _ => ">" end.
Proof. rewrite output_start_tag, print_open_str. rewrite <- ?sapp_assoc. auto. Qed.

Lemma encode_indented pfx ind : forall el ps depth, (depth + eheight el <= recursionLimit)%N ->
  output (encode (mkEncoder pfx ind true) (Some ps) depth el) =
  print_indented ind (N.to_nat depth) (tag_of ps el).
Proof.
  induction el as [n a s c ch IH] using elem_ind'. intros ps depth H.
  cbn [encode tag_of print_indented]. assert ((recursionLimit <? depth)%N = false) as -> by lia.
  rewrite output_app. unfold encode_open_tag, encode_close_tag, indentation. cbn [enc_pretty enc_indent].
  rewrite !output_app, times_output, start_str. cbn [e_children e_content e_scope diff_scope].
  rewrite <- ?sapp_assoc. f_equal.
  destruct ch as [|x ch].
  - cbn [map]. destruct c as [|b c].
    + reflexivity.
    + cbn [app output fold_right append ev_text]. rewrite <- ?sapp_assoc.
      reflexivity.
  - remember (x :: ch) as l eqn:El.
    assert (G : forall X Y, match map (tag_of s) l with [] => X | _ :: _ => Y end = Y :> string) by (subst; auto).
    rewrite G. rewrite !output_app, output_end_tag, times_output.
    replace (match l with [] => match c with "" => " />" | String _ _ => ">" end | _ :: _ => ">" end) with ">" by (subst; auto).
    replace (output (match l with [] => match c with "" => [Unchecked (String "010" "")] | String _ _ => [] end
              | _ :: _ => [Unchecked (String "010" "")] end)) with newline by (subst; auto).
    cbn [output fold_right ev_text].
    rewrite <- ?sapp_assoc. do 3 f_equal.
    assert (Hd : forall e, In e l -> (depth + 1 + eheight e <= recursionLimit)%N).
    { intros e He. apply (eheight_child e n a s c) in He. lia. }
    assert (E : output (flat_map (encode (mkEncoder pfx ind true) (Some s) (depth + 1)) l) =
                String.concat "" (map (print_indented ind (S (N.to_nat depth))) (map (tag_of s) l))).
    { clear - IH Hd. induction l as [|e l IHl]; auto. cbn [flat_map map]. rewrite output_app, concat_cons, IHl.
      - f_equal. rewrite IH; [f_equal; lia|cbn; auto|apply Hd; cbn; auto].
      - intros; apply IH; cbn; auto.
      - intros; apply Hd; cbn; auto. }
    rewrite E. reflexivity.
Qed.

Lemma marshal_indent_print el pfx ind : (eheight el <= recursionLimit)%N ->
  marshal_indent el pfx ind = print_indented ind 0 (tag_of [] el).
Proof.
  intros H. unfold marshal_indent. change 0%nat with (N.to_nat 0). rewrite <- (encode_indented pfx ind el [] 0) by lia.
  destruct el as [n a s c ch]. cbn [encode]. rewrite diff_none. reflexivity.
Qed.
Lemma marshal_print el : (eheight el <= recursionLimit)%N -> marshal el = print (tag_of [] el).
Proof. intros H. rewrite marshal_mstr, mstr_print; auto. Qed.

(* ---------- C12 ---------- *)
Lemma extends_inv ps e : extends ps e -> exists ds, e_scope e = (ps ++ ds)%list /\
  forall c, In c (e_children e) -> extends (e_scope e) c.
Proof. intros H. inversion H; subst. cbn. eauto. Qed.

Lemma tag_of_at : forall p el ps e, extends ps el -> sub el p = Some e ->
  exists t, tag_at (tag_of ps el) p = Some t /\
    tag_name t = prefix (e_scope e) (e_name e) /\
    tag_attrs t = map (fun x => (prefix (e_scope e) (aname x), avalue x)) (e_attrs e) /\
    (ps ++ in_force (tag_of ps el) p)%list = e_scope e /\
    List.length (tag_children t) = List.length (e_children e).
Proof.
  induction p as [|i p IH]; intros el ps e Hx Hs; destruct el as [n a s c ch];
    destruct (extends_inv _ _ Hx) as (ds & Es & Hc); cbn [e_scope e_children] in *; subst s.
  - injection Hs as <-. eexists. split; [reflexivity|]. cbn [tag_of tag_name tag_attrs tag_children in_force tag_decls e_scope e_name e_attrs e_children].
    rewrite diff_loop_app, app_nil_r, map_length. auto.
  - cbn [sub e_children] in Hs. destruct (nth_error ch i) as [x|] eqn:E; [|discriminate].
    destruct (IH x (ps ++ ds)%list e (Hc x (nth_error_In _ _ E)) Hs) as (t & H1 & H2 & H3 & H4 & H5).
    exists t. cbn [tag_of tag_at in_force tag_children tag_decls].
    rewrite (map_nth_error _ _ _ E). rewrite diff_loop_app, app_assoc. auto.
Qed.

Lemma extends_root ps e : extends ps e -> extends [] e.
Proof. intros H. inversion H as [? n a ds c ch Hc]; subst. apply (ext_elem [] n a (ps ++ ds)%list c ch). auto. Qed.

Lemma extends_sub : forall p el ps e, extends ps el -> sub el p = Some e -> exists ps', extends ps' e.
Proof.
  induction p as [|i p IH]; intros el ps e Hx Hs.
  - injection Hs as <-. eauto.
  - cbn in Hs. destruct (nth_error (e_children el) i) as [x|] eqn:E; [|discriminate].
    destruct (extends_inv _ _ Hx) as (ds & _ & Hc). eapply IH; [apply Hc; eapply nth_error_In; eauto|eauto].
Qed.

Lemma tree_of_extends data D O s d e : tree_of data D O s d e -> extends s e.
Proof.
  intros H. induction H as [s n a o items o' ds c ch Hds Hc Ht IH | | |] using tree_of_ind2
    with (P0 := fun s items ch _ => forall e, In e ch -> extends s e).
  - constructor; auto.
  - intros ? [].
  - auto.
  - intros x [<-|Hx]; auto.
Qed.

Lemma parsed_subtree_extends sortns data ts el off rest p e :
  sorts sortns -> parse sortns data ts = POk el off rest -> sub el p = Some e -> extends [] e.
Proof.
  intros Hs Hp He. destruct (parse_sound sortns data Hs _ _ _ _ Hp) as (pre & d & _ & _ & _ & T).
  apply tree_of_extends in T. destruct (extends_sub _ _ _ _ T He) as [ps' H]. eapply extends_root; eauto.
Qed.

Lemma marshal_in_force el : extends [] el -> (eheight el <= 3000)%N ->
  exists t, marshal el = print t /\
  forall p e, sub el p = Some e ->
    exists t', tag_at t p = Some t' /\ tag_name t' = prefix (e_scope e) (e_name e) /\
      tag_attrs t' = map (fun x => (prefix (e_scope e) (aname x), avalue x)) (e_attrs e) /\
      in_force t p = e_scope e /\ List.length (tag_children t') = List.length (e_children e).
Proof.
  intros Hx Hh. exists (tag_of [] el). split; [apply marshal_print; auto|].
  intros p e He. exact (tag_of_at p el [] e Hx He).
Qed.

(* ---------- C17 ---------- *)
Lemma tagged_ind' (P : tagged -> Prop) :
  (forall q a d t ch, (forall c, In c ch -> P c) -> P (Tag q a d t ch)) -> forall t, P t.
Proof.
  intros H. fix IH 1. intros [q a d t ch]. apply H.
  induction ch as [|x ch IHch]; intros e He; [destruct He|].
  destruct He as [<-|He]; [apply IH | apply IHch, He].
Qed.

Lemma spaced_refl ins s : spaced ins s s.
Proof. rewrite <- (sapp_nil_r s). constructor. constructor. Qed.
Lemma spaced_app ins a b a' b' : spaced ins a b -> spaced ins a' b' -> spaced ins (a ++ a') (b ++ b').
Proof.
  induction 1; intros H'; auto; rewrite <- ?sapp_assoc; constructor; auto.
Qed.
Lemma spaced_ins ins s : In s ins -> spaced ins "" s.
Proof. intros H. rewrite <- (sapp_nil_r s). constructor; auto. constructor. Qed.
Lemma spaced_times ins s k : In s ins -> spaced ins "" (times k s).
Proof. intros H. induction k; cbn [times]; [constructor|]. constructor; auto. Qed.

Lemma spaced_l ins a b c : spaced ins "" b -> spaced ins a c -> spaced ins a (b ++ c).
Proof. intros H1 H2. exact (spaced_app ins "" b a c H1 H2). Qed.
Lemma spaced_r ins a b c : spaced ins a b -> spaced ins "" c -> spaced ins a (b ++ c).
Proof. intros H1 H2. rewrite <- (sapp_nil_r a). apply spaced_app; auto. Qed.

Lemma print_spaced ind : forall t depth, spaced [newline; ind] (print t) (print_indented ind depth t).
Proof.
  induction t as [q a d tx ch IH] using tagged_ind'. intros depth.
  cbn [print print_indented].
  apply spaced_l; [apply spaced_times; cbn; auto|].
  assert (Hn : spaced [newline; ind] "" newline) by (apply spaced_ins; cbn; auto).
  destruct ch as [|x ch].
  - destruct tx as [|b tx].
    + apply sp_keep. apply spaced_r; auto using spaced_refl.
    + do 5 (apply sp_keep). apply spaced_r; auto using spaced_refl.
  - do 2 apply sp_keep. apply spaced_l; auto.
    remember (x :: ch) as l eqn:El. clear El x ch.
    apply spaced_app.
    + induction l as [|e l IHl]; [constructor|]. cbn [map]. rewrite !concat_cons. apply spaced_app; [apply IH; cbn; auto|].
      apply IHl. intros; apply IH; cbn; auto.
    + apply spaced_l; [apply spaced_times; cbn; auto|]. do 2 apply sp_keep. apply spaced_r; auto using spaced_refl.
Qed.

Lemma marshal_indent_spec el pfx ind : (eheight el <= 3000)%N ->
  exists t, marshal el = print t /\ marshal_indent el pfx ind = print_indented ind 0 t.
Proof. intros H. exists (tag_of [] el). split; [apply marshal_print|apply marshal_indent_print]; auto. Qed.

Lemma marshal_indent_spaced el pfx ind : (eheight el <= 3000)%N ->
  spaced [newline; ind] (marshal el) (marshal_indent el pfx ind).
Proof. intros H. rewrite marshal_print, marshal_indent_print by auto. apply print_spaced. Qed.

Lemma marshal_indent_prefix_unused : forall el p1 p2 ind, marshal_indent el p1 ind = marshal_indent el p2 ind.
Proof.
  intros el p1 p2 ind. unfold marshal_indent. f_equal. generalize (@None scope), 0%N.
  induction el as [n a s c ch IH] using elem_ind'. intros o dp. cbn [encode].
  destruct (recursionLimit <? dp)%N; auto. f_equal. cbn [e_children e_content e_scope]. destruct ch as [|x ch]; auto.
  f_equal. clear - IH. induction (x :: ch) as [|e l IHl]; auto. cbn [flat_map]. f_equal.
  - apply IH; cbn; auto.
  - apply IHl. intros; apply IH; cbn; auto.
Qed.

(* ---------- C16 ---------- *)
Section Writer.
  Context {W : Type}.
  Variable write : W -> string -> W * bool.

  Notation feed := (feed write).
  Hypothesis sticky : forall w s s', snd (write w s) = false -> snd (write (fst (write w s)) s') = false.

  Lemma run_failed evs : forall w, (forall s, snd (write w s) = false) ->
    (exists s, In (Checked s) evs) -> snd (run_writes write w evs) = false.
  Proof.
    induction evs as [|[s|s] evs IH]; intros w Hw [x Hx]; [destruct Hx| |]; cbn [run_writes].
    - specialize (Hw s). destruct (write w s) as [w' ok]. cbn in Hw. subst ok. auto.
    - destruct Hx as [Hx|Hx]; [discriminate|].
      pose proof (Hw s) as Hs. pose proof (sticky w s) as Hst. destruct (write w s) as [w' ok]. cbn in *.
      apply IH; eauto.
  Qed.

  (* every unchecked write is followed by a checked one *)
  Definition closed_events (evs : list event) : Prop :=
    forall e1 e2 s, evs = (e1 ++ Unchecked s :: e2)%list -> exists s', In (Checked s') e2.

  Lemma run_writes_feed evs : closed_events evs -> forall w w',
    run_writes write w evs = (w', true) <-> feed w (map ev_text evs) = (w', true).
  Proof.
    induction evs as [|e evs IH]; intros Hc w w'; [reflexivity|].
    assert (Hc' : closed_events evs).
    { intros e1 e2 s E. apply (Hc (e :: e1) e2 s). rewrite E. auto. }
    destruct e as [s|s]; cbn [run_writes map ev_text feed].
    - destruct (write w s) as [w1 ok] eqn:E. specialize (IH Hc' w1 w').
      destruct (feed w1 (map ev_text evs)) as [w2 ok'] eqn:E2. destruct ok; cbn [andb]; [auto|].
      split; discriminate.
    - destruct (write w s) as [w1 ok] eqn:E. specialize (IH Hc' w1 w').
      destruct (feed w1 (map ev_text evs)) as [w2 ok'] eqn:E2. destruct ok; cbn [andb]; [auto|].
      split; [|discriminate]. intros H. exfalso.
      assert (Hf : forall s', snd (write w1 s') = false).
      { intros s'. specialize (sticky w s s'). rewrite E in sticky. auto. }
      destruct (Hc [] evs s eq_refl) as [s' Hs'].
      assert (HF : snd (run_writes write w1 evs) = false) by (apply run_failed; eauto). rewrite H in HF. discriminate.
  Qed.
End Writer.

Lemma closed_last evs s : closed_events (evs ++ [Checked s])%list.
Proof.
  intros e1 e2 x E. destruct (@exists_last _ e2) as [e3 [y Ey]].
  - intros ->. apply app_inj_tail in E as [_ E]. discriminate.
  - subst. rewrite app_comm_cons, app_assoc in E. apply app_inj_tail in E as [_ <-]. exists s. apply in_or_app; cbn; auto.
Qed.

Lemma start_tag_last el ds : exists l s, start_tag el ds = (l ++ [Checked s])%list.
Proof.
  unfold start_tag. rewrite !app_assoc.
  destruct (e_children el), (e_content el); eexists _, _; reflexivity.
Qed.

Lemma encode_events_closed el : closed_events (encode_events el).
Proof.
  unfold encode_events. destruct el as [n a s c ch]. cbn [encode].
  assert ((recursionLimit <? 0)%N = false) as -> by reflexivity.
  unfold encode_open_tag, encode_close_tag. cbn [enc_pretty]. cbn [app]. rewrite !app_nil_r. cbn [e_children e_content].
  destruct ch as [|x ch]; [destruct c as [|b c]|].
  - rewrite app_nil_r. destruct (start_tag_last (Elem n a s "" []) (diff_scope None (e_scope (Elem n a s "" [])))) as (l & y & ->).
    apply closed_last.
  - unfold end_tag. change (?x ++ Unchecked ?y :: [?a; ?b; ?c])%list with (x ++ [Unchecked y; a; b] ++ [c])%list.
    rewrite app_assoc. apply closed_last.
  - unfold end_tag. change ([?a; ?b; ?c])%list with ([a; b] ++ [c])%list. rewrite !app_assoc. apply closed_last.
Qed.

Lemma encode_reports {W} (write : W -> string -> W * bool) :
  (forall w s s', snd (write w s) = false -> snd (write (fst (write w s)) s') = false) ->
  forall el w w', encode_to write w el = (w', true) <-> feed write w (map ev_text (encode_events el)) = (w', true).
Proof. intros Hs el w w'. apply run_writes_feed; auto. apply encode_events_closed. Qed.

Lemma output_concat evs : String.concat "" (map ev_text evs) = output evs.
Proof. induction evs as [|e evs IH]; auto. cbn [map]. rewrite concat_cons, output_cons, IH. auto. Qed.

(* ---------- round trip: corollaries ---------- *)
Lemma find_last_perm (l l' : scope) p : NoDup (map nlocal l) -> Permutation l l' ->
  find_last (fun d => String.eqb (nlocal d) p) l = find_last (fun d => String.eqb (nlocal d) p) l'.
Proof.
  intros Hn Hp.
  assert (Hn' : NoDup (map nlocal l')) by (eapply Permutation_NoDup; [apply Permutation_map; eauto|auto]).
  assert (G : forall l0 d, NoDup (map nlocal l0) -> In d l0 -> nlocal d = p ->
     find_last (fun d => String.eqb (nlocal d) p) l0 = Some d).
  { intros l0 d H0 Hd Hl. apply find_last_some. apply in_split in Hd as (l1 & l2 & ->). exists l1, l2. split; auto.
    split; [apply String.eqb_eq; auto|]. intros y Hy. apply String.eqb_neq. intros Ey.
    rewrite map_app in H0. cbn in H0. apply NoDup_remove_2 in H0. apply H0. apply in_or_app. right.
    rewrite Hl, <- Ey. apply in_map; auto. }
  destruct (find_last _ l) as [d|] eqn:E.
  - apply find_last_some in E as (l1 & l2 & -> & Hd & _). apply String.eqb_eq in Hd.
    symmetry. apply G; auto. eapply Permutation_in; eauto. apply in_or_app; cbn; auto.
  - symmetry. apply find_last_none. intros x Hx. eapply find_last_none in E; [exact E|].
    eapply Permutation_in; [symmetry; eauto|auto].
Qed.

Definition same_resolution (s s' : scope) := forall q, resolve_ns s q = resolve_ns s' q.

Lemma same_resolution_app ps ps' ds ds' :
  (forall p, find_last (fun d => String.eqb (nlocal d) p) ps = find_last (fun d => String.eqb (nlocal d) p) ps') ->
  NoDup (map nlocal ds) -> Permutation ds ds' ->
  forall p, find_last (fun d => String.eqb (nlocal d) p) (ps ++ ds)%list = find_last (fun d => String.eqb (nlocal d) p) (ps' ++ ds')%list.
Proof. intros H Hn Hp p. rewrite !find_last_app, (find_last_perm ds ds'), H; auto. Qed.

Lemma find_resolution s s' :
  (forall p, find_last (fun d => String.eqb (nlocal d) p) s = find_last (fun d => String.eqb (nlocal d) p) s') ->
  forall q, resolve_ns s q = resolve_ns s' q.
Proof. intros H q. unfold resolve_ns. destruct (split_qname q). rewrite H. auto. Qed.

Lemma rereads_nth : forall l l' ps ps' i e, rereads ps ps' l l' -> nth_error l i = Some e ->
  exists e', nth_error l' i = Some e' /\ reread ps ps' e e'.
Proof.
  induction l as [|x l IH]; intros l' ps ps' i e H He; [destruct i; discriminate|].
  inversion H; subst. destruct i as [|i]; cbn in *; [injection He as <-; eauto|eapply IH; eauto].
Qed.
Lemma rereads_length ps ps' l l' : rereads ps ps' l l' -> List.length l = List.length l'.
Proof. revert l'. induction l; intros l' H; inversion H; subst; cbn; auto. Qed.

Lemma reread_inv ps ps' n a s c ch e' : reread ps ps' (Elem n a s c ch) e' ->
  exists ds ds' c' ch', s = (ps ++ ds)%list /\ e' = Elem n a (ps' ++ ds')%list c' ch' /\ Permutation ds ds' /\
   Sorted (fun a b => s_leb (nspace a ++ nlocal a) (nspace b ++ nlocal b) = true) ds' /\
   (ch = [] -> c' = c) /\ rereads s (ps' ++ ds')%list ch ch'.
Proof. intros H. inversion H; subst. eexists _, _, _, _. repeat split; eauto. Qed.

Lemma reread_at : forall p el el' ps ps' e, writable ps el -> reread ps ps' el el' ->
  (forall p, find_last (fun d => String.eqb (nlocal d) p) ps = find_last (fun d => String.eqb (nlocal d) p) ps') ->
  sub el p = Some e ->
  exists e', sub el' p = Some e' /\ e_name e' = e_name e /\ e_attrs e' = e_attrs e /\
    List.length (e_children e') = List.length (e_children e) /\
    (e_children e = [] -> e_content e' = e_content e) /\
    forall q, resolve_ns (e_scope e') q = resolve_ns (e_scope e) q.
Proof.
  induction p as [|i p IH]; intros el el' ps ps' e Hw Hr Hps He.
  - injection He as <-. exists el'. split; auto. destruct el as [n a s c ch].
    apply reread_inv in Hr as (ds & ds' & c' & ch' & -> & -> & Hp & _ & Hc & Hch).
    cbn [e_name e_attrs e_children e_content e_scope]. repeat split; auto.
    + symmetry. eapply rereads_length; eauto.
    + intros q. symmetry. apply find_resolution. apply same_resolution_app; auto.
      inversion Hw as [? ? ? ds0 ? ? ? ? ? ? ? ? E]; subst. match goal with H : (ps ++ _)%list = (ps ++ _)%list |- _ => apply app_inv_head in H; subst end. auto.
  - cbn [sub] in He. destruct el as [n a s c ch].
    apply reread_inv in Hr as (ds & ds' & c' & ch' & -> & -> & Hp & _ & Hc & Hch).
    cbn [e_children] in He. destruct (nth_error ch i) as [x|] eqn:Ex; [|discriminate].
    destruct (rereads_nth _ _ _ _ _ _ Hch Ex) as (x' & Ex' & Hx').
    cbn [sub e_children]. rewrite Ex'.
    inversion Hw as [? ? ? ds0 ? ? Hd Hnd Hnm Hat Hct Hwch Hsc]; subst. match goal with H : (ps ++ _)%list = (ps ++ _)%list |- _ => apply app_inv_head in H; subst end.
    apply (IH x x' (ps ++ ds)%list (ps' ++ ds')%list e); auto.
    + apply Hwch. eapply nth_error_In; eauto.
    + apply same_resolution_app; auto.
Qed.

Lemma round_trip_paths sortns el : sorts sortns -> writable [] el -> (eheight el <= 3000)%N ->
  exists el' off, parse sortns (marshal el) (decode (marshal el)) = POk el' off [] /\
  forall p e, sub el p = Some e ->
    exists e', sub el' p = Some e' /\ e_name e' = e_name e /\ e_attrs e' = e_attrs e /\
      List.length (e_children e') = List.length (e_children e) /\
      (e_children e = [] -> e_content e' = e_content e) /\
      forall q, resolve_ns (e_scope e') q = resolve_ns (e_scope e) q.
Proof.
  intros Hs Hw Hh. destruct (round_trip sortns el Hs (writable_printable _ _ Hw) Hh) as (el' & off & P & R).
  exists el', off. split; auto. intros p e He. eapply reread_at; eauto.
Qed.

(* strictly sorted declarations come back in the same order *)
Lemma s_ltb_leb a b : s_ltb a b = true -> s_leb a b = true.
Proof. unfold s_ltb, s_leb. destruct (s_cmp a b); auto; discriminate. Qed.
Lemma s_ltb_irrefl a : s_ltb a a = false.
Proof. unfold s_ltb. rewrite (proj2 (s_cmp_eq a a)); auto. Qed.

Lemma sorted_perm_eq : forall l l' : scope,
  StronglySorted (fun a b => s_ltb (nspace a ++ nlocal a) (nspace b ++ nlocal b) = true) l ->
  Sorted (fun a b => s_leb (nspace a ++ nlocal a) (nspace b ++ nlocal b) = true) l' ->
  Permutation l l' -> l = l'.
Proof.
  induction l as [|x l IH]; intros l' Hl Hl' Hp.
  - apply Permutation_nil in Hp. auto.
  - apply Sorted_StronglySorted in Hl'; [|intros ? ? ?; apply s_leb_trans].
    destruct l' as [|y l']; [apply Permutation_sym, Permutation_nil in Hp; discriminate|].
    inversion Hl as [|? ? Hl1 Hx]; subst. inversion Hl' as [|? ? Hl1' Hy]; subst.
    rewrite Forall_forall in Hx, Hy.
    assert (x = y) as <-.
    { assert (Hin : In y (x :: l)) by (eapply Permutation_in; [symmetry; eauto|cbn; auto]).
      destruct Hin as [|Hin]; auto.
      assert (Hin' : In x (y :: l')) by (eapply Permutation_in; eauto; cbn; auto).
      destruct Hin' as [|Hin']; auto. exfalso.
      apply Hx in Hin. apply Hy in Hin'. rewrite s_leb_ltb in Hin'. rewrite Hin in Hin'. discriminate. }
    f_equal. apply IH; auto.
    + apply StronglySorted_Sorted; auto.
    + eapply Permutation_cons_inv; eauto.
Qed.

Lemma tidy_reread : forall el el' ps, tidy ps el -> reread ps ps el el' ->
  e_scope el' = e_scope el /\ mstr ps el' = mstr ps el.
Proof.
  induction el as [n a s c ch IH] using elem_ind'. intros el' ps Ht Hr.
  apply reread_inv in Hr as (ds & ds' & c' & ch' & -> & -> & Hp & Hso & Hc & Hch).
  inversion Ht as [? ? ? ds0 ? ? Hss Htc E]; subst. match goal with H : (ps ++ _)%list = (ps ++ _)%list |- _ => apply app_inv_head in H; subst end.
  assert (ds' = ds) as -> by (symmetry; apply sorted_perm_eq; auto). split; auto.
  assert (Em : mstrs (ps ++ ds)%list ch' = mstrs (ps ++ ds)%list ch).
  { clear - IH Hch Htc. revert ch' Hch. induction ch as [|x ch IHl]; intros ch' Hch; inversion Hch; subst; auto.
    rewrite !mstrs_cons. f_equal.
    - apply IH; cbn; auto. apply Htc; cbn; auto.
    - apply IHl; auto; intros; [apply IH|apply Htc]; cbn; auto. }
  rewrite !mstr_eq. destruct ch as [|x ch]; inversion Hch; subst.
  - rewrite (Hc eq_refl). auto.
  - rewrite Em. auto.
Qed.

Lemma reread_height : forall el el' ps ps', reread ps ps' el el' -> eheight el' = eheight el.
Proof.
  induction el as [n a s c ch IH] using elem_ind'. intros el' ps ps' Hr.
  apply reread_inv in Hr as (ds & ds' & c' & ch' & -> & -> & _ & _ & _ & Hch). cbn [eheight].
  revert ch' Hch. generalize (ps ++ ds)%list, (ps' ++ ds')%list. intros s s'. clear - IH. induction ch as [|x ch IHl]; intros ch' Hch; inversion Hch; subst; auto.
  cbn [fold_right]. f_equal; [f_equal; eapply IH; cbn; eauto|]. apply IHl; auto. intros; eapply IH; cbn; eauto.
Qed.

Lemma round_trip_stable sortns el : sorts sortns -> writable [] el -> tidy [] el -> (eheight el <= 3000)%N ->
  exists el' off, parse sortns (marshal el) (decode (marshal el)) = POk el' off [] /\
    e_scope el' = e_scope el /\ marshal el' = marshal el.
Proof.
  intros Hs Hw Ht Hh. destruct (round_trip sortns el Hs (writable_printable _ _ Hw) Hh) as (el' & off & P & R).
  exists el', off. split; auto. destruct (tidy_reread _ _ _ Ht R). split; auto.
  rewrite !marshal_mstr; auto. rewrite (reread_height _ _ _ _ R). auto.
Qed.

(* ---------- parsed trees are within the depth limit ---------- *)
Lemma tree_of_height data D O s d e : tree_of data D O s d e -> eheight e = height d.
Proof.
  intros H. induction H as [s n a o items o' ds c ch Hds Hc Ht IH | | |] using tree_of_ind2
    with (P0 := fun s items ch _ => fold_right (fun c h => N.max (1 + eheight c) h) 0%N ch = hmax items).
  - rewrite height_eq. exact IH.
  - reflexivity.
  - auto.
  - cbn [fold_right hmax]. rewrite IHtree_of, IHtree_of0. reflexivity.
Qed.

Lemma parsed_height sortns data ts el off rest : sorts sortns ->
  parse sortns data ts = POk el off rest -> (eheight el <= 3000)%N.
Proof.
  intros Hs Hp. destruct (parse_sound sortns data Hs _ _ _ _ Hp) as (pre & d & _ & _ & Hh & T).
  rewrite (tree_of_height _ _ _ _ _ _ T). auto.
Qed.

Lemma sub_height : forall p el e, sub el p = Some e -> (eheight e <= eheight el)%N.
Proof.
  induction p as [|i p IH]; intros el e He.
  - injection He as <-. lia.
  - cbn in He. destruct (nth_error (e_children el) i) as [x|] eqn:E; [|discriminate]. apply IH in He.
    destruct el as [n a s c ch]. cbn in E. apply nth_error_In in E. apply (eheight_child x n a s c) in E. lia.
Qed.

Lemma parsed_subtree_marshal sortns data ts el off rest q sel : sorts sortns ->
  parse sortns data ts = POk el off rest -> sub el q = Some sel ->
  exists t, marshal sel = print t /\
  forall p e, sub sel p = Some e ->
    exists t', tag_at t p = Some t' /\ tag_name t' = prefix (e_scope e) (e_name e) /\
      tag_attrs t' = map (fun x => (prefix (e_scope e) (aname x), avalue x)) (e_attrs e) /\
      in_force t p = e_scope e /\ List.length (tag_children t') = List.length (e_children e).
Proof.
  intros Hs Hp Hq. apply marshal_in_force.
  - eapply parsed_subtree_extends; eauto.
  - apply sub_height in Hq. apply parsed_height in Hp; auto. lia.
Qed.

(* ---------- witnesses ---------- *)
Definition reparse (el : elem) : presult := parse isort_ns (marshal el) (decode (marshal el)).

Lemma quote_in_value : exists el, eheight el = 0%N /\ extends [] el /\ name_ok (e_scope el) (e_name el) /\
  reparse el = PErr EStream.
Proof.
  exists (Elem (mkName "" "r") [mkAttr (mkName "" "k") "a""b"] [] "" []).
  split; [reflexivity|]. split; [apply (ext_elem [] _ _ []); intros ? []|]. split.
  - repeat split; try reflexivity; discriminate.
  - vm_compute. reflexivity.
Qed.

Lemma attr_default_ns : exists el el' off, extends [] el /\ name_ok (e_scope el) (e_name el) /\
  (forall a, In a (e_attrs el) -> resolve (e_scope el) (prefix (e_scope el) (aname a)) = aname a /\ nspace (aname a) <> "") /\
  reparse el = POk el' off [] /\ e_attrs el' <> e_attrs el /\ attr el' "u" "k" = "" /\ attr el "u" "k" = "v".
Proof.
  exists (Elem (mkName "u" "r") [mkAttr (mkName "u" "k") "v"] [mkName "u" ""] "" []).
  eexists _, _. split; [apply (ext_elem [] _ _ [mkName "u" ""]); intros ? []|]. split; [repeat split; try reflexivity; discriminate|].
  split; [intros a [<-|[]]; split; [reflexivity|discriminate]|].
  split; [vm_compute; reflexivity|]. split; [discriminate|]. split; reflexivity.
Qed.

Lemma undeclared_ns : exists el, extends [] el /\ ncname (nlocal (e_name el)) = true /\ marshal el = "< />" /\
  reparse el = PErr EStream.
Proof.
  exists (Elem (mkName "urn:x" "r") [] [] "" []).
  split; [apply (ext_elem [] _ _ []); intros ? []|]. repeat split.
Qed.

(* <a>t<b/>u</a> *)
Lemma mixed_text_lost : exists doc el el' o1 o2, parse isort_ns doc (decode doc) = POk el o1 [] /\
  e_content el = "t<b/>u" /\ reparse el = POk el' o2 [] /\ e_content el' = "<b />".
Proof.
  exists "<a>t<b/>u</a>". eexists _, _, _, _. split; [vm_compute; reflexivity|]. split; [reflexivity|].
  split; [vm_compute; reflexivity|]. reflexivity.
Qed.

(* <r xmlns:a="urn:z"><c xmlns:a="urn:b"><a:x/></c></r>: the subtree c marshalled alone *)
Lemma subtree_duplicate : exists doc el c o1 o2 c', parse isort_ns doc (decode doc) = POk el o1 [] /\
  sub el [0%nat] = Some c /\
  marshal c = "<c xmlns:a=""urn:z"" xmlns:a=""urn:b""><a:x /></c>" /\
  reparse c = POk c' o2 [] /\
  resolve (e_scope c) "a:x" = mkName "urn:b" "x" /\ resolve (e_scope c') "a:x" = mkName "urn:z" "x".
Proof.
  exists "<r xmlns:a=""urn:z""><c xmlns:a=""urn:b""><a:x/></c></r>". eexists _, _, _, _, _.
  split; [vm_compute; reflexivity|]. split; [reflexivity|]. split; [vm_compute; reflexivity|].
  split; [vm_compute; reflexivity|]. split; reflexivity.
Qed.

(* a child that does not inherit its parent's declarations cannot undo them *)
Lemma detached_scope : exists el t, marshal el = print t /\ sub el [0%nat] <> None /\
  (forall e, sub el [0%nat] = Some e -> in_force t [0%nat] <> e_scope e).
Proof.
  exists (Elem (mkName "" "r") [] [mkName "u" ""] "" [Elem (mkName "" "c") [] [] "" []]).
  exists (Tag "r" [] [mkName "u" ""] "" [Tag "c" [] [] "" []]).
  split; [vm_compute; reflexivity|]. split; [discriminate|]. intros e [= <-]. discriminate.
Qed.

Lemma indent_prefix_ignored : exists el pfx ind, pfx <> "" /\ (eheight el <= 3000)%N /\
  String.prefix pfx (marshal_indent el pfx ind) = false.
Proof.
  exists (Elem (mkName "" "r") [] [] "" []), "//", " ". split; [discriminate|]. split; [cbn; lia|]. reflexivity.
Qed.

(* a writer collecting what it accepts, failing once, on its fifth call *)
Definition flaky (w : nat * string) (s : string) : (nat * string) * bool :=
  let (k, acc) := w in
  if (k =? 3)%nat then ((S k, acc), false) else ((S k, acc ++ s), true).

Lemma transient_failure : exists el k acc,
  encode_to flaky (0, "") el = ((k, acc), true) /\ acc = "<a></a>" /\ marshal el = "<a>text</a>" /\
  snd (feed flaky (0, "") (map ev_text (encode_events el))) = false.
Proof.
  exists (Elem (mkName "" "a") [] [] "text" []). eexists _, _. split; [vm_compute; reflexivity|]. repeat split.
Qed.

(* a writer with room for n bytes, like a full disk *)
Definition limited (w : nat * string) (s : string) : (nat * string) * bool :=
  let (room, acc) := w in
  if (String.length s <=? room)%nat && negb (room =? 0)%nat then ((room - String.length s, acc ++ s), true) else ((0, acc), false).
Lemma limited_sticky : forall w s s', snd (limited w s) = false -> snd (limited (fst (limited w s)) s') = false.
Proof.
  intros [room acc] s s'. unfold limited. destruct ((String.length s <=? room)%nat && negb (room =? 0)%nat) eqn:E; [discriminate|].
  intros _. cbn [fst]. cbn [negb Nat.eqb]. rewrite andb_false_r. auto.
Qed.
