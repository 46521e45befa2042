From Verif Require Import Base ScopeModel TreeModel EqualModel XsdModel XsdProofs NormAttr SgModel SgFlat OptModel OptSpec.
Local Open Scope string_scope.

Section P.
  Context {T Sp Log : Type}.
  Variable compile : string -> option ((string -> string -> string) * (string -> bool)).
  Variable soap_array_type : T -> T.
  Variable soap_array_slice : Sp -> Sp.
  Variable use_field_names : T -> T.
  Notation opt := (opt T Sp Log).
  Notation xconf := (xconf T Sp Log).
  Notation apply := (apply T Sp Log compile soap_array_type soap_array_slice use_field_names).
  Notation option_method := (option_method T Sp Log compile soap_array_type soap_array_slice use_field_names).
  Notation wapply := (wapply T Sp Log compile soap_array_type soap_array_slice use_field_names).

  Lemma set_again {A} (l : list A) i x y : set_nth i x (set_nth i y l) = set_nth i x l.
  Proof. revert i. induction l as [|a l IH]; intros [|i]; cbn [set_nth]; auto. rewrite IH. reflexivity. Qed.
  Lemma set_back {A} (l : list A) i x : nth_error l i = Some x -> set_nth i x l = l.
  Proof. revert i. induction l as [|a l IH]; intros [|i] H; cbn [set_nth nth_error] in *; try discriminate; [congruence|]. rewrite IH; auto. Qed.
  Lemma set_get {A} (l : list A) i x y : nth_error l i = Some y -> nth_error (set_nth i x l) i = Some x.
  Proof. revert i. induction l as [|a l IH]; intros [|i] H; cbn [set_nth nth_error] in *; try discriminate; auto. Qed.
  Lemma set_else {A} (l : list A) i k x : k <> i -> nth_error (set_nth i x l) k = nth_error l k.
  Proof. revert i k. induction l as [|a l IH]; intros [|i] [|k] H; cbn [set_nth nth_error] in *; try reflexivity; try congruence; apply IH; congruence. Qed.

  (* one option, its undo, and the undo of that *)
  Theorem revert h i o : i < List.length h -> about T Sp Log i o -> ordinary T Sp Log o -> exists h1 u v,
    apply h i o = Some (h1, u) /\ apply h1 i u = Some (h, v) /\ apply h i v = Some (h1, u) /\ about T Sp Log i u /\ ordinary T Sp Log u /\
    List.length h1 = List.length h /\ forall k, k <> i -> nth_error h1 k = nth_error h k.
  Proof.
    intros Hi Ab Or. destruct (nth_error h i) as [c|] eqn:E; [|apply nth_error_None in E; lia].
    assert (G : forall f : xconf -> xconf * opt, (forall h', apply h' i o = at_conf T Sp Log h' i f) ->
      (exists g : xconf -> xconf * opt, (forall h', apply h' i (snd (f c)) = at_conf T Sp Log h' i g) /\ fst (g (fst (f c))) = c /\
         about T Sp Log i (snd (f c)) /\ ordinary T Sp Log (snd (f c)) /\ exists k : xconf -> xconf * opt, (forall h', apply h' i (snd (g (fst (f c)))) = at_conf T Sp Log h' i k) /\ k c = f c) ->
      exists h1 u v, apply h i o = Some (h1, u) /\ apply h1 i u = Some (h, v) /\ apply h i v = Some (h1, u) /\ about T Sp Log i u /\ ordinary T Sp Log u /\
        List.length h1 = List.length h /\ forall k, k <> i -> nth_error h1 k = nth_error h k).
    { intros f Hf [g [Hg [Hc [Ha [Ho [k [Hk Hkc]]]]]]]. exists (set_nth i (fst (f c)) h), (snd (f c)), (snd (g (fst (f c)))).
      rewrite Hf, Hg, Hk. unfold at_conf. rewrite E, (set_get _ _ _ _ E), Hkc. destruct (f c) as [c1 u]. cbn [fst snd] in *. destruct (g c1) as [c2 v]. cbn [fst snd] in *. subst c2.
      split; [reflexivity|]. split; [rewrite set_again, set_back by exact E; reflexivity|]. split; [reflexivity|]. split; [exact Ha|]. split; [exact Ho|]. split; [apply set_nth_length|]. intros m. apply set_else. }
    destruct c as [c1 c2 c3 c4 c5 c6 c7 c8 c9 c10 c11 c12].
    destruct o; cbn [ordinary about] in *; try contradiction; subst; (eapply G; [intros h'; reflexivity|]);
      cbn [fst snd x_logger x_level x_ns x_pkg x_follow x_pre x_post x_fa x_fe x_ft x_name x_allow];
      (eexists; split; [intros h'; reflexivity|]; split; [reflexivity|]; split; [try exact I; reflexivity|]; split; [exact I|]; eexists; split; [intros h'; reflexivity|reflexivity]).
  Qed.

  (* any number of options: the undos, last first *)
  Fixpoint apply_all (h : heap T Sp Log) (i : nat) (l : list opt) : option (heap T Sp Log * list opt) :=
    match l with [] => Some (h, []) | o :: l' => match apply h i o with Some (h', u) => match apply_all h' i l' with Some (h2, us) => Some (h2, (us ++ [u])%list) | None => None end | None => None end end.
  Lemma apply_all_app h i l l' : apply_all h i (l ++ l')%list = match apply_all h i l with Some (h', us) => match apply_all h' i l' with Some (h2, us') => Some (h2, (us' ++ us)%list) | None => None end | None => None end.
  Proof.
    revert h. induction l as [|o l IH]; intros h; cbn [apply_all app].
    - destruct (apply_all h i l') as [[h2 us']|]; [rewrite app_nil_r|]; reflexivity.
    - destruct (apply h i o) as [[h1 u]|]; [|reflexivity]. rewrite IH. destruct (apply_all h1 i l) as [[h2 us]|]; [|reflexivity]. destruct (apply_all h2 i l') as [[h3 us']|]; [rewrite app_assoc|]; reflexivity.
  Qed.
  Theorem revert_all i : forall l h, i < List.length h -> Forall (about T Sp Log i) l -> Forall (ordinary T Sp Log) l -> exists h1 us vs,
    apply_all h i l = Some (h1, us) /\ apply_all h1 i us = Some (h, vs) /\ List.length h1 = List.length h /\ forall k, k <> i -> nth_error h1 k = nth_error h k.
  Proof.
    induction l as [|o l IH]; intros h Hi Ab Or; [exists h, [], []; auto|]. inversion Ab as [|? ? A1 A2]; subst. inversion Or as [|? ? O1 O2]; subst.
    destruct (revert h i o Hi A1 O1) as [h1 [u [v [E1 [E2 [E3 [A3 [O3 [L1 K1]]]]]]]]]. destruct (IH h1) as [h2 [us [vs [E4 [E5 [L2 K2]]]]]]; [lia|assumption|assumption|].
    exists h2, (us ++ [u])%list, (v :: vs). cbn [apply_all]. rewrite E1, E4. split; [reflexivity|]. rewrite apply_all_app, E5. cbn [apply_all]. rewrite E2. split; [reflexivity|]. split; [lia|].
    intros k Hk. rewrite (K2 k Hk). exact (K1 k Hk).
  Qed.
  (* the Option method: what it returns undoes its last argument *)
  Lemma method_all i : forall l h prev, option_method h i prev l = match apply_all h i l with Some (h', us) => Some (h', match us with u :: _ => Some u | [] => prev end) | None => None end.
  Proof.
    induction l as [|o l IH]; intros h prev; [reflexivity|]. cbn [OptModel.option_method apply_all]. destruct (apply h i o) as [[h1 u]|]; [|reflexivity]. rewrite IH.
    destruct (apply_all h1 i l) as [[h2 us]|]; [|reflexivity]. destruct us; reflexivity.
  Qed.
  Theorem method_reverts_last i l o h : i < List.length h -> Forall (about T Sp Log i) (l ++ [o]) -> Forall (ordinary T Sp Log) (l ++ [o]) -> exists h1 p h2 u v,
    option_method h i None l = Some (h1, p) /\ option_method h i None (l ++ [o]) = Some (h2, Some u) /\ apply h2 i u = Some (h1, v).
  Proof.
    intros Hi Ab Or. apply Forall_app in Ab as [A1 A2]. apply Forall_app in Or as [O1 O2]. inversion A2; subst. inversion O2; subst.
    destruct (revert_all i l h Hi A1 O1) as [h1 [us [vs [E1 [_ [L1 _]]]]]]. destruct (revert h1 i o) as [h2 [u [v [E2 [E3 _]]]]]; [lia|assumption|assumption|].
    exists h1, (match us with w :: _ => Some w | [] => None end), h2, u, v. rewrite !method_all, apply_all_app, E1. cbn [apply_all]. rewrite E2. cbn [app]. auto.
  Qed.

  (* ---------- AllowType ---------- *)
  Lemma del_fresh n l : ~ In n l -> filter (fun m => negb (xname_eqb m n)) l = l.
  Proof.
    induction l as [|m l IH]; intros H; [reflexivity|]. cbn [filter]. destruct (xname_eqb m n) eqn:E; [apply xname_eqb_eq in E; exfalso; apply H; left; exact E|].
    cbn [negb]. rewrite IH; [reflexivity|]. intros X. apply H. right. exact X.
  Qed.
  Lemma mem_name_in n l : mem_name n l = true <-> In n l.
  Proof. unfold mem_name. rewrite existsb_exists. split; [intros [m [H1 H2]]; apply xname_eqb_eq in H2 as ->; exact H1|intros H; exists n; split; [exact H|apply xname_eqb_eq; reflexivity]]. Qed.
  Theorem allow_reverts h i c l n : nth_error h i = Some c -> x_allow _ _ _ c = Some l -> ~ In n l -> exists h1 u v,
    apply h i (AllowType _ _ _ n) = Some (h1, u) /\ apply h1 i u = Some (h, v).
  Proof.
    intros E Ea N. do 3 eexists. cbn [OptModel.apply]. unfold at_conf. rewrite E, Ea. destruct (mem_name n l) eqn:M; [apply mem_name_in in M; contradiction|]. split; [reflexivity|]. cbn [OptModel.apply]. unfold at_conf. rewrite (set_get _ _ _ _ E), set_again.
    cbn [x_allow set_allow option_map filter]. rewrite (proj2 (xname_eqb_eq n n) eq_refl). cbn [negb]. rewrite del_fresh by exact N. rewrite set_back; [reflexivity|]. rewrite E. f_equal. destruct c. cbn in *. subst. reflexivity.
  Qed.

  (* ---------- effects ---------- *)
  Definition step_conf (i : nat) (c : xconf) (o : opt) : xconf := match apply [c] 0 o with Some ([c'], _) => c' | _ => c end.
  Lemma apply_at h i c o : nth_error h i = Some c -> public_opt T Sp Log o -> exists u, apply h i o = Some (set_nth i (step_conf i c o) h, u).
  Proof.
    intros E P. destruct o; cbn [public_opt] in P; try contradiction; eexists; cbn [OptModel.apply]; unfold at_conf; rewrite E; reflexivity.
  Qed.
  Lemma run_after {A} (f : option (A -> A)) g a : run_fn (Some (after f g)) a = g (run_fn f a).
  Proof. destruct f; reflexivity. Qed.
  Theorem effects i : forall l h c, nth_error h i = Some c -> Forall (public_opt T Sp Log) l -> exists h' us c', apply_all h i l = Some (h', us) /\ nth_error h' i = Some c' /\
    (forall n, run_fn (x_name _ _ _ c') n = fold_left (fun n o => renames T Sp Log compile o n) l (run_fn (x_name _ _ _ c) n)) /\
    (forall t, run_fn (x_pre _ _ _ c') t = fold_left (fun t o => transforms T Sp Log soap_array_type use_field_names o t) l (run_fn (x_pre _ _ _ c) t)) /\
    (forall s, run_fn (x_post _ _ _ c') s = fold_left (fun s o => postprocesses T Sp Log soap_array_slice o s) l (run_fn (x_post _ _ _ c) s)) /\
    (forall a, filtered (x_fa _ _ _ c') a = latest (fun o => match o with IgnoreAttributes _ _ _ names => Some (mem_str (nlocal (at_name a)) names) | _ => None end) l (filtered (x_fa _ _ _ c) a)) /\
    (forall e, filtered (x_fe _ _ _ c') e = latest (fun o => match o with IgnoreElements _ _ _ names => Some (mem_str (nlocal (el_name e)) names) | _ => None end) l (filtered (x_fe _ _ _ c) e)) /\
    (forall n, filtered (x_ft _ _ _ c') n = latest (fun o => match o with OnlyTypes _ _ _ pats => Some (only_types compile pats n) | _ => None end) l (filtered (x_ft _ _ _ c) n)) /\
    (forall n, allowed (x_allow _ _ _ c') n <-> allowed (x_allow _ _ _ c) n \/ In (AllowType _ _ _ n) l) /\
    (x_allow _ _ _ c' = None <-> x_allow _ _ _ c = None /\ forall n, ~ In (AllowType _ _ _ n) l) /\
    x_ns _ _ _ c' = latest (fun o => match o with Namespaces _ _ _ v => Some v | _ => None end) l (x_ns _ _ _ c) /\
    x_pkg _ _ _ c' = latest (fun o => match o with PackageName _ _ _ v => Some v | _ => None end) l (x_pkg _ _ _ c) /\
    x_follow _ _ _ c' = latest (fun o => match o with FollowImports _ _ _ v => Some v | _ => None end) l (x_follow _ _ _ c).
  Proof.
    induction l as [|o l IH]; intros h c E P.
    - exists h, [], c. cbn [apply_all fold_left latest]. unfold latest. cbn [fold_left]. repeat (split; [reflexivity || exact E|]). split; [intros n; cbn [In]; tauto|]. split; [cbn [In]; split; [intros X; split; [exact X|intros n []]|tauto]|]. auto.
    - inversion P as [|? ? P1 P2]; subst. cbn [apply_all]. destruct (apply_at h i c o E P1) as [u ->].
      destruct (IH (set_nth i (step_conf i c o) h) (step_conf i c o) (set_get _ _ _ _ E) P2) as [h' [us [c' [E' [N' [H1 [H2 [H3 [H4 [H5 [H6 [H7 [H8 [H9 [H10 H11]]]]]]]]]]]]]]]. rewrite E'.
      exists h', (us ++ [u])%list, c'. split; [reflexivity|]. split; [exact N'|]. unfold latest in *. cbn [fold_left].
      split; [intros n; rewrite H1; f_equal; destruct o; try (exfalso; exact P1); try reflexivity; cbn [step_conf OptModel.apply at_conf nth_error set_nth set_name x_name renames]; apply run_after|].
      split; [intros n; rewrite H2; f_equal; destruct o; try (exfalso; exact P1); try reflexivity; cbn [step_conf OptModel.apply at_conf nth_error set_nth set_pre x_pre transforms]; apply run_after|].
      split; [intros n; rewrite H3; f_equal; destruct o; try (exfalso; exact P1); try reflexivity; cbn [step_conf OptModel.apply at_conf nth_error set_nth set_post x_post postprocesses]; apply run_after|].
      split; [intros n; rewrite H4; f_equal; destruct o; (exfalso; exact P1) || reflexivity|]. split; [intros n; rewrite H5; f_equal; destruct o; (exfalso; exact P1) || reflexivity|]. split; [intros n; rewrite H6; f_equal; destruct o; (exfalso; exact P1) || reflexivity|].
      split.
      { intros n. rewrite H7. cbn [In]. assert (X : allowed (x_allow _ _ _ (step_conf i c o)) n <-> allowed (x_allow _ _ _ c) n \/ o = AllowType _ _ _ n); [|tauto].
        destruct o; try (exfalso; exact P1); try (cbn [step_conf]; split; [intros X; left; exact X|intros [X|X]; [exact X|discriminate]]). cbn [step_conf OptModel.apply at_conf nth_error set_nth set_allow x_allow allowed].
        destruct (x_allow T Sp Log c) as [m|]; cbn [allowed]; destruct (mem_name n0 _) eqn:M; cbn [In]; try (apply mem_name_in in M); split; intros X.
        - left. exact X.
        - destruct X as [X|X]; [exact X|]. injection X as ->. exact M.
        - destruct X as [->|X]; [right; reflexivity|left; exact X].
        - destruct X as [X|X]; [right; exact X|left; congruence].
        - destruct M.
        - destruct M.
        - destruct X as [->|[]]. right. reflexivity.
        - destruct X as [[]|X]. left. congruence. }
      split.
      { rewrite H8. cbn [In]. destruct o; try (exfalso; exact P1); try (split; [intros [X1 X2]; split; [exact X1|intros m [Y|Y]; [discriminate|exact (X2 m Y)]]|intros [X1 X2]; split; [exact X1|intros m Y; apply (X2 m); right; exact Y]]).
        split; [intros [X _]; discriminate|intros [_ X]; exfalso; apply (X n); left; reflexivity]. }
      split; [rewrite H9; f_equal; destruct o; (exfalso; exact P1) || reflexivity|]. split; [rewrite H10; f_equal; destruct o; (exfalso; exact P1) || reflexivity|rewrite H11; f_equal; destruct o; (exfalso; exact P1) || reflexivity].
  Qed.

  (* ---------- wsdlgen ---------- *)
  Theorem wrevert h w o : w_x _ w < List.length h ->
    match o with WOnlyPorts _ _ => False | WLogLevel _ _ => exists c, nth_error h (w_x _ w) = Some c /\ x_level _ _ _ c = w_level _ w
      | WLogOutput _ _ => exists c, nth_error h (w_x _ w) = Some c /\ x_logger _ _ _ c = w_logger _ w | _ => True end ->
    exists h1 w1 u v, wapply h w o = Some (h1, w1, u) /\ wapply h1 w1 u = Some (h, w, v).
  Proof.
    intros Hi Ho. destruct w as [w1 w2 w3 w4 w5 w6 w7 w8]. cbn [w_x w_level w_logger] in *. destruct o; try contradiction; try (do 4 eexists; split; reflexivity).
    - destruct Ho as [c [E L]]. do 4 eexists. cbn [OptModel.wapply OptModel.apply w_x w_level w_pkg w_header w_logger w_ports w_args w_returns at_conf]. unfold at_conf. rewrite E. split; [reflexivity|].
      cbn [OptModel.wapply OptModel.apply w_x w_level w_pkg w_header w_logger w_ports w_args w_returns]. unfold at_conf. rewrite (set_get _ _ _ _ E), set_again, set_back; [reflexivity|]. rewrite E. destruct c. cbn in *. subst. reflexivity.
    - destruct Ho as [c [E L]]. do 4 eexists. cbn [OptModel.wapply OptModel.apply w_x w_level w_pkg w_header w_logger w_ports w_args w_returns at_conf]. unfold at_conf. rewrite E. split; [reflexivity|].
      cbn [OptModel.wapply OptModel.apply w_x w_level w_pkg w_header w_logger w_ports w_args w_returns]. unfold at_conf. rewrite (set_get _ _ _ _ E), set_again, set_back; [reflexivity|]. rewrite E. destruct c. cbn in *. subst. reflexivity.
  Qed.
End P.
