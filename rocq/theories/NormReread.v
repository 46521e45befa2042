(* Normal forms can be written and read again. *)
From Verif Require Import Base ScopeModel ScopeSpec ScopeProofs TreeModel TreeSpec TreeProofs MarshalSpec BuiltinModel XsdModel NormModel NormMem NormOps NormPath NormSpec NormPass NormDefaults NormExpand NormAnonSpec NormAnonProofs NormCopyProofs NormAnonRoots NormUnpack NormUnpackAll NormFixed NormAgain.
Local Open Scope string_scope.

Lemma no_colon p : ncname p = true -> s_in ":"%char p = false.
Proof.
  destruct p as [|c p]; [discriminate|]. cbn [ncname]. rewrite andb_true_iff. intros [L A]. cbn [s_in].
  assert (X : forall c, name_char c = true -> Ascii.eqb ":" c = false).
  { intros z Hz. destruct (Ascii.eqb ":" z) eqn:E; auto. apply Ascii.eqb_eq in E. subst z. discriminate Hz. }
  assert (Y : forall c, letter c = true -> name_char c = true) by (intros z Hz; unfold name_char; rewrite Hz; reflexivity).
  clear -X Y L A. assert (Z : s_in ":"%char (String c p) = false); [|exact Z]. assert (A' : s_all name_char (String c p) = true) by (cbn [s_all]; rewrite (Y c L), A; reflexivity).
  clear L A. revert A'. generalize (String c p). intros s. induction s as [|z s IH]; cbn [s_all s_in]; auto. rewrite andb_true_iff. intros [Hz Hs]. rewrite (IH Hs), orb_false_r. specialize (X z Hz). auto.
Qed.

(* ---------- names of the schema namespace ---------- *)
Definition good (s : scope) : Prop := forall d, In d s -> decl_ok d.
Lemma decl_no_colon s u p : good s -> In (mkName u p) s -> s_in ":"%char p = false.
Proof. intros G H. destruct (G _ H) as ([E|[E _]] & _); cbn [nlocal] in E; [subst; reflexivity|apply no_colon, E]. Qed.
Lemma split_of q p l : qname_parts q p l -> split_qname q = (p, l).
Proof. apply split_qname_parts. Qed.
(* the prefix does not depend on the local part *)
Lemma xs_prefix s : good s -> (forall a, ncname a = true -> prefix s (xs a) = "") \/ exists p, (forall a, ncname a = true -> split_qname (prefix s (xs a)) = (p, a)) /\ (p = "" \/ ncname p = true) /\
  forall a, ncname a = true -> prefix s (xs a) = a \/ prefix s (xs a) = p ++ ":" ++ a.
Proof.
  intros G. assert (N : forall a, ncname a = true -> nlocal (xs a) <> "") by (intros [|c a] H; [discriminate H|discriminate]).
  assert (C := fun a H => prefix_cases s (xs a) (N a H)). change (nspace (xs _)) with schemaNS in C.
  destruct (in_dec xname_eq_dec (mkName schemaNS "") s) as [D|D].
  - right. exists "". split; [|split; [auto|]]; intros a Ha; destruct (C a Ha) as [(_ & ->)|[(X & _)|(X & _)]]; try discriminate; try contradiction; try (exfalso; exact (X _ D)).
    + apply split_of. right. split; [apply no_colon, Ha|auto].
    + left. reflexivity.
  - destruct (C "a" eq_refl) as [(X & _)|[(_ & l1 & p & l2 & Es & Hl & _)|(X & _)]]; try discriminate; try contradiction.
    + assert (P : forall a, ncname a = true -> prefix s (xs a) = p ++ ":" ++ a).
      { intros a Ha. destruct (C a Ha) as [(X & _)|[(_ & l1' & p' & l2' & Es' & Hl' & ->)|(X & _)]]; try discriminate; try contradiction; [|exfalso; apply (X p); rewrite Es; apply in_or_app; right; left; auto].
        change (nlocal (xs a)) with a. f_equal. clear -Es Es' Hl Hl'. subst s. revert l1' Es'. induction l1 as [|z l1 IH]; intros [|z' l1'] E; cbn [app] in E; injection E as E1 E2.
        - congruence.
        - exfalso. apply (Hl p'). rewrite E2. apply in_or_app. right. left. auto.
        - exfalso. apply (Hl' p). rewrite <- E2. apply in_or_app. right. left. auto.
        - exact (IH _ E2). }
      right. exists p. split; [|split].
      * intros a Ha. rewrite (P a Ha). apply split_of. left. split; [auto|]. apply (decl_no_colon s schemaNS p G). rewrite Es. apply in_or_app. right. left. auto.
      * destruct (G (mkName schemaNS p)) as ([E|[E _]] & _); [rewrite Es; apply in_or_app; right; left; auto|left; exact E|right; exact E].
      * intros a Ha. right. exact (P a Ha).
    + left. intros a Ha. destruct (C a Ha) as [(Y & _)|[(_ & l1 & p & l2 & Es & _)|(_ & ->)]]; try discriminate; auto; exfalso; [exact (X _ Y)|apply (X p); rewrite Es; apply in_or_app; right; left; auto].
Qed.
Lemma xs_name_ok s a b : good s -> ncname b = true -> b <> "xmlns" -> name_ok s (xs a) -> name_ok s (xs b).
Proof.
  intros G Nb Xb (Na & Xa & U & R). change (nlocal (xs a)) with a in *. split; [exact Nb|]. split; [exact Xb|]. split; [exact U|].
  destruct (xs_prefix s G) as [X|(p & S & _)].
  - rewrite (X a Na) in R. exfalso. destruct a as [|c a]; [discriminate Na|]. unfold resolve, resolve_ns in R. change (split_qname "") with ("", "") in R. cbv iota beta in R. destruct (find_last _ s); cbn [fst] in R; apply (f_equal nlocal) in R; discriminate R.
  - unfold resolve, resolve_ns in *. rewrite (S b Nb). rewrite (S a Na) in R. destruct (String.eqb p "xml"); [apply (f_equal nspace) in R; discriminate R|]. destruct (String.eqb p "xmlns"); [apply (f_equal nspace) in R; discriminate R|].
    destruct (find_last _ s); apply (f_equal nspace) in R; cbn [fst nspace] in *; rewrite R; reflexivity.
Qed.
Lemma name_char_value c : name_char c = true -> (plain_byte c && negb (Ascii.eqb c """")) = true.
Proof. destruct c as [[] [] [] [] [] [] [] []]; vm_compute; auto. Qed.
Lemma all_weaker (f g : ascii -> bool) s : (forall c, f c = true -> g c = true) -> s_all f s = true -> s_all g s = true.
Proof. intros H. induction s as [|c s IH]; cbn [s_all]; auto. rewrite !andb_true_iff. intros [A B]. auto. Qed.
Lemma ncname_value s : ncname s = true -> value_ok s = true.
Proof.
  intros H. apply (all_weaker name_char); [exact name_char_value|]. destruct s as [|c s]; [reflexivity|]. cbn [ncname] in H. cbn [s_all]. apply andb_true_iff in H. destruct H as [A B]. rewrite B, andb_true_r. unfold name_char. rewrite A. reflexivity.
Qed.
Lemma xs_value s a : good s -> ncname a = true -> value_ok (prefix s (xs a)) = true.
Proof.
  intros G Ha. destruct (xs_prefix s G) as [X|(p & _ & Hp & C)]; [rewrite (X a Ha); reflexivity|]. destruct (C a Ha) as [-> | ->]; [apply ncname_value, Ha|]. unfold value_ok. rewrite !s_all_app.
  assert (V : value_ok p = true) by (destruct Hp as [-> |Hp]; [reflexivity|apply ncname_value, Hp]). unfold value_ok in V. rewrite V. change (s_all _ ":") with true. exact (ncname_value a Ha).
Qed.

(* ---------- one element of a tree that can be written ---------- *)
Definition here (ps : scope) (d : elem) : Prop := exists ds, e_scope d = (ps ++ ds)%list /\ good ds /\ name_ok (e_scope d) (e_name d) /\
  (forall x, In x (e_attrs d) -> attr_ok (e_scope d) x) /\ (e_children d = [] -> char_data (e_content d)).
Lemma printable_iff ps e : printable ps e <-> here ps e /\ forall k, In k (e_children e) -> printable (e_scope e) k.
Proof.
  split.
  - intros H. destruct H as [ps n a ds c ch A B C D E]. split; [exists ds; exact (conj eq_refl (conj A (conj B (conj C D))))|exact E].
  - destruct e as [n a s c ch]. cbn [e_children e_scope]. intros ((ds & Es & A & B & C & D) & E). cbn [e_scope e_name e_attrs e_children e_content] in *. subst s. constructor; auto.
Qed.
Lemma good_app s t : good s -> good t -> good (s ++ t)%list.
Proof. intros A B d H. apply in_app_or in H. destruct H; auto. Qed.
Lemma here_good ps d : good ps -> here ps d -> good (e_scope d).
Proof. intros G (ds & -> & H & _). apply good_app; auto. Qed.

(* ---------- attributes ---------- *)
Definition attrs_ok (s : scope) (l : list xattr) : Prop := forall x, In x l -> attr_ok s x.
Lemma attr_set_ok s l v : ncname l = true -> l <> "xmlns" -> value_ok v = true -> forall a, attrs_ok s a -> attrs_ok s (attr_set a "" l v).
Proof.
  intros Nl Xl V. induction a as [|y a IH]; intros A x; cbn [attr_set].
  - intros [<-|[]]. unfold attr_ok. cbn [aname avalue nlocal nspace]. repeat split; auto; discriminate.
  - destruct (name_match "" l (aname y)).
    + intros [<-|H]; [|apply A; right; auto]. destruct (A y (or_introl eq_refl)) as (B1 & B2 & B3 & B4 & _ & B6). unfold attr_ok. cbn [aname avalue]. auto 10.
    + intros [<-|H]; [apply A; left; auto|]. apply IH; [intros z Hz; apply A; right; auto|exact H].
Qed.
Definition kept (e e' : elem) : Prop := forall q, match sub e q, sub e' q with
  | Some d, Some d' => e_name d' = e_name d /\ e_scope d' = e_scope d /\ e_content d' = e_content d /\ (good (e_scope d) -> attrs_ok (e_scope d) (e_attrs d) -> attrs_ok (e_scope d) (e_attrs d'))
  | None, None => True
  | _, _ => False
  end.
Lemma kept_printable ps e : printable ps e -> forall e', good ps -> kept e e' -> printable ps e'.
Proof.
  induction 1 as [ps n a ds c ch A B C D E IH]. intros e' G K. pose proof (K []) as K0. cbn [sub e_name e_scope e_content e_attrs] in K0. destruct K0 as (K1 & K2 & K3 & K4). apply printable_iff.
  assert (Kid : forall i, match nth_error ch i, nth_error (e_children e') i with Some k, Some k' => kept k k' | None, None => True | _, _ => False end).
  { intros i. pose proof (fun q => K (i :: q)) as Q. cbn [sub e_children] in Q. destruct (nth_error ch i) as [k|] eqn:E1, (nth_error (e_children e') i) as [k'|] eqn:E2; auto; [specialize (Q [])|specialize (Q [])]; exact Q. }
  assert (Gs : good (ps ++ ds)%list) by (apply good_app; auto). split.
  - exists ds. rewrite K1, K2, K3. split; [auto|]. split; [exact A|]. split; [exact B|]. split; [exact (K4 Gs C)|]. intros E0. apply D. destruct ch as [|k ch]; [auto|]. specialize (Kid 0). rewrite E0 in Kid. contradiction.
  - intros k' Hk'. rewrite K2. apply In_nth_error in Hk'. destruct Hk' as (i & Ei). specialize (Kid i). rewrite Ei in Kid. destruct (nth_error ch i) as [k|] eqn:Ek; [|contradiction]. apply nth_error_In in Ek. exact (IH k Ek k' Gs Kid).
Qed.
Lemma defaulted_kept e e' : only_attrs defaulted e e' -> kept e e'.
Proof.
  intros H q. specialize (H q). destruct (sub e q) as [d|], (sub e' q) as [d'|]; auto. destruct H as (H1 & H2 & H3 & D1 & D2 & D3). split; [auto|]. split; [auto|]. split; [auto|]. intros G A.
  destruct (untyped_dec (fun a _ => a) "attribute" q d) as [U|U]; [rewrite (D1 U); apply attr_set_ok; auto; [discriminate|apply xs_value; auto]|].
  destruct (untyped_dec (fun a _ => a) "element" q d) as [V|V]; [rewrite (D2 V); apply attr_set_ok; auto; [discriminate|apply xs_value; auto]|]. rewrite (D3 U V). exact A.
Qed.
Lemma xattr_dec (x y : xattr) : {x = y} + {x <> y}.
Proof. decide equality; [apply string_dec|apply xname_eq_dec]. Defined.
Lemma optional_kept e e' : only_attrs (made_optional e) e e' -> kept e e'.
Proof.
  intros H q. specialize (H q). destruct (sub e q) as [d|], (sub e' q) as [d'|]; auto. destruct H as (H1 & H2 & H3 & H4 & H5). split; [auto|]. split; [auto|]. split; [auto|]. intros G A.
  destruct (list_eq_dec xattr_dec (e_attrs d') (attr_set (e_attrs d) "" "minOccurs" "0")) as [E|E]; [rewrite E; apply attr_set_ok; auto; discriminate|]. rewrite H5; [exact A|]. intros O. exact (E (H4 O)).
Qed.

(* ---------- the long form ---------- *)
Lemma printable_same ps e ks : printable ps e -> (e_children e = [] <-> ks = []) -> (forall k, In k ks -> printable (e_scope e) k) -> printable ps (with_children e ks).
Proof.
  intros P E K. apply printable_iff in P. destruct P as ((ds & A & B & C & D & F) & _). destruct e as [n a s c ch]. cbn [with_children e_name e_attrs e_scope e_content e_children] in *. apply printable_iff. cbn [e_name e_attrs e_scope e_content e_children]. split; [|exact K].
  exists ds. cbn [e_name e_attrs e_scope e_content e_children]. split; [exact A|]. split; [exact B|]. split; [exact C|]. split; [exact D|]. intros X. apply F, E, X.
Qed.
Lemma shorthand_name e : shorthand e = true -> e_name e = xs "complexType".
Proof. unfold shorthand. rewrite andb_true_iff. intros [H _]. apply xname_eqb_eq in H. exact H. Qed.
Lemma expand_printable ps e : printable ps e -> good ps -> no_nested_ct e -> printable ps (expand_el e).
Proof.
  induction 1 as [ps n a ds c ch A B C D E IH]. intros G N. set (e := Elem n a (ps ++ ds)%list c ch) in *. assert (Gs : good (ps ++ ds)%list) by (apply good_app; auto).
  assert (K : forall k, In k (map expand_el ch) -> printable (ps ++ ds)%list k). { intros k Hk. apply in_map_iff in Hk. destruct Hk as (k0 & <- & Hk). apply IH; auto. apply (no_nested_kid e); auto. }
  assert (Pe : printable ps e) by (constructor; auto). rewrite (expand_el_flat e N). destruct (shorthand e) eqn:Sh.
  - apply shorthand_name in Sh. change (e_name e) with n in *. change (e_attrs e) with a. change (e_scope e) with (ps ++ ds)%list. change (e_children e) with ch. subst n. unfold long_form. set (s := (ps ++ ds)%list) in *.
    assert (Own : forall l k a', ncname l = true -> l <> "xmlns" -> attrs_ok s a' -> (forall x, In x k -> printable s x) -> printable s (Elem (xs l) a' s "" k)).
    { intros l k a' Hl Xl Ha' Hk. apply printable_iff. cbn [e_scope e_children]. split; [|exact Hk]. exists []. cbn [e_name e_attrs e_scope e_content e_children]. split; [rewrite app_nil_r; auto|]. split; [intros ? []|]. split; [apply (xs_name_ok s "complexType"); auto|]. split; [exact Ha'|]. intros _. constructor. }
    constructor; auto.
    + intros X. destruct (app_cons_not_nil _ _ _ (eq_sym X)).
    + intros k Hk. apply in_app_or in Hk. destruct Hk as [Hk|[<-|[]]]; [apply K; apply filter_In in Hk; apply Hk|]. apply Own; [auto|discriminate|intros ? []|]. intros k [<-|[]]. apply Own; [auto|discriminate| |intros k Hk; apply K; apply filter_In in Hk; apply Hk].
      intros x [<-|[]]. unfold attr_ok. cbn [aname avalue nlocal nspace]. split; [auto|]. split; [discriminate|]. split; [discriminate|]. split; [discriminate|]. split; [apply xs_value; auto|auto].
  - unfold below. change (e_children e) with ch. apply printable_same; auto. change (e_children e) with ch. destruct ch; split; intros X; try discriminate; auto.
Qed.
Lemma below_printable ps e : printable ps e -> good ps -> no_nested_ct e -> printable ps (below expand_el e).
Proof.
  intros P G N. pose proof P as Q. apply printable_iff in Q. destruct Q as (H & K). apply printable_same; auto; [destruct (e_children e); split; intros X; try discriminate; auto|].
  intros k Hk. apply in_map_iff in Hk. destruct Hk as (k0 & <- & Hk). apply expand_printable; [auto|eapply here_good; eauto|apply (no_nested_kid e); auto].
Qed.
Lemma eheight_height : forall n e, height e <= n -> (eheight e + 1 <= N.of_nat (height e))%N.
Proof.
  induction n as [|n IH]; intros e H; rewrite height_eq in *; [lia|]. destruct e as [nm a s c ch]. cbn [e_children] in *. cbn [eheight].
  assert (X : (fold_right (fun c h => N.max (1 + eheight c) h) 0 ch <= N.of_nat (heights ch))%N); [|lia].
  apply le_S_n in H. revert H. induction ch as [|k ch IHc]; intros H; cbn [fold_right heights] in *; [lia|]. specialize (IHc ltac:(lia)). specialize (IH k ltac:(lia)). lia.
Qed.
Lemma prepared_printable e e2 ps : prepared e e2 -> good ps -> printable ps e -> printable ps e2.
Proof. intros (e1 & A & B) G P. apply (kept_printable ps e1); [apply (kept_printable ps e); auto; apply defaulted_kept, A|auto|apply optional_kept, B]. Qed.
Lemma prepared_plain e e2 : prepared e e2 -> plain e -> plain e2 /\ height e2 = height e.
Proof.
  intros (e1 & A & B) P. split.
  - apply (changed_plain _ e1 e2 (optional_changed e1 e2 B)); try discriminate. apply (changed_plain _ e e1 (defaulted_changed e e1 A)); auto; discriminate.
  - rewrite (only_attrs_height (fun a _ => a) _ _ _ B). exact (only_attrs_height (fun a _ => a) _ _ _ A).
Qed.
