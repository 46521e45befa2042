(* nameAnonymousTypes and copyEltNamesToAnonTypes do what name_tree and copy_tree say. *)
From Verif Require Import Base ScopeModel TreeModel TreeSpec TreeProofs BuiltinModel XsdModel XsdProofs NormModel NormMem NormAttr NormOps NormPass NormSpec NormHoistSpec NormHoistMem NormHoist NormHoistTop NormAnonSpec.
Local Open Scope string_scope.

Lemma nattr_rep h e x l : rep h e x -> nattr h x l = attr e "" l.
Proof. intros R. apply rep_eq in R. destruct R as (_ & _ & _ & A & _). unfold nattr, attr. rewrite (attrs_ok_eq _ _ _ A). reflexivity. Qed.
Lemma is_anon_rep h e x : rep h e x -> is_anon h x = anon_el e.
Proof. intros R. unfold is_anon, anon_el, is_type, type_el, is_elem. rewrite (nattr_rep h e x _ R). apply rep_eq in R. destruct R as (-> & _). reflexivity. Qed.
Lemma has_anon_rep h e x : rep h e x -> has_anon h x = has_anon_el e.
Proof.
  intros R. unfold has_anon, has_anon_el. apply rep_eq in R. destruct R as (_ & _ & _ & _ & _ & B). induction B as [|k y ks ys H _ IH]; cbn [existsb]; auto. rewrite (is_anon_rep h k y H), IH. reflexivity.
Qed.
Lemma first_anon_at h : forall ks1 t xs1 y xs2 i, Forall2 (rep h) ks1 xs1 -> rep h t y -> Forall (fun k => anon_el k = false) ks1 -> anon_el t = true ->
  first_anon h (xs1 ++ y :: xs2)%list i = Some (i + List.length ks1, y).
Proof.
  intros ks1 t xs1 y xs2 i B. revert i. induction B as [|k z ks1 zs H _ IH]; intros i R F Ht; cbn [app first_anon List.length].
  - rewrite (is_anon_rep h t y R), Ht, Nat.add_0_r. reflexivity.
  - inversion F; subst. rewrite (is_anon_rep h k z H). match goal with E : anon_el k = false |- _ => rewrite E end. rewrite IH by auto. f_equal. f_equal. lia.
Qed.
(* the pieces of an element that has one anonymous type *)
Lemma hit_parts g h e x : rep h e x -> hit_ok g e -> exists ks1 t ks2 xs1 y xs2, e_children e = (ks1 ++ t :: ks2)%list /\ kids h x = (xs1 ++ y :: xs2)%list /\
  Forall2 (rep h) ks1 xs1 /\ rep h t y /\ Forall2 (rep h) ks2 xs2 /\ Forall (fun k => anon_el k = false) ks1 /\ anon_el t = true /\ Forall (fun k => anon_el k = false) ks2.
Proof.
  intros R (ks1 & t & ks2 & Ec & A1 & A2 & _ & _ & A5). apply rep_eq in R. destruct R as (_ & _ & _ & _ & _ & B). rewrite Ec in B.
  apply Forall2_app_inv_l in B. destruct B as (xs1 & xb & B1 & B2 & Ex). inversion B2 as [|? y ? xs2 By B3]; subst. exists ks1, t, ks2, xs1, y, xs2. auto 10.
Qed.

Lemma searched_hits g (f : node -> xname) (f' : elem -> xname) h : (forall e x, rep h e x -> f x = f' e) ->
  forall e p x, load h p = Some x -> rep h e x -> flat_map (fun p => match load h p with Some x => [f x] | None => [] end) (hits g h e p x) = map f' (searched g e).
Proof.
  intros Hf. induction e as [n a s c ks IH] using elem_ind'. intros p x L R. rewrite hits_eq, flat_map_app. cbn [searched e_children]. rewrite map_app. f_equal.
  - destruct (g (Elem n a s c ks)); cbn [flat_map map app]; auto. rewrite L, (Hf _ _ R). reflexivity.
  - pose proof R as R'. apply rep_eq in R'. destruct R' as (_ & _ & _ & _ & K & B). cbn [e_children] in B. pose proof (kids_loaded h _ x R) as Lk.
    revert Lk. generalize 0. generalize (n_arr x). generalize (kids h x) B. clear -IH Hf. induction ks as [|k ks IHk]; intros xs B b i Lk; inversion B as [|? y ? ys Hy B']; subst; cbn [hits_kids flat_map map]; auto.
    rewrite flat_map_app, map_app. f_equal.
    + apply IH; [left; auto|specialize (Lk 0); rewrite Nat.add_0_r in Lk; apply Lk; cbn; lia|auto].
    + apply IHk; auto; [intros k' Hk'; apply IH; right; auto|]. intros j Hj. specialize (Lk (S j)). rewrite Nat.add_succ_r in Lk. apply Lk. cbn. lia.
Qed.
Lemma searched_all g (f : node -> xname) (f' : elem -> xname) h e p x : (forall e x, rep h e x -> f x = f' e) -> load h p = Some x -> rep h e x ->
  flat_map (fun p => match load h p with Some x => [f x] | None => [] end) (hits_kids g h (n_arr x) (e_children e) (kids h x) 0) = map f' (flat_map (searched g) (e_children e)).
Proof.
  intros Hf L R. pose proof R as R'. apply rep_eq in R'. destruct R' as (_ & _ & _ & _ & K & B). pose proof (kids_loaded h _ x R) as Lk.
  revert Lk. generalize 0. generalize (n_arr x). generalize (kids h x) B. generalize (e_children e). clear -Hf. induction l as [|k ks IHk]; intros xs B b i Lk; inversion B as [|? y ? ys Hy B']; subst; cbn [hits_kids flat_map map]; auto.
  rewrite flat_map_app, map_app. f_equal.
  - apply searched_hits; [auto|specialize (Lk 0); rewrite Nat.add_0_r in Lk; apply Lk; cbn; lia|auto].
  - apply IHk; auto. intros j Hj. specialize (Lk (S j)). rewrite Nat.add_succ_r in Lk. apply Lk. cbn. lia.
Qed.

Section Growing.
  Variables grow agrow : nat -> nat -> nat.
  Notation free h r := (List.length (cells h (n_arr r)) - n_len r).

  (* ---------- copyEltNamesToAnonTypes ---------- *)
  Lemma copies_type t l v : type_el t = true -> copies (set_attr t "" l v) = copies t.
  Proof.
    intros H. assert (N : forall d, type_el d = true -> copies d = false).
    { intros d Hd. unfold copies. assert (E : xname_eqb (e_name d) (xs "element") || xname_eqb (e_name d) (xs "attribute") = false); [|rewrite E; reflexivity].
      unfold type_el in Hd. apply orb_true_iff in Hd. destruct Hd as [Hd|Hd]; apply xname_eqb_eq in Hd; rewrite Hd; reflexivity. }
    rewrite !N; auto.
  Qed.
  Lemma copy_step root tns h s e p x r : good h e p x -> load h root = Some r -> kids_ok h r -> fst root <> n_arr r ->
    ~ In (fst root) (foot h e x) -> ~ In (n_arr r) (foot h e x) -> fst p <> fst root -> (fst p = n_arr r -> snd p < n_len r) -> copies e = true -> hit_ok copies e ->
    copy_name grow agrow root tns (h, s) p = match copy_dec tns e s with
                    | (None, s') => (h, s')
                    | (Some (tas, (u, q)), s') => (hoist root grow agrow p (anon_index (e_children e)) tas u q h, s')
                    end.
  Proof.
    intros (L & R & N & Np) _ _ _ _ _ _ _ _ Ho. unfold copy_name, copy_dec. rewrite L, (nattr_rep h e x _ R).
    assert (Es : n_scope x = e_scope e) by (apply rep_eq in R; tauto). rewrite Es.
    destruct (name_in _ s); [reflexivity|]. destruct (hit_parts _ h e x R Ho) as (ks1 & t & ks2 & xs1 & y & xs2 & Ec & Ex & B1 & By & B2 & A1 & A2 & A3).
    rewrite Ex, (first_anon_at h ks1 t xs1 y xs2 0 B1 By A1 A2). cbn [Nat.add]. rewrite Ec, anon_index_app by auto. unfold hoist. rewrite L, Ex.
    rewrite (Forall2_len _ _ _ B1), nth_error_at. cbn [n_sets]. destruct (n_set_attr agrow h y "name" (attr e "" "name")) as [h1 t1]. reflexivity.
  Qed.
  Lemma copied fuel h e root r : good h e root r -> height e <= fuel -> Forall (tidy copies) (e_children e) ->
    room _ copies (copy_dec (attr e "" "targetNamespace")) (free h r) 0 (e_children e) (used_names e) ->
    exists h', copy_elt_names grow agrow fuel root h = Done h' /\ leaves h h' e (copy_tree e) root r.
  Proof.
    intros G Hf T Hr. pose proof G as (L & R & _). unfold copy_elt_names. rewrite L.
    rewrite (search_heap_hits _ named h) with (e := e) (x := r); auto.
    2:{ intros d y Rd. unfold named, is_type, is_elem, type_el. rewrite (nattr_rep h d y _ Rd). apply rep_eq in Rd. destruct Rd as (-> & _). reflexivity. }
    rewrite (search_heap_hits _ copies h) with (e := e) (x := r); auto.
    2:{ intros d y Rd. unfold copies, is_elem. rewrite (nattr_rep h d y _ Rd), (has_anon_rep h d y Rd). apply rep_eq in Rd. destruct Rd as (-> & _). reflexivity. }
    rewrite (searched_all named (fun y => resolve_default (n_scope y) (nattr h y "name") (nattr h r "targetNamespace")) (fun d => resolve_default (e_scope d) (attr d "" "name") (attr e "" "targetNamespace")) h e root r); auto.
    2:{ intros d y Rd. rewrite (nattr_rep h d y _ Rd), (nattr_rep h e r _ R). apply rep_eq in Rd. destruct Rd as (_ & -> & _). reflexivity. }
    rewrite (nattr_rep h e r _ R).
    destruct (top_ok _ copies (copy_dec (attr e "" "targetNamespace")) root (copy_name grow agrow root (attr e "" "targetNamespace")) grow agrow copies_type (copy_step root (attr e "" "targetNamespace")) h e r (used_names e) G T Hr) as (h' & Q1 & Q2).
    exists h'. split; [|exact Q2]. fold (used_names e). rewrite Q1. reflexivity.
  Qed.

  (* ---------- nameAnonymousTypes ---------- *)
  Definition name_step (root : ptr) (tns : string) (st : heap * res nat) (p : ptr) : heap * res nat :=
    match st with
    | (h, Done n) =>
        match load h p with
        | None => (h, Runs)
        | Some el =>
            if negb (String.eqb (nspace (n_name el)) schemaNS) then st else
            match updates (nlocal (n_name el)) with
            | None => (h, Fails)
            | Some (upd, accum) => let (h', n') := name_kids grow agrow (n_len el) root p tns upd accum 0 (h, n) in (h', Done n')
            end
        end
    | _ => st
    end.
  Lemma name_steps root tns ps : forall h n, name_each grow agrow root tns ps (h, n) =
    match each (name_step root tns) (h, Done n) ps with (h', Done n') => Done (h', n') | (_, Fails) => Fails | (_, Runs) => Runs end.
  Proof.
    assert (St : forall ps h, each (name_step root tns) (h, Fails) ps = (h, Fails)) by (induction ps0 as [|q ps0 IH]; intros h; cbn [each name_step]; auto).
    assert (Sr : forall ps h, each (name_step root tns) (h, Runs) ps = (h, Runs)) by (induction ps0 as [|q ps0 IH]; intros h; cbn [each name_step]; auto).
    induction ps as [|p ps IH]; intros h n; cbn [name_each each]; [reflexivity|]. cbn [fst]. unfold name_step at 2. destruct (load h p) as [el|]; [|rewrite Sr; reflexivity].
    destruct (negb (String.eqb (nspace (n_name el)) schemaNS)); [apply IH|]. destruct (updates (nlocal (n_name el))) as [[upd accum]|]; [|rewrite St; reflexivity].
    destruct (name_kids grow agrow (n_len el) root p tns upd accum 0 (h, n)) as [h1 n1]. apply IH.
  Qed.
  Lemma has_anon_type t l v : type_el t = true -> has_anon_el (set_attr t "" l v) = has_anon_el t.
  Proof. intros _. destruct t. reflexivity. Qed.
  Lemma name_kids_none root p tns upd accum h n x : load h p = Some x -> forall f i, (forall j y, i <= j -> nth_error (kids h x) j = Some y -> is_anon h y = false) ->
    name_kids grow agrow f root p tns upd accum i (h, n) = (h, n).
  Proof.
    intros L. induction f as [|f IH]; intros i H; cbn [name_kids]; [destruct (load h p); reflexivity|]. rewrite L. destruct (nth_error (kids h x) i) as [y|] eqn:E; [|reflexivity].
    rewrite (H i y) by auto. cbn [negb]. apply IH. intros j z Hj. apply H. lia.
  Qed.
  Lemma name_kids_skip root p tns upd accum h n x ks1 xs1 xr : load h p = Some x -> Forall2 (rep h) ks1 xs1 -> Forall (fun k => anon_el k = false) ks1 ->
    forall pre f, kids h x = (pre ++ xs1 ++ xr)%list ->
    name_kids grow agrow (List.length xs1 + f) root p tns upd accum (List.length pre) (h, n) = name_kids grow agrow f root p tns upd accum (List.length pre + List.length xs1) (h, n).
  Proof.
    intros L B F. revert F. induction B as [|k y ks ys H B IH]; intros F pre f Ex.
    - cbn [List.length Nat.add]. rewrite Nat.add_0_r. reflexivity.
    - inversion F; subst. cbn [List.length Nat.add name_kids]. rewrite L, Ex. cbn [app]. rewrite nth_error_at, (is_anon_rep h k y H). match goal with E : anon_el k = false |- _ => rewrite E end. cbn [negb].
      assert (Ep : S (List.length pre) = List.length (pre ++ [y])%list) by (rewrite app_length; cbn; lia). rewrite Ep. rewrite IH; auto.
      + f_equal. rewrite app_length. cbn [List.length]. lia.
      + rewrite Ex, <- app_assoc. reflexivity.
  Qed.
  Lemma name_step_ok root tns h s e p x r : good h e p x -> load h root = Some r -> kids_ok h r -> fst root <> n_arr r ->
    ~ In (fst root) (foot h e x) -> ~ In (n_arr r) (foot h e x) -> fst p <> fst root -> (fst p = n_arr r -> snd p < n_len r) -> has_anon_el e = true -> hit_ok has_anon_el e ->
    name_step root tns (h, s) p = match name_dec tns e s with
                    | (None, s') => (h, s')
                    | (Some (tas, (u, q)), s') => (hoist root grow agrow p (anon_index (e_children e)) tas u q h, s')
                    end.
  Proof.
    intros G Lr Kr Nr Sr Sa Npr Hp _ Ho. unfold name_step, name_dec. destruct s as [n| |]; [|reflexivity|reflexivity]. pose proof G as (L & R & N & Np). rewrite L.
    assert (En : n_name x = e_name e /\ n_scope x = e_scope e) by (apply rep_eq in R; tauto). destruct En as [En Es]. rewrite En.
    destruct (negb (String.eqb (nspace (e_name e)) schemaNS)); [reflexivity|]. destruct (updates (nlocal (e_name e))) as [[upd accum]|]; [|reflexivity].
    destruct (hit_parts _ h e x R Ho) as (ks1 & t & ks2 & xs1 & y & xs2 & Ec & Ex & B1 & By & B2 & A1 & A2 & A3). rewrite Ec, anon_index_app by auto.
    assert (Hn : n_len x = List.length xs1 + S (List.length xs2)). { assert (K : kids_ok h x) by (apply rep_eq in R; tauto). rewrite <- (kids_length h x K), Ex, app_length. reflexivity. }
    pose proof (name_kids_skip root p tns upd accum h n x ks1 xs1 (y :: xs2) L B1 A1 [] (S (List.length xs2)) Ex) as Sk. cbn [List.length Nat.add] in Sk. rewrite Hn, Sk. clear Sk.
    assert (Hl : List.length xs1 = List.length ks1) by (symmetry; eapply Forall2_len; exact B1).
    set (q := prefix (e_scope e) (mkName tns (anon_name (S n)))). set (tas := [("name", anon_name (S n)); ("_isAnonymous", "true")]).
    set (q' := if accum then attr e "" upd ++ " " ++ q else q).
    destruct (hoist_ok (res nat) has_anon_el (name_dec tns) root (fun st _ => st) grow agrow h e p x r ks1 t ks2 xs1 y xs2 tas upd q' G Ec Ex Hl Lr Kr Nr Sr Sa Npr Hp) as (x' & t1 & r' & _ & C1 & C2 & _ & C4 & _).
    set (h5 := hoist root grow agrow p (List.length ks1) tas upd q' h) in *.
    assert (H5 : h5 = hoist root grow agrow p (List.length ks1) tas upd q' h) by reflexivity.
    unfold hoist in H5. rewrite L, Ex, <- Hl, nth_error_at in H5. unfold tas in H5. cbn [n_sets] in H5.
    cbn [name_kids]. rewrite L, Ex, nth_error_at, (is_anon_rep h t y By), A2. cbn [negb].
    assert (N' := N). rewrite foot_eq, Ec, Ex, foots_app in N' by auto. cbn [foots] in N'. rewrite (foot_eq h t y) in N'.
    assert (Nt : NoDup (foot h t y)). { rewrite foot_eq. apply NoDup_cons_iff in N'. destruct N' as [_ N']. apply NoDup_cons_iff in N'. destruct N' as [_ N']. apply nodup_app_inv in N'. destruct N' as (_ & N' & _). apply nodup_app_inv in N'. tauto. }
    assert (Hne : n_at x <> n_at y). { apply NoDup_cons_iff in N'. destruct N' as [N' _]. intros E. apply N'. right. rewrite !in_app_iff. right. left. left. auto. }
    pose proof (n_sets_ok agrow tas h y t By Nt) as Q. unfold tas in Q. cbn [n_sets] in Q.
    destruct (n_set_attr agrow h y "name" (anon_name (S n))) as [h1 t2]. destruct (n_set_attr agrow h1 t2 "_isAnonymous" "true") as [h2 t3]. rewrite Es.
    destruct Q as (_ & _ & _ & Qa & _).
    assert (Ea : nattr h2 x upd = attr e "" upd).
    { rewrite <- (nattr_rep h e x _ R). unfold nattr, n_attrs, ats. rewrite Qa; auto. apply rep_eq in R. destruct R as (_ & _ & _ & (la & E & _) & _). apply nth_error_Some. congruence. }
    fold q. rewrite Ea. fold q'. rewrite <- H5. destruct accum; [|reflexivity].
    rewrite (name_kids_none root p tns upd true h5 (S n) x' C1); [reflexivity|].
    intros j z _ Hz. rewrite C4 in Hz. apply rep_eq in C2. destruct C2 as (_ & _ & _ & _ & _ & C2). rewrite C4 in C2. cbn [detached e_children] in C2.
    assert (Fa : Forall (fun k => anon_el k = false) (ks1 ++ ks2)%list) by (apply Forall_app; auto).
    clear -C2 Hz Fa. revert j Hz Fa. induction C2 as [|k w l m H _ IH]; intros [|j] Hz Fa; try discriminate Hz; inversion Fa; subst; cbn [nth_error] in Hz.
    - injection Hz as <-. rewrite (is_anon_rep h5 k w H). auto.
    - eapply IH; eauto.
  Qed.
  Lemma named_all fuel h e root r n : good h e root r -> height e <= fuel -> Forall (tidy has_anon_el) (e_children e) ->
    room _ has_anon_el (name_dec (attr e "" "targetNamespace")) (free h r) 0 (e_children e) (Done n) ->
    match snd (name_tree e n) with
    | Done n' => exists h', name_anonymous grow agrow fuel root (h, n) = Done (h', n') /\ leaves h h' e (fst (name_tree e n)) root r
    | Fails => name_anonymous grow agrow fuel root (h, n) = Fails
    | Runs => name_anonymous grow agrow fuel root (h, n) = Runs
    end.
  Proof.
    intros G Hf T Hr. pose proof G as (L & R & _). unfold name_anonymous. cbn [fst]. rewrite L.
    rewrite (search_heap_hits _ has_anon_el h) with (e := e) (x := r); auto; [|intros d y Rd; apply has_anon_rep; auto].
    rewrite (nattr_rep h e r _ R), name_steps.
    destruct (top_ok _ has_anon_el (name_dec (attr e "" "targetNamespace")) root (name_step root (attr e "" "targetNamespace")) grow agrow has_anon_type (name_step_ok root (attr e "" "targetNamespace")) h e r (Done n) G T Hr) as (h' & Q1 & Q2).
    fold (name_tree e n) in Q1, Q2. rewrite Q1. destruct (snd (name_tree e n)); [|reflexivity|reflexivity]. exists h'. auto.
  Qed.
End Growing.
