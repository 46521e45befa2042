From Coq Require Import Permutation.
From Verif Require Import Base ScopeModel TreeModel BuiltinModel XsdModel XsdProofs TypesModel TypesSpec TypesProofs TypesMixed TypesParse TypesFinal.
Local Open Scope string_scope.

(* ---------- the outcome does not depend on the order in which maps are ranged over ---------- *)
Lemma resolved_link look d d' m : resolved (fun n u => look n = Some u) d d' -> In (TLink m) (refs d) -> exists u : ty, look m = Some u.
Proof.
  intros H Hi.
  assert (P : forall t u, points (fun n u => look n = Some u) t u -> t = TLink m -> exists u, look m = Some u) by (intros t u [n x Hx| | |] E; try discriminate; injection E as <-; eauto).
  destruct d as [c|s], d' as [c'|s']; cbn [resolved] in H; try tauto; cbn [refs] in Hi.
  - destruct H as (A & B & C & _). destruct Hi as [Hi|Hi]; [eauto|]. apply in_app_iff in Hi as [Hi|Hi]; apply in_map_iff in Hi as (e & He & Hi).
    + destruct (forall2_in_l _ _ _ B _ Hi) as (e' & _ & Q & _). eauto.
    + destruct (forall2_in_l _ _ _ C _ Hi) as (e' & _ & Q & _). eauto.
  - destruct H as (A & B & _). destruct Hi as [Hi|Hi]; [eauto|]. destruct (forall2_in_l _ _ _ B _ Hi) as (e' & _ & Q). eauto.
Qed.
Lemma nth_ext_opt {A} (a b : list A) : (forall i, nth_error a i = nth_error b i) -> a = b.
Proof.
  revert b. induction a as [|x a IH]; intros [|y b] H; auto; try (specialize (H 0); discriminate).
  pose proof (H 0) as H0. injection H0 as ->. f_equal. apply IH. intros i. apply (H (S i)).
Qed.
Lemma mapo_ext {A B} (f h : A -> option B) : (forall x, f x = h x) -> forall m, mapo f m = mapo h m.
Proof. intros E. induction m as [|x m IH]; auto. cbn [mapo]. rewrite E, IH. auto. Qed.
Lemma resolve_def_ext look look' d : (forall n, look n = look' n) -> resolve_def look d = resolve_def look' d.
Proof.
  intros E. assert (T : forall t, resolve_ty look t = resolve_ty look' t) by (intros []; cbn [resolve_ty]; auto).
  destruct d as [c|s]; cbn [resolve_def]; rewrite !T.
  - erewrite (mapo_ext _ _ (fun e => f_equal (option_map _) (T (el_type e)))), (mapo_ext _ _ (fun e => f_equal (option_map _) (T (at_type e)))). reflexivity.
  - rewrite (mapo_ext _ _ T). reflexivity.
Qed.
Lemma resolve_types_order look look' es es' st st' : (forall n, look n = look' n) -> good_look look -> (forall x, In x es <-> In x es') ->
  resolve_types look es st = Some st' -> resolve_types look' es' st = Some st'.
Proof.
  intros E G P H. assert (G' : good_look look') by (intros n t Ht; apply (G n); rewrite E; auto). apply resolve_types_spec in H as [L R]; auto.
  destruct (resolve_types look' es' st) as [st2|] eqn:E2.
  - f_equal. apply resolve_types_spec in E2 as [L2 R2]; auto. apply nth_ext_opt. intros i. destruct (nth_error st i) as [d|] eqn:Ed.
    + destruct (R i d Ed) as (d1 & H1 & A1 & B1). destruct (R2 i d Ed) as (d2 & H2 & A2 & B2). rewrite H1, H2. f_equal.
      destruct (Exists_dec (fun e : xname * ty => snd e = TPtr i) es (fun e => ty_dec (snd e) (TPtr i))) as [Ex|Ne].
      * apply Exists_exists in Ex as ([m u] & Hm & Hu). cbn in Hu. subst u. specialize (A1 (ex_intro _ m Hm)).
        specialize (A2 (ex_intro _ m (proj1 (P _) Hm))). rewrite (resolve_def_ext look look' d E) in A1. congruence.
      * rewrite B1, B2; auto; intros m Hm; apply Ne; apply Exists_exists; exists (m, TPtr i); split; auto. apply P. auto.
    + assert (nth_error st' i = None /\ nth_error st2 i = None) as [-> ->]; auto. rewrite !nth_error_None in *. lia.
  - apply resolve_types_none in E2 as (n & i & d & m & Hi & Hd & Hm & Lm); auto. destruct (R i d Hd) as (d1 & H1 & A1 & _).
    specialize (A1 (ex_intro _ n (proj2 (P _) Hi))). apply resolve_def_spec in A1 as [A1 _]; auto. destruct (resolved_link _ _ _ _ A1 Hm) as (u & Hu).
    rewrite E in Hu. congruence.
Qed.
Lemma alike_eq a b : alike a b -> (forall i, is_mixed a i <-> is_mixed b i) -> a = b.
Proof.
  intros A M. apply nth_ext_opt. intros i. destruct (nth_error a i) as [[c|s]|] eqn:E.
  - destruct (alike_dc _ _ _ _ A E) as (c' & E' & _ & _ & X). rewrite E'. f_equal. f_equal.
    assert (Hm : ct_mixed c = ct_mixed c').
    { destruct (M i) as [M1 M2]. destruct (ct_mixed c) eqn:Mc, (ct_mixed c') eqn:Mc'; auto.
      - destruct M1 as (x & Hx & Mx); [exists c; auto|]. congruence.
      - destruct M2 as (x & Hx & Mx); [exists c'; auto|]. congruence. }
    assert (Y : forall m, set_mixed (set_mixed c' false) m = set_mixed c' m) by reflexivity.
    rewrite <- (set_mixed_id c'), <- Y, X, <- Hm. exact (eq_sym (set_mixed_id c)).
  - rewrite (alike_ds _ _ _ _ A E). auto.
  - apply nth_error_None in E. rewrite (alike_length _ _ A) in E. symmetry. apply nth_error_None. auto.
Qed.
Lemma propagate_all_order st es es' st' : base_wf st -> shallow st es -> (forall x, In x es <-> In x es') ->
  propagate_all es st = Some st' -> propagate_all es' st = Some st'.
Proof.
  intros W S P H. pose proof (propagate_all_spec st es W S) as Q. rewrite H in Q. destruct Q as (A & M & N).
  assert (S' : forall n t, In (n, t) es' -> exists k, chain st t k /\ k <= max_depth) by (intros n t Ht; eapply S; apply P; eauto).
  assert (RE : forall i, reached st es i <-> reached st es' i) by (intros i; unfold reached; split; intros (n & t & Hi & Ha); exists n, t; split; auto; apply P; auto).
  pose proof (propagate_all_spec st es' W S') as Q. destruct (propagate_all es' st) as [st2|].
  - destruct Q as (A2 & M2 & _). f_equal. apply alike_eq; [eapply alike_trans; [apply alike_sym|]; eauto|]. intros i. rewrite M, M2, RE. tauto.
  - destruct Q as (i & Hi & Hs). apply RE in Hi. destruct (N i Hi Hs).
Qed.

Section Two.
  Variable l : list rd.
  Hypothesis R : raw_rds l.
  Hypothesis U : unique_names l.
  Variables ord ord' : nat -> list (xname * ty) -> list (xname * ty).
  Hypothesis O : any_order ord.
  Hypothesis O' : any_order ord'.
  Let st0 := fst (initial l).
  Let g := index_types st0 (ord 0 (entries l)).
  Let g' := index_types st0 (ord' 0 (entries l)).

  Lemma same_global n : lookup n g = lookup n g'.
  Proof.
    destruct (lookup n g) as [t|] eqn:E, (lookup n g') as [t'|] eqn:E'; auto.
    - f_equal. apply (U n); [eapply g_called; [exact O|exact E]|eapply g_called; [exact O'|exact E']].
    - exfalso. eapply (g_total l ord' O'); [eapply g_called; [exact O|exact E]|exact E'].
    - exfalso. eapply (g_total l ord O); [eapply g_called; [exact O'|exact E']|exact E].
  Qed.
  Lemma same_look own n : lookup_type g own n = lookup_type g' own n.
  Proof. unfold lookup_type. destruct (parse_builtin n); auto. rewrite same_global. auto. Qed.
  Lemma same_aliases al : forall own, foldo (add_alias g) own al = foldo (add_alias g') own al.
  Proof.
    induction al as [|a al IH]; intros own; auto. cbn [foldo].
    assert (add_alias g own a = add_alias g' own a) as -> by (unfold add_alias; rewrite same_look; auto). destruct (add_alias g' own a); auto.
  Qed.
  Lemma ord_in k x m : In x (ord k m) <-> In x (ord' k m).
  Proof.
    split; intros H; (eapply Permutation_in; [|eapply Permutation_in; [|exact H]]).
    - apply O'.
    - apply Permutation_sym, O.
    - apply O.
    - apply Permutation_sym, O'.
  Qed.
  Lemma finish_order : forall l' k st parsed s, inv l st parsed -> finish g ord k l' (st, parsed) = Ok s -> shallow (fst s) (entries l) ->
    finish g' ord' k l' (st, parsed) = Ok s.
  Proof.
    induction l' as [|r l' IH]; intros k st parsed s I H Sh; cbn [finish] in *; auto.
    destruct (finish_one g (ord k) r (st, parsed)) as [[st2 p2]| |] eqn:E; try discriminate.
    destruct (step_parts l R ord O _ _ _ _ _ _ I E) as (own & st1 & own' & Eo & E1 & E2 & E3 & -> & I2 & W1 & L01 & L12 & L1 & GL & Eo').
    destruct s as [stF pF]. cbn [fst] in Sh.
    pose proof (finish_spec l ord O l' (S k) _ _ _ _ I2 H) as (_ & L2F & _).
    assert (Sh1 : shallow st1 (ord k own')).
    { eapply shallow_later; [exact L12|]. eapply maps_shallow; [exact I2|exact Eo'| |apply O]. eapply shallow_later; eauto. }
    cbn [finish_one]. rewrite Eo.
    rewrite (resolve_types_order (lookup_type g own) (lookup_type g' own) (ord k own) (ord' k own) st st1 (same_look own) GL (fun x => ord_in k x own) E1).
    assert (E2' : foldo (add_alias g') own (rd_aliases r) = Some own') by (rewrite <- same_aliases; exact E2). rewrite E2'. rewrite (propagate_all_order st1 (ord k own') (ord' k own') st2 W1 Sh1 (fun x => ord_in k x own') E3).
    apply IH; auto.
  Qed.
  Theorem parse_order s : parse_rds ord l = Ok s -> shallow (fst s) (entries l) -> parse_rds ord' l = Ok s.
  Proof.
    intros H Sh. unfold parse_rds in *. fold (initial l) in *. rewrite (surjective_pairing (initial l)) in *.
    eapply finish_order; eauto. apply initial_inv.
  Qed.
End Two.

(* names are unique when every type is registered under its own name and each schema has its own
   namespace *)
Lemma entries_named l : keyed l -> forall n t, In (n, t) (entries l) -> type_name (fst (initial l)) t = Some n /\ sget (nspace n) (snd (initial l)) <> None /\
  exists own, sget (nspace n) (snd (initial l)) = Some own /\ In (n, t) own.
Proof.
  intros K.
  assert (G : forall l st parsed st' parsed', keyed l -> alloc_all st parsed l = (st', parsed') ->
    (forall ns own, In (ns, own) parsed -> forall n t, In (n, t) own -> nspace n = ns /\ type_name st t = Some n) ->
    forall ns own, In (ns, own) parsed' -> forall n t, In (n, t) own -> nspace n = ns /\ type_name st' t = Some n).
  { clear. induction l as [|r l IH]; intros st parsed st' parsed' K H P ns own Ho n t Ht; cbn [alloc_all] in H.
    - injection H as <- <-. eauto.
    - destruct (alloc st [] (rd_types r)) as [st1 m] eqn:E. apply alloc_spec in E as (-> & Em & _).
      eapply IH; [|exact H| |exact Ho|exact Ht]; [intros r' k d Hr; apply K; right; auto|].
      intros ns' own' Ho' n' t' Ht'. apply in_sset in Ho' as [Ho'|Ho'].
      + injection Ho' as -> ->. apply Em in Ht' as [[]|(i & d & -> & Hi)]. pose proof (nth_error_In _ _ Hi) as Hin.
        destruct (K r n' d (or_introl eq_refl) Hin) as [Kn Ks]. split; auto. cbn [type_name].
        rewrite nth_error_app2 by lia. replace (List.length st + i - List.length st) with i by lia.
        rewrite nth_error_map, Hi. cbn [option_map snd]. congruence.
      + destruct (P _ _ Ho' _ _ Ht') as [A B]. split; auto. destruct t' as [| | |i]; auto. cbn [type_name] in *.
        destruct (nth_error st i) eqn:X; [|discriminate]. rewrite nth_error_app1 by (apply nth_error_Some; congruence). rewrite X. auto. }
  intros n t H. apply entry_map in H as (ns & own & Hs & Ht). unfold initial in *. destruct (alloc_all [] [] l) as [st parsed] eqn:E. cbn [fst snd] in *.
  destruct (G l [] [] st parsed K E ltac:(intros ? ? []) ns own (sget_in _ _ _ Hs) n t Ht) as [A B]. subst ns. split; auto. split; [congruence|]. eauto.
Qed.
Lemma mset_nodup {V} k (v : V) m : NoDup (map fst m) -> NoDup (map fst (mset k v m)).
Proof.
  induction m as [|[k' v'] m IH]; intros N; cbn [mset]; [repeat constructor; auto|]. inversion N as [|? ? N1 N2]; subst.
  destruct (xname_eqb k' k) eqn:E; [apply xname_eqb_eq in E as ->; exact N|]. cbn [map fst]. constructor; auto.
  intros Hi. apply N1. apply in_map_iff in Hi as ([a b] & Ea & Hi). cbn [fst] in *. subst a. apply in_mset in Hi as [Hi|Hi].
  - injection Hi as -> ->. assert (xname_eqb k k = true) by (apply xname_eqb_eq; auto). congruence.
  - change k' with (fst (k', b)). apply in_map. auto.
Qed.
Lemma maps_nodup l : forall ns own, sget ns (snd (initial l)) = Some own -> NoDup (map fst own).
Proof.
  assert (A : forall dl st m, NoDup (map fst m) -> NoDup (map fst (snd (alloc st m dl)))).
  { induction dl as [|[n d] dl IH]; intros st m N; auto. cbn [alloc]. apply IH, mset_nodup. auto. }
  assert (G : forall l st parsed, (forall ns own, In (ns, own) parsed -> NoDup (map fst own)) -> forall ns own, In (ns, own) (snd (alloc_all st parsed l)) -> NoDup (map fst own)).
  { clear l. induction l as [|r l IH]; intros st parsed P; auto. cbn [alloc_all]. destruct (alloc st [] (rd_types r)) as [st1 m] eqn:E. apply IH.
    intros ns own Ho. apply in_sset in Ho as [Ho|Ho]; [|eauto]. injection Ho as -> ->. specialize (A (rd_types r) st [] (NoDup_nil _)). rewrite E in A. exact A. }
  intros ns own Hs. eapply G; [|apply sget_in; exact Hs]. intros ? ? [].
Qed.
Lemma nodup_fst {A B} (m : list (A * B)) k v w : NoDup (map fst m) -> In (k, v) m -> In (k, w) m -> v = w.
Proof.
  induction m as [|[a b] m IH]; intros N H1 H2; [destruct H1|]. inversion N as [|? ? N1 N2]; subst.
  destruct H1 as [H1|H1], H2 as [H2|H2]; auto; try congruence; exfalso; apply N1.
  - injection H1 as -> ->. change k with (fst (k, w)). apply in_map. auto.
  - injection H2 as -> ->. change k with (fst (k, v)). apply in_map. auto.
Qed.
Theorem keyed_unique l : keyed l -> unique_names l.
Proof.
  intros K n t u [(k & Hk) Hn] [(k' & Hk') Hn']. destruct (entries_named l K _ _ Hk) as (A & _ & own & Hs & Hi). destruct (entries_named l K _ _ Hk') as (A' & _ & own' & Hs' & Hi').
  assert (k = n) by congruence. assert (k' = n) by congruence. subst k k'. rewrite Hs in Hs'. injection Hs' as <-.
  eapply nodup_fst; [eapply maps_nodup; exact Hs|exact Hi|exact Hi'].
Qed.

(* ---------- every declaration is returned ---------- *)
Lemma alloc_all_keep : forall l st parsed ns own, sget ns parsed = Some own -> (forall r, In r l -> rd_tns r <> ns) -> sget ns (snd (alloc_all st parsed l)) = Some own.
Proof.
  induction l as [|r l IH]; intros st parsed ns own H N; auto. cbn [alloc_all]. destruct (alloc st [] (rd_types r)). apply IH.
  - rewrite sget_sset. destruct (String.eqb (rd_tns r) ns) eqn:E; auto. apply String.eqb_eq in E. destruct (N r (or_introl eq_refl) E).
  - intros r' Hr. apply N. right; auto.
Qed.
Lemma alloc_all_store : forall l st parsed, exists ext, fst (alloc_all st parsed l) = (st ++ ext)%list.
Proof.
  intros l st parsed. destruct (alloc_all st parsed l) as [st' p'] eqn:E. apply alloc_all_spec in E as ((ext & -> & _) & _). exists ext. auto.
Qed.
Lemma declared_initial l1 r l2 n d i : (forall r', In r' l2 -> rd_tns r' <> rd_tns r) -> nth_error (rd_types r) i = Some (n, d) ->
  (forall j e, i < j -> nth_error (rd_types r) j = Some e -> fst e <> n) ->
  exists own k, sget (rd_tns r) (snd (initial (l1 ++ r :: l2))) = Some own /\ lookup n own = Some (TPtr k) /\ nth_error (fst (initial (l1 ++ r :: l2))) k = Some d.
Proof.
  intros N Hi Hl. unfold initial.
  assert (S : forall l1 st parsed, alloc_all st parsed (l1 ++ r :: l2) = let (st1, p1) := alloc_all st parsed l1 in alloc_all st1 p1 (r :: l2)).
  { clear. induction l1 as [|a l1 IH]; intros st parsed; auto. cbn [app]. cbn [alloc_all]. destruct (alloc st [] (rd_types a)). apply IH. }
  rewrite S. clear S. destruct (alloc_all [] [] l1) as [st1 p1]. cbn [alloc_all]. destruct (alloc st1 [] (rd_types r)) as [st2 m] eqn:E.
  exists m, (List.length st1 + i). split; [apply alloc_all_keep; auto; rewrite sget_sset, String.eqb_refl; auto|].
  split; [eapply alloc_last; eauto|]. destruct (alloc_all_store l2 st2 (sset (rd_tns r) m p1)) as (ext & ->).
  apply alloc_spec in E as (-> & _). rewrite <- app_assoc, nth_error_app2 by lia. replace (List.length st1 + i - List.length st1) with i by lia.
  rewrite nth_error_app1 by (rewrite map_length; apply nth_error_Some; congruence). rewrite nth_error_map, Hi. reflexivity.
Qed.
Theorem parse_declared ord l1 r l2 st parsed n d i : raw_rds (l1 ++ r :: l2) -> any_order ord -> parse_rds ord (l1 ++ r :: l2) = Ok (st, parsed) ->
  (forall r', In r' l2 -> rd_tns r' <> rd_tns r) -> nth_error (rd_types r) i = Some (n, d) ->
  (forall j e, i < j -> nth_error (rd_types r) j = Some e -> fst e <> n) ->
  exists own k d', sget (rd_tns r) parsed = Some own /\ lookup n own = Some (TPtr k) /\ nth_error st k = Some d' /\ resolved (target (l1 ++ r :: l2) parsed) d d'.
Proof.
  intros Rw O H N Hi Hl. destruct (declared_initial l1 r l2 n d i N Hi Hl) as (own0 & k & Hs & Hk & Hd).
  destruct (parse_resolved (l1 ++ r :: l2) ord st parsed O H) as (_ & A & _ & G). destruct (G _ _ Hs) as (own & Ho & Lk & _).
  assert (He : In (n, TPtr k) (entries (l1 ++ r :: l2))) by (apply entry_map; exists (rd_tns r), own0; split; auto; apply lookup_in; auto).
  destruct (A _ _ He) as (d0 & d' & H0 & H1 & Re & _). exists own, k, d'. split; auto. split; auto. split; auto. congruence.
Qed.

(* ---------- chains ---------- *)
Lemma chain_anc st t k : chain st t k -> forall u, ancestor st t u -> exists k', chain st u k' /\ k' <= k.
Proof.
  intros C u A. revert k C. induction A as [t|t u Hn A IH]; intros k C; [exists k; auto|].
  inversion C as [? Hx|? m Hx Hc]; subst; [congruence|]. destruct (IH _ Hc) as (k' & Hk & L). exists k'. split; auto.
Qed.
Lemma chain_end st t k : chain st t k -> exists u, ancestor st t u /\ base_of st u = TNil.
Proof.
  intros C. induction C as [t H|t k Hn C (u & A & E)]; [exists t; split; auto; constructor|]. exists u. split; auto. apply an_base; auto.
Qed.
Lemma ancestor_trans st t u v : ancestor st t u -> ancestor st u v -> ancestor st t v.
Proof. intros A B. induction A; auto. apply an_base; auto. Qed.
Lemma find_type1_spec st n : forall t k, chain st t k -> (forall u, ancestor st t u -> type_name st u <> None) -> forall fuel, k <= fuel ->
  match find_type1 fuel st t n with
  | Some (Some u) => ancestor st t u /\ type_name st u = Some n
  | Some None => forall u, ancestor st t u -> type_name st u <> Some n
  | None => False
  end.
Proof.
  intros t k C. induction C as [t Hb|t k Hb C IH]; intros N fuel L.
  - assert (forall u, ancestor st t u -> u = t) as U by (intros u A; inversion A; subst; auto; congruence).
    destruct fuel; cbn [find_type1]; destruct (type_name st t) as [m|] eqn:E; try (apply (N t); auto; constructor);
      (destruct (xname_eqb m n) eqn:X; [apply xname_eqb_eq in X as ->; split; [constructor|auto]|rewrite Hb; intros u A; rewrite (U u A), E; intros Y; injection Y as ->;
        assert (xname_eqb n n = true) by (apply xname_eqb_eq; auto); congruence]).
  - destruct fuel as [|f]; [lia|]. cbn [find_type1]. destruct (type_name st t) as [m|] eqn:E; [|apply (N t); auto; constructor].
    destruct (xname_eqb m n) eqn:X; [apply xname_eqb_eq in X as ->; split; [constructor|auto]|].
    assert (F : match base_of st t with TNil => Some None | b => find_type1 f st b n end = find_type1 f st (base_of st t) n) by (destruct (base_of st t); congruence).
    rewrite F. specialize (IH ltac:(intros u A; apply N; apply an_base; auto) f ltac:(lia)).
    destruct (find_type1 f st (base_of st t) n) as [[u|]|]; auto.
    + destruct IH as [A B]. split; auto. apply an_base; auto.
    + intros u A. inversion A; subst; [|auto]. rewrite E. intros Y. injection Y as ->. assert (xname_eqb n n = true) by (apply xname_eqb_eq; auto). congruence.
Qed.
Lemma find_type_spec st n fuel : forall es, (forall k t, In (k, t) es -> exists c, chain st t c /\ c <= fuel) ->
  (forall k t u, In (k, t) es -> ancestor st t u -> type_name st u <> None) ->
  match find_type fuel st es n with
  | Some (Some u) => (exists k t, In (k, t) es /\ ancestor st t u) /\ type_name st u = Some n
  | Some None => forall k t u, In (k, t) es -> ancestor st t u -> type_name st u <> Some n
  | None => False
  end.
Proof.
  induction es as [|[k t] es IH]; intros C N; cbn [find_type]; [intros k t u []|]. cbn [snd].
  destruct (C k t (or_introl eq_refl)) as (c & Hc & L). pose proof (find_type1_spec st n t c Hc ltac:(intros u A; eapply N; [left; reflexivity|auto]) fuel L) as F.
  destruct (find_type1 fuel st t n) as [[u|]|]; auto.
  - destruct F as [A B]. split; auto. exists k, t. split; [left|]; auto.
  - specialize (IH ltac:(intros; eapply C; right; eauto) ltac:(intros; eapply N; [right; eauto|eauto])). destruct (find_type fuel st es n) as [[u|]|]; auto.
    + destruct IH as [(k' & t' & Hi & A) B]. split; auto. exists k', t'. split; [right|]; auto.
    + intros k' t' u [E|Hi] A; [injection E as <- <-; auto|eauto].
Qed.
(* a type that is among its own proper ancestors: FindType of an absent name never ends *)
Lemma find_type1_cycle st n : forall fuel t, (forall u, ancestor st t u -> base_of st u <> TNil /\ exists m, type_name st u = Some m /\ m <> n) ->
  find_type1 fuel st t n = None.
Proof.
  induction fuel as [|f IH]; intros t H; destruct (H t (an_self _ _)) as (Hb & m & E & Ne); cbn [find_type1]; rewrite E;
    destruct (xname_eqb m n) eqn:X; try (apply xname_eqb_eq in X; contradiction); destruct (base_of st t) eqn:Eb; try congruence; auto;
    apply IH; intros u A; apply H; apply an_base; rewrite Eb; auto; discriminate.
Qed.

(* ---------- the result as a whole ---------- *)
Lemma parse_inv ord l st parsed : any_order ord -> parse_rds ord l = Ok (st, parsed) -> inv l st parsed.
Proof.
  intros O H. unfold parse_rds in H. fold (initial l) in H. rewrite (surjective_pairing (initial l)) in H.
  eapply finish_spec; [exact O|apply initial_inv|exact H].
Qed.
Lemma entry_resolved ord l st parsed i k : any_order ord -> parse_rds ord l = Ok (st, parsed) -> In (k, TPtr i) (entries l) ->
  exists d0 d, nth_error (fst (initial l)) i = Some d0 /\ nth_error st i = Some d /\ resolved (target l parsed) d0 d /\ linkfree d.
Proof. intros O H Hk. destruct (parse_resolved l ord st parsed O H) as (_ & A & _). eauto. Qed.
Lemma ancestor_kind ord l st parsed t u : raw_rds l -> any_order ord -> parse_rds ord l = Ok (st, parsed) -> proper l t -> ancestor st t u -> proper l u.
Proof.
  intros Rw O H P A. pose proof (parse_inv _ _ _ _ O H) as I. induction A as [t|t u Hn A IH]; auto. apply IH.
  destruct t as [| | |i]; try (destruct (Hn eq_refl)). destruct P as [(k & Hk)|(b & Hk)]; [|discriminate].
  destruct (entry_resolved _ _ _ _ _ _ O H Hk) as (d0 & d & H0 & Hd & Re & Lf). cbn [base_of] in *. rewrite Hd in *.
  destruct (def_base d) as [|b|m|j] eqn:Eb.
  - destruct (Hn eq_refl).
  - right. eauto.
  - destruct (Lf m). destruct d; cbn [refs def_base] in *; left; auto.
  - left. destruct (inv_base_ptr l Rw ord st parsed i d j O I Hd Eb) as (k' & Hk'). eauto.
Qed.
Lemma base_kept ord l st parsed i k : any_order ord -> parse_rds ord l = Ok (st, parsed) -> In (k, TPtr i) (entries l) ->
  (forall r n d, In r l -> In (n, d) (rd_types r) -> def_base d <> TNil) -> base_of st (TPtr i) <> TNil.
Proof.
  intros O H Hk B. pose proof (parse_inv _ _ _ _ O H) as I. destruct (entry_resolved _ _ _ _ _ _ O H Hk) as (d0 & d & H0 & Hd & Re & Lf).
  cbn [base_of]. rewrite Hd. assert (B0 : def_base d0 <> TNil) by (apply nth_error_In, store_in in H0 as (r & n & Hr & Hi); eauto).
  assert (P : points (target l parsed) (def_base d0) (def_base d)) by (destruct d0, d; cbn [resolved] in Re; try tauto; cbn [def_base]; tauto).
  inversion P as [n t Ht E1 E2|E1 E2| |]; subst; try discriminate; [|congruence].
  eapply target_proper in Ht; eauto. destruct Ht as [(kk & Hx)|(b & Hx)].
  - apply entry_ptr in Hx as (j & Ej & _). rewrite Ej. discriminate.
  - rewrite Hx. discriminate.
Qed.
Theorem parse_chains ord l st parsed : raw_rds l -> any_order ord -> parse_rds ord l = Ok (st, parsed) ->
  (forall r n d, In r l -> In (n, d) (rd_types r) -> def_base d <> TNil) ->
  forall ns own n t k, sget ns parsed = Some own -> In (n, t) own -> chain st t k -> exists b, ancestor st t (TB b).
Proof.
  intros Rw O H B ns own n t k Hs Hn C. pose proof (parse_inv _ _ _ _ O H) as I. destruct (chain_end _ _ _ C) as (u & A & E).
  assert (P : proper l u) by (eapply ancestor_kind; eauto; eapply (inv_maps _ _ _ I); eauto).
  destruct P as [(kk & Hk)|(b & ->)]; [|eauto]. pose proof (entry_ptr _ _ _ Hk) as (i & -> & _). destruct (base_kept _ _ _ _ _ _ O H Hk B E).
Qed.
Theorem parse_find ord l st parsed : raw_rds l -> any_order ord -> parse_rds ord l = Ok (st, parsed) ->
  forall ns own bound n, sget ns parsed = Some own -> (forall k t, In (k, t) own -> exists c, chain st t c /\ c <= bound) ->
  forall es, Permutation own es -> forall fuel, bound <= fuel ->
  match find_type fuel st es n with
  | Some (Some u) => (exists k t, In (k, t) own /\ ancestor st t u) /\ type_name st u = Some n
  | Some None => forall k t u, In (k, t) own -> ancestor st t u -> type_name st u <> Some n
  | None => False
  end.
Proof.
  intros Rw O H ns own bound n Hs C es P fuel Lf. pose proof (parse_inv _ _ _ _ O H) as I.
  assert (Q : forall x, In x es -> In x own) by (intros x; apply Permutation_in; apply Permutation_sym; auto).
  pose proof (find_type_spec st n fuel es ltac:(intros k t Ht; destruct (C k t (Q _ Ht)) as (c & Hc & L); exists c; split; auto; lia)) as F.
  assert (N : forall k t u, In (k, t) es -> ancestor st t u -> type_name st u <> None).
  { intros k t u Ht A. assert (Pu : proper l u) by (eapply ancestor_kind; eauto; eapply (inv_maps _ _ _ I); [exact Hs|apply Q; exact Ht]).
    destruct Pu as [(kk & Hk)|(b & ->)]; [|discriminate]. apply entry_ptr in Hk as (i & -> & Lt). cbn [type_name].
    destruct (nth_error st i) eqn:X; [discriminate|]. apply nth_error_None in X. rewrite (inv_len _ _ _ I) in X. lia. }
  specialize (F N). destruct (find_type fuel st es n) as [[u|]|]; auto.
  - destruct F as [(k & t & Ht & A) E]. split; auto. exists k, t. auto.
  - intros k t u Ht. eapply F. eapply Permutation_in; eauto.
Qed.
