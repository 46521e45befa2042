(* From the elements of a schema to the Go names of the parts that refer to them. *)
From Coq Require Import Permutation.
From Verif Require Import Base SortLib ScopeModel TreeModel TreeSpec EqualModel BuiltinModel BuiltinProofs CodecModel XsdModel XsdSpec XsdProofs TypesModel TypesSpec TypesProofs TypesMixed TypesParse TypesFinal TypesOrder TypesRead BindProofs GenModel SgModel SgStruct SgDecl SgFlatSpec SgExpandSpec WsdlModel SliceModel SgGen SgGenSpec SgGenClosed SgGenName SgGenCode PipeModel PipeSpec PipeProofs PipeParse PartModel PartSpec PartFrame.
Local Open Scope string_scope.

(* ---------- the type that stands for a document ---------- *)
Lemma search_elems_eq fn e : search_elems fn e = ((if fn e then [e] else []) ++ search_func_elems fn e)%list.
Proof. destruct e as [n a s c ks]. reflexivity. Qed.
Lemma find_all_none local el : (forall q d, q <> [] -> sub el q = Some d -> e_name d <> xs local) -> find_all local el = [].
Proof.
  intros H. destruct (find_all_lists local el) as (ps & _ & P & F). destruct F as [|p e ps es Fe F]; [reflexivity|exfalso]. destruct (proj1 (P p) (or_introl eq_refl)) as (d & (Q & S) & N). exact (H p d Q S N).
Qed.
Lemma found_tops local ks : (forall el, In el ks -> e_name el = xs "element") -> (forall el q d, In el ks -> q <> [] -> sub el q = Some d -> e_name d <> xs local) ->
  flat_map (search_elems (fun e => name_match schemaNS local (e_name e))) ks = if String.eqb local "element" then ks else [].
Proof.
  induction ks as [|k ks IH]; intros N H; [destruct (String.eqb local "element"); reflexivity|]. cbn [flat_map]. rewrite IH by (intros; first [apply N; right; assumption|eapply H; [right; eassumption| |]; eassumption]).
  rewrite search_elems_eq. change (search_func_elems _ k) with (find_all local k). rewrite (find_all_none local k) by (intros q d; apply H; left; reflexivity). rewrite app_nil_r, (N k (or_introl eq_refl)).
  destruct (String.eqb local "element") eqn:E.
  - apply String.eqb_eq in E as ->. reflexivity.
  - destruct (name_match schemaNS local (xs "element")) eqn:M; [|reflexivity]. apply name_match_schema in M. unfold xs in M. injection M as M. apply String.eqb_neq in E. congruence.
Qed.
Lemma tops_element root el : In el (tops root) <-> In el (e_children root) /\ e_name el = xs "element".
Proof. unfold tops. rewrite filter_In, xname_eqb_eq. tauto. Qed.

Section Read.
  Variable annot : elem -> option string.
  Variables (F T : Type) (f0 : F) (t0 : T).
  Variables (pf : string -> option F) (pd pr : string -> option T) (comp : string -> bool) (msg : string -> string).
  Let rd_of := read annot F T f0 t0 pf pd pr comp msg.
  Lemma self_parsed tns root self : plain_tops root -> parse_complex_type annot tns (self_elem root) = Some self -> exists es, mapo (parse_element annot tns) (tops root) = Some es /\ ct_elems self = merge_elems [] es.
  Proof.
    intros P H. unfold parse_complex_type in H. destruct (parse_bool (attr (self_elem root) "" "abstract")) as [ab|]; [|discriminate]. destruct (parse_bool (attr (self_elem root) "" "mixed")) as [mi|]; [|discriminate]. cbv zeta in H.
    set (restr := Elem (xs "restriction") [mkAttr (mkName "" "base") (prefix (e_scope root) (b_name 0))] (e_scope root) "" (tops root)) in *.
    set (cc := Elem (xs "complexContent") [] (e_scope root) "" [restr]) in *. assert (K : e_children (self_elem root) = [cc]) by reflexivity.
    unfold walk in H. rewrite K in H. cbn [filter] in H. change (in_schema cc) with true in H. cbn [foldo] in H. change (local_is cc "annotation") with false in H. change (local_is cc "simpleContent") with false in H. change (local_is cc "complexContent") with true in H. cbv iota in H.
    match type of H with context [parse_complex_content annot tns ?x cc] => set (t := x) in H; assert (Te : ct_elems t = []) by reflexivity end. clearbody t.
    destruct (parse_complex_content annot tns t cc) as [t1|] eqn:E; [|discriminate]. cbn [option_map] in H. injection H as <-. cbn [set_doc ct_elems].
    unfold parse_complex_content in E. cbv zeta in E. change (attr cc "" "mixed") with "" in E. change (String.eqb "" "") with true in E. cbv iota in E. unfold walk in E. change (e_children cc) with [restr] in E. cbn [filter] in E. change (in_schema restr) with true in E. cbn [foldo] in E.
    change (local_is restr "extension") with false in E. change (local_is restr "restriction") with true in E. cbv iota in E. set (t2 := set_mixed t (ct_mixed t)) in E. assert (Te2 : ct_elems t2 = []) by exact Te. clearbody t2.
    destruct (parse_derivation annot tns t2 restr) as [t3|] eqn:E3; [|discriminate]. cbn [option_map] in E. injection E as <-. cbn [set_doc ct_elems]. unfold parse_derivation in E3. cbv zeta in E3.
    assert (N : forall el, In el (tops root) -> e_name el = xs "element") by (intros el He; apply tops_element in He; tauto).
    assert (F1 : find_all "any" restr = []). { unfold find_all, search_func_elems. change (e_children restr) with (tops root). rewrite (found_tops "any" (tops root) N); [reflexivity|]. intros el q d He Q S. exact (proj2 (pt_flat _ P el q d He Q S)). }
    assert (F2 : find_all "element" restr = tops root). { unfold find_all, search_func_elems. change (e_children restr) with (tops root). rewrite (found_tops "element" (tops root) N); [reflexivity|]. intros el q d He Q S. exact (proj1 (pt_flat _ P el q d He Q S)). }
    rewrite F1, F2 in E3. cbn [set_base ct_elems] in E3. rewrite Te2 in E3. destruct (mapo (parse_element annot tns) (tops root)) as [es|]; [|discriminate]. destruct (mapo (parse_attribute annot tns) _) as [ats|]; [|discriminate]. injection E3 as <-. exists es. split; reflexivity.
  Qed.
  (* elements of different names are not merged *)
  Lemma merge_distinct : forall new els used, NoDup (map el_name new) -> (forall n, In n (map el_name new) -> lookup n used = None) -> fst (fold_left merge_step new (els, used)) = (els ++ new)%list.
  Proof.
    induction new as [|e new IH]; intros els used N U; [rewrite app_nil_r; reflexivity|]. cbn [fold_left]. unfold merge_step at 2. rewrite (U (el_name e)) by (left; reflexivity). inversion N as [|x l Hx Hl]; subst. rewrite IH; [rewrite <- app_assoc; reflexivity|exact Hl|].
    intros n Hn. cbn [lookup]. destruct (xname_eqb (el_name e) n) eqn:X; [apply xname_eqb_eq in X as <-; contradiction|]. apply U. right. exact Hn.
  Qed.
  Definition el_space (tns : string) (el : elem) : string := if String.eqb (attr el "" "type") "" then tns else match parse_builtin (resolve (e_scope el) (attr el "" "type")) with Some _ => tns | None => nspace (resolve (e_scope el) (attr el "" "type")) end.
  Definition el_ty (el : elem) : ty := if String.eqb (attr el "" "type") "" then TB 0 else parse_type (resolve (e_scope el) (attr el "" "type")).
  Lemma top_parsed tns el e : tns <> "" -> s_in colon (attr el "" "name") = false -> parse_element annot tns el = Some e -> el_name e = mkName (el_space tns el) (attr el "" "name") /\ el_type e = el_ty el.
  Proof.
    intros Ht C H. unfold parse_element in H. destruct (parse_bool _); [|discriminate]. destruct (parse_bool _); [|discriminate]. destruct (parse_plural el); [|discriminate]. destruct (parse_optional el); [|discriminate]. destruct (docs annot el); [|discriminate]. injection H as <-.
    cbn [el_name el_type]. unfold el_space, el_ty, resolve_default. rewrite C. apply String.eqb_neq in Ht. rewrite Ht. cbn [orb]. destruct (String.eqb (attr el "" "type") ""); [split; reflexivity|]. unfold parse_type. destruct (parse_builtin _); split; reflexivity.
  Qed.
  (* the document's own type: its elements are the elements of the document *)
  Theorem self_type root r : rd_of root = Some r -> rd_tns r <> "" -> plain_tops root -> exists self, In (mkName (rd_tns r) "_self", DC self) (rd_types r) /\
    Forall2 (fun el e => el_name e = mkName (el_space (rd_tns r) el) (attr el "" "name") /\ el_type e = el_ty el) (tops root) (ct_elems self).
  Proof.
    intros H N P. unfold rd_of, read in H. destruct (read_types annot F T f0 t0 pf pd pr comp msg root) as [ts|] eqn:E; [|discriminate]. cbn [option_map] in H. injection H as <-. cbn [rd_tns rd_types] in *. unfold read_types in E. cbv zeta in E. set (tns := attr root "" "targetNamespace") in *.
    destruct (mapo (parse_complex_type annot tns) _) as [cs|]; [|discriminate]. destruct (mapo (parse_simple_type annot F T f0 t0 pf pd pr comp msg tns) _) as [ss|]; [|discriminate]. destruct (parse_complex_type annot tns (self_elem root)) as [self|] eqn:Ef; [|discriminate]. injection E as <-.
    exists self. split; [apply in_or_app; right; apply in_or_app; right; left; reflexivity|]. destruct (self_parsed tns root self P Ef) as (es & Em & ->). apply mapo_forall2 in Em.
    assert (G : Forall2 (fun el e => el_name e = mkName (el_space tns el) (attr el "" "name") /\ el_type e = el_ty el) (tops root) es).
    { pose proof (pt_names _ P) as C. clear - Em N C. induction Em as [|el e l es' He Em IH]; constructor; [apply top_parsed; auto; apply C; left; reflexivity|apply IH; intros x Hx; apply C; right; exact Hx]. }
    unfold merge_elems. rewrite merge_distinct; [exact G| |reflexivity]. pose proof (pt_once _ P) as O. clear - G O. revert O. induction G as [|el e l es' [He _] G IH]; intros O; [constructor|]. cbn [map] in *. inversion O as [|x m Hx Hm]; subst. constructor; [|auto].
    intros X. apply Hx. apply in_map_iff in X as (y & Ey & Hy). clear - G He Ey Hy. induction G as [|a b l es' [Hb _] G IH]; [destruct Hy|]. destruct Hy as [<-|Hy]; [left; cbn; rewrite Hb, He in Ey; injection Ey; auto|right; auto].
  Qed.
  Lemma alias_space root r a : rd_of root = Some r -> rd_tns r <> "" -> plain_tops root -> In a (rd_aliases r) -> nspace (fst a) = rd_tns r.
  Proof.
    intros H N P Ha. unfold rd_of, read in H. destruct (read_types _ _ _ _ _ _ _ _ _ _ root); [|discriminate]. cbn [option_map] in H. injection H as <-. cbn [rd_aliases rd_tns] in *. unfold read_aliases in Ha. cbv zeta in Ha. apply filter_In in Ha as [Ha _].
    apply in_map_iff in Ha as (el & <- & He). cbn [fst]. unfold resolve_default. rewrite (pt_names _ P el He). apply String.eqb_neq in N. rewrite N. reflexivity.
  Qed.
End Read.

(* ---------- the maps of types ---------- *)
Lemma aliases_keys g : forall als own own', foldo (add_alias g) own als = Some own' -> (forall k, lookup k own' = None -> lookup k own = None) /\
  forall k t, In (k, t) own' -> In (k, t) own \/ lookup k own = None /\ exists a, In a als /\ k = fst a.
Proof.
  induction als as [|a als IH]; intros own own' H; cbn [foldo] in H; [injection H as <-; split; auto|]. destruct (add_alias g own a) as [o1|] eqn:E; [|discriminate]. destruct (IH o1 own' H) as [M K].
  assert (Q : (forall k, lookup k o1 = None -> lookup k own = None) /\ forall k t, In (k, t) o1 -> In (k, t) own \/ lookup k own = None /\ k = fst a).
  { unfold add_alias in E. destruct (lookup (fst a) own) as [u|] eqn:L; [injection E as <-; auto|]. destruct (lookup_type g own (snd a)) as [t|]; [|discriminate]. cbn [option_map] in E. injection E as <-. split.
    - intros k. rewrite lookup_mset. destruct (xname_eqb (fst a) k); [discriminate|auto].
    - intros k u Hu. apply in_mset in Hu as [Hu|Hu]; [injection Hu as -> ->; right; auto|left; exact Hu]. }
  destruct Q as [Q1 Q2]. split; [auto|]. intros k t Ht. destruct (K k t Ht) as [H1|(H1 & b & H2 & H3)].
  - destruct (Q2 k t H1) as [H2|(H2 & H3)]; [left; exact H2|right; split; [exact H2|exists a; split; [left; reflexivity|exact H3]]].
  - right. split; [auto|]. exists b. split; [right; exact H2|exact H3].
Qed.
Lemma finish_keys g ord : forall l' k st parsed st' parsed', finish g ord k l' (st, parsed) = Ok (st', parsed') -> forall ns own', sget ns parsed' = Some own' ->
  exists own, sget ns parsed = Some own /\ (forall n, lookup n own' = None -> lookup n own = None) /\
    forall n t, In (n, t) own' -> In (n, t) own \/ lookup n own = None /\ exists r a, In r l' /\ rd_tns r = ns /\ In a (rd_aliases r) /\ n = fst a.
Proof.
  induction l' as [|r l' IH]; intros k st parsed st' parsed' H ns own' Hs; cbn [finish] in H; [injection H as <- <-; exists own'; auto|].
  destruct (finish_one g (ord k) r (st, parsed)) as [[st1 p1]| |] eqn:E; try discriminate. destruct (IH (S k) st1 p1 st' parsed' H ns own' Hs) as (o1 & H1 & M1 & K1).
  cbn [finish_one] in E. destruct (sget (rd_tns r) parsed) as [own|] eqn:Eo; [|discriminate]. destruct (resolve_types _ _ st) as [st2|]; [|discriminate]. destruct (foldo (add_alias g) own (rd_aliases r)) as [own2|] eqn:E2; [|discriminate].
  destruct (propagate_all _ st2) as [st3|]; [|discriminate]. injection E as <- <-. rewrite sget_sset in H1. destruct (String.eqb (rd_tns r) ns) eqn:X.
  - apply String.eqb_eq in X. injection H1 as <-. destruct (aliases_keys g _ _ _ E2) as [M2 K2]. exists own. rewrite <- X. split; [exact Eo|]. split; [auto|]. intros n t Ht. destruct (K1 n t Ht) as [H1|(H1 & r' & a & H2 & H3 & H4)].
    + destruct (K2 n t H1) as [H2|(H2 & a & H3 & H4)]; [left; exact H2|]. right. split; [exact H2|]. exists r, a. split; [left; reflexivity|]. auto.
    + right. split; [auto|]. exists r', a. split; [right; exact H2|]. rewrite X. auto.
  - exists o1. split; [exact H1|]. split; [exact M1|]. intros n t Ht. destruct (K1 n t Ht) as [H2|(H2 & r' & a & H3 & H4)]; [left; exact H2|]. right. split; [exact H2|]. exists r', a. split; [right; exact H3|exact H4].
Qed.
Lemma all_lookup k v ps ds : (exists d, In d (ps ++ ds)%list /\ In (k, v) (snd d)) -> (forall d v', In d (ps ++ ds)%list -> In (k, v') (snd d) -> v' = v) -> lookup k (all_types ps ds) = Some v.
Proof.
  unfold all_types. intros Ex U.
  assert (Step : forall (es : types) m, (forall v', In (k, v') es -> v' = v) -> (lookup k m = Some v \/ In (k, v) es) -> lookup k (fold_left (fun m p => mset (fst p) (snd p) m) es m) = Some v).
  { induction es as [|[n w] es IH]; intros m Ue [H|H]; cbn [fold_left fst snd]; [exact H|destruct H| |]; (apply IH; [intros v' Hv; apply Ue; right; exact Hv|]); rewrite lookup_mset.
    - left. destruct (xname_eqb n k) eqn:X; [|exact H]. apply xname_eqb_eq in X as ->. f_equal. apply Ue. left. reflexivity.
    - destruct H as [H|H]; [injection H as -> ->; left; rewrite (proj2 (xname_eqb_eq k k) eq_refl); reflexivity|right; exact H]. }
  assert (G : forall l m, (forall d v', In d l -> In (k, v') (snd d) -> v' = v) -> (lookup k m = Some v \/ exists d, In d l /\ In (k, v) (snd d)) -> lookup k (fold_left (fun m (d : string * types) => fold_left (fun m p => mset (fst p) (snd p) m) (snd d) m) l m) = Some v).
  { clear - Step. induction l as [|d l IH]; intros m Ul [H|(d' & H1 & H2)]; cbn [fold_left]; [exact H|destruct H1| |]; (apply IH; [intros d1 v' Hd; apply Ul; right; exact Hd|]).
    - left. apply Step; [intros v'; apply Ul; left; reflexivity|left; exact H].
    - destruct H1 as [->|H1]; [left; apply Step; [intros v'; apply Ul; left; reflexivity|right; exact H2]|right; exists d'; auto]. }
  exact (G (ps ++ ds)%list [] U (or_intror Ex)).
Qed.
Lemma all_none k ps ds : (forall d v, In d (ps ++ ds)%list -> ~ In (k, v) (snd d)) -> lookup k (all_types ps ds) = None.
Proof.
  unfold all_types. intros U.
  assert (Step : forall (es : types) m, (forall v, ~ In (k, v) es) -> lookup k m = None -> lookup k (fold_left (fun m p => mset (fst p) (snd p) m) es m) = None).
  { induction es as [|[n w] es IH]; intros m Ue H; cbn [fold_left fst snd]; [exact H|]. apply IH; [intros v Hv; apply (Ue v); right; exact Hv|]. rewrite lookup_mset. destruct (xname_eqb n k) eqn:X; [|exact H]. apply xname_eqb_eq in X as ->. destruct (Ue w). left. reflexivity. }
  assert (G : forall l m, (forall d v, In d l -> ~ In (k, v) (snd d)) -> lookup k m = None -> lookup k (fold_left (fun m (d : string * types) => fold_left (fun m p => mset (fst p) (snd p) m) (snd d) m) l m) = None).
  { clear - Step. induction l as [|d l IH]; intros m Ul H; cbn [fold_left]; [exact H|]. apply IH; [intros d1 v Hd; apply Ul; right; exact Hd|]. apply Step; [intros v; apply Ul; left; reflexivity|exact H]. }
  exact (G (ps ++ ds)%list [] U eq_refl).
Qed.

Section Documents.
  Variable annot : elem -> option string.
  Variables (F T : Type) (f0 : F) (t0 : T).
  Variables (pf : string -> option F) (pd pr : string -> option T) (comp : string -> bool) (msg : string -> string).
  Variables (public : xname -> string) (fa : option (attribute -> bool)) (fe : option (element -> bool)) (ft : option (xname -> bool)) (allow : option (list xname)) (helpers : list Z) (slices : bool).
  Variables (h : xname -> nat) (roots : list elem) (l : list rd) (namespaces targets ns : list string).
  Hypothesis Hn : forall b, non_trivial b = true -> memb b helpers = true.
  Hypothesis Hfa : forall a t, filtered fa (retype_at a t) = filtered fa a.
  Hypothesis Rd : Forall2 (fun root r => read annot F T f0 t0 pf pd pr comp msg root = Some r) roots l.
  Hypothesis Pt : forall root, In root roots -> plain_tops root.
  Hypothesis Nt : forall r, In r l -> rd_tns r <> "".
  Hypothesis D : documents h l.
  Hypothesis Us : unused_self l.
  Hypothesis Hh : forall n, h n <= N.to_nat 1000.
  Hypothesis Im : imports_first l.
  Hypothesis Ens : namespaces = [] /\ ns = targets \/ namespaces <> [] /\ ns = namespaces.
  Hypothesis Nn : NoDup ns.
  Hypothesis Hns : forall s, In s ns -> exists r, In r l /\ rd_tns r = s.
  Variables (ord : nat -> list (xname * ty) -> list (xname * ty)) (ord' : string -> list (xname * ty) -> list (xname * ty)).
  Hypothesis O : any_order ord.
  Hypothesis O' : forall s m, Permutation m (ord' s m).
  Variables (st : store) (parsed : list (string * types)).
  Hypothesis E : parse_rds ord l = Ok (st, parsed).
  Let all := all_types (chosen_schemas namespaces targets l parsed) (deps l parsed).

  (* the entries of the maps under a name called _self *)
  Lemma own_key r own s t : In r l -> sget (rd_tns r) parsed = Some own -> In (mkName s "_self", t) own -> s = rd_tns r /\ exists i d, t = TPtr i /\ nth_error (decls l) i = Some (mkName s "_self", d) /\ In (mkName s "_self", d) (rd_types r).
  Proof.
    intros Hr Ho Ht. pose proof E as E'. unfold parse_rds in E'. fold (initial l) in E'. rewrite (surjective_pairing (initial l)) in E'. destruct (finish_keys _ _ _ _ _ _ _ _ E' _ _ Ho) as (own0 & H0 & _ & K).
    destruct (in_split _ _ Hr) as (l1 & l2 & El). destruct (initial_placed h l D) as (_ & _ & Pl). specialize (Pl l1 r l2 El). rewrite Pl in H0. injection H0 as <-.
    assert (Nd : forall i x, nth_error (rd_types r) i = Some x -> nth_error (decls l) (List.length (flat_map rd_types l1) + i) = Some x).
    { intros i x Hx. unfold decls. rewrite El, flat_map_app. cbn [flat_map]. rewrite nth_error_app2 by lia. rewrite nth_error_app1; [|pose proof (nth_lt _ _ _ Hx); lia]. replace (_ + i - _) with i by lia. exact Hx. }
    destruct (K _ _ Ht) as [H1|(H1 & r' & a & H2 & H3 & H4 & H5)].
    - apply in_placed in H1 as (i & d & -> & Hi). pose proof (nth_error_In _ _ Hi) as Hd. split; [exact (proj2 (dc_keyed _ _ D r _ d Hr Hd))|]. exists (List.length (flat_map rd_types l1) + i), d. split; [reflexivity|]. split; [exact (Nd _ _ Hi)|exact Hd].
    - exfalso. assert (r' = r) as -> by exact (map_nodup_inj rd_tns l r' r (dc_spaces _ _ D) H2 Hr H3). destruct (forall2_in_r _ _ _ Rd r Hr) as (root & Hroot & Hread).
      pose proof (alias_space _ _ _ _ _ _ _ _ _ _ root r a Hread (Nt r Hr) (Pt root Hroot) H4) as Sp. rewrite <- H5 in Sp. cbn [nspace] in Sp. subst s.
      destruct (self_type _ _ _ _ _ _ _ _ _ _ root r Hread (Nt r Hr) (Pt root Hroot)) as (self & Hself & _). apply In_nth_error in Hself as (i & Hi).
      assert (In (mkName (rd_tns r) "_self", TPtr (List.length (flat_map rd_types l1) + i)) (placed (List.length (flat_map rd_types l1)) (rd_types r))) as Hp by (apply in_placed; eauto).
      clear - H1 Hp. induction (placed _ _) as [|[n u] m IH]; [destruct Hp|]. cbn [lookup] in H1. destruct (xname_eqb n (mkName (rd_tns r) "_self")) eqn:X; [discriminate|]. destruct Hp as [Hp|Hp]; [|auto]. injection Hp as -> _. rewrite (proj2 (xname_eqb_eq _ _) eq_refl) in X. discriminate.
  Qed.
  Lemma builtin_key s t : ~ In (mkName s "_self", t) (map (fun p : xname * Z => (fst p, TB (snd p))) builtin_schema).
  Proof.
    intros H. apply in_map_iff in H as ([n b] & X & H). cbn [fst snd] in X. injection X as X _. subst n. apply (in_map (fun p => nlocal (fst p))) in H. cbn [fst nlocal] in H. revert H. vm_compute. intros H. repeat (destruct H as [H|H]; [discriminate|]). destruct H.
  Qed.
  Lemma dep_key d s t : In d (chosen_schemas namespaces targets l parsed ++ deps l parsed)%list -> In (mkName s "_self", t) (snd d) ->
    exists r i e, In r l /\ rd_tns r = s /\ t = TPtr i /\ nth_error (decls l) i = Some (mkName s "_self", e) /\ In (mkName s "_self", e) (rd_types r).
  Proof.
    intros Hd Ht. assert (Hd' : In d (deps l parsed)). { apply in_app_or in Hd as [Hd|Hd]; [|exact Hd]. unfold chosen_schemas in Hd. apply filter_In in Hd. tauto. }
    unfold deps in Hd'. apply in_app_or in Hd' as [Hd'|[<-|[]]]; [|destruct (builtin_key _ _ Ht)]. apply in_map_iff in Hd' as (r & <- & Hr). cbn [snd] in Ht. destruct (sget (rd_tns r) parsed) as [own|] eqn:Eo; [|destruct Ht].
    destruct (own_key r own s t Hr Eo Ht) as (-> & i & e & H). exists r, i, e. tauto.
  Qed.
  Lemma self_found r : In r l -> forall self0, In (mkName (rd_tns r) "_self", DC self0) (rd_types r) ->
    exists i, lookup (mkName (rd_tns r) "_self") all = Some (TPtr i) /\ nth_error (decls l) i = Some (mkName (rd_tns r) "_self", DC self0).
  Proof.
    intros Hr self0 Hs. destruct (own_map h l D ord O st parsed E r Hr) as (own & Ho & M & _). destruct (M _ _ Hs) as (i & Hi & Hd). exists i. split; [|exact Hd]. apply all_lookup.
    - exists (rd_tns r, own). split; [|exact Hi]. apply in_or_app. right. unfold deps. apply in_or_app. left. apply in_map_iff. exists r. rewrite Ho. auto.
    - intros d v' Hd' Hv. destruct (dep_key d _ _ Hd' Hv) as (r' & j & e & _ & _ & -> & Hj & _). f_equal. exact (decl_index h l D _ _ _ _ _ Hj Hd).
  Qed.
  Lemma self_alone i self0 self s : nth_error (decls l) i = Some (mkName s "_self", DC self0) -> nth_error st i = Some (DC self) -> alone i (DC self) st.
  Proof.
    intros Hd Hs. split; [exact Hs|]. intros j d Hj Hu. destruct (st_uses h l D ord O st parsed E j d _ Hj Hu) as (n & d0 & u0 & H1 & H2 & H3). destruct u0 as [|b|m|q]; cbn [became] in H3; try discriminate; try contradiction.
    destruct H3 as (k & e & X & Hk). injection X as <-. assert (m = mkName s "_self") as -> by congruence. exact (Us n d0 _ (proj2 (declares_in l n d0) (nth_error_In _ _ H1)) H2 eq_refl).
  Qed.
  Definition el_tname (el : elem) : xname := if String.eqb (attr el "" "type") "" then xs "anyType" else resolve (e_scope el) (attr el "" "type").
  Lemma el_home s el : el_space s el = s <-> at_home s (el_tname el).
  Proof.
    unfold el_space, el_tname, at_home. destruct (String.eqb (attr el "" "type") "").
    - split; [|reflexivity]. intros _. left. exists 0%Z. reflexivity.
    - destruct (parse_builtin _) as [b|]; [split; [intros _; left; eauto|reflexivity]|]. split; [intros H; right; exact H|intros [(b & H)|H]; [discriminate|exact H]].
  Qed.
  Lemma top_is root x t : top_element root x t <-> exists el, In el (tops root) /\ attr el "" "name" = x /\ t = el_tname el.
  Proof.
    unfold top_element, el_tname. split.
    - intros (el & H1 & H2 & H3 & H4). exists el. split; [apply tops_element; auto|]. split; [exact H3|]. destruct H4 as [[H4 ->]|[H4 ->]]; [rewrite H4; reflexivity|apply String.eqb_neq in H4; rewrite H4; reflexivity].
    - intros (el & H1 & H2 & ->). apply tops_element in H1 as [H1 H3]. exists el. do 3 (split; [assumption|]). destruct (String.eqb _ "") eqn:X; [apply String.eqb_eq in X; left; auto|apply String.eqb_neq in X; right; auto].
  Qed.
  Lemma root_read root : In root roots -> exists r, In r l /\ read annot F T f0 t0 pf pd pr comp msg root = Some r /\ rd_tns r = attr root "" "targetNamespace".
  Proof. intros H. destruct (forall2_in_l _ _ _ Rd root H) as (r & Hr & R). exists r. split; [exact Hr|]. split; [exact R|]. exact (proj1 (read_spec _ _ _ _ _ _ _ _ _ _ _ _ R)). Qed.
  Lemma self_elems root : In root roots -> let tns := attr root "" "targetNamespace" in exists i self, lookup (mkName tns "_self") all = Some (TPtr i) /\ nth_error st i = Some (DC self) /\ alone i (DC self) st /\ def_name (DC self) = mkName tns "_self" /\
    Forall2 (fun el e => el_name e = mkName (el_space tns el) (attr el "" "name") /\ type_name st (el_type e) = Some (el_tname el)) (tops root) (ct_elems self).
  Proof.
    intros Hroot tns. destruct (root_read root Hroot) as (r & Hr & R & Et). fold tns in Et. destruct (self_type _ _ _ _ _ _ _ _ _ _ root r R (Nt r Hr) (Pt root Hroot)) as (self0 & Hs & Fe). rewrite Et in *.
    assert (Hs' : In (mkName (rd_tns r) "_self", DC self0) (rd_types r)) by (rewrite Et; exact Hs). destruct (self_found r Hr self0 Hs') as (i & Li & Hi). rewrite Et in Li, Hi. destruct (decl_nth h l D ord O st parsed E i _ _ Hi) as (d & Hd & Nd & Rs).
    destruct d as [self|]; [|destruct Rs]. exists i, self. split; [exact Li|]. split; [exact Hd|]. split; [exact (self_alone i self0 self tns Hi Hd)|]. split; [exact Nd|]. destruct Rs as (_ & Es & _).
    assert (U0 : forall e, In e (ct_elems self0) -> In (el_type e) (uses (DC self0))) by (intros e He; right; apply in_or_app; left; apply in_map; exact He).
    assert (Dc : PipeSpec.declares l (mkName tns "_self") (DC self0)) by (apply declares_in; exact (nth_error_In _ _ Hi)).
    assert (B : forall u0 u, In u0 (uses (DC self0)) -> points (TypesSpec.target l parsed) u0 u -> became l u0 u) by (intros u0 u Hu; apply (became_points h l D parsed _ _ u0 u Dc Hu)).
    clear - Fe Es U0 B D O E. revert U0. revert Es. generalize (ct_elems self) as es'. induction Fe as [|el e els es [N1 N2] Fe IH]; intros es' Es U0; inversion Es as [|e1 e2 l1 l2 [P1 P2] Es']; subst; constructor.
    - rewrite P2. cbn [retype_el el_name el_type]. split; [exact N1|]. assert (Bq := B _ _ (U0 e (or_introl eq_refl)) P1). rewrite N2 in Bq. unfold el_ty, el_tname in *. destruct (String.eqb (attr el "" "type") "").
      + cbn [became] in Bq. rewrite Bq. reflexivity.
      + unfold parse_type in Bq. destruct (parse_builtin (resolve (e_scope el) (attr el "" "type"))) as [b|] eqn:Pb; cbn [became] in Bq.
        * rewrite Bq. cbn [type_name]. apply parse_builtin_spec in Pb as [_ Pb]. rewrite Pb. reflexivity.
        * destruct Bq as (j & d & -> & Hj). destruct (decl_nth h l D ord O st parsed E j _ _ Hj) as (d' & Hd' & Nd' & _). cbn [type_name]. rewrite Hd'. cbn [option_map]. rewrite Nd'. reflexivity.
    - apply IH; [exact Es'|]. intros x Hx. apply U0. right. exact Hx.
  Qed.
  Variable c : code.
  Hypothesis Gc : gen public fa fe ft allow helpers slices st (chosen_types ord' namespaces targets l parsed) = Ret (inr c).
  Lemma used : used_namespaces namespaces targets = ns.
  Proof. exact (used_is namespaces targets ns Ens). Qed.
  Lemma chosen_ok types t : In types (chosen_types ord' namespaces targets l parsed) -> In t types -> known st t.
  Proof. apply (chosen_known h l D ord O st parsed E ord' namespaces targets O'). rewrite used. exact (ns_incl l ns Hns). Qed.
  Lemma names_kept t : type_name (co_store c) t = type_name st t.
  Proof.
    destruct (gen_main public fa fe ft allow helpers Hn (rank h l) slices st _ Hfa (st_generable h l D ord O st parsed E Hh) (rank_bound h l Hh) chosen_ok) as (c' & Ec & _ & _ & _ & _ & Fo & _).
    assert (c' = c) as -> by congruence. apply (fo_name _ _ _ Fo).
  Qed.
  Let part_type := get_part_type public fa fe helpers all c.
  Lemma doc_of root : In root roots -> let tns := attr root "" "targetNamespace" in exists self, doc_type all c tns = Some self /\
    Forall2 (fun el e => el_name e = mkName (el_space tns el) (attr el "" "name") /\ type_name (co_store c) (el_type e) = Some (el_tname el)) (tops root) (ct_elems self).
  Proof.
    intros Hroot tns. destruct (self_elems root Hroot) as (i & self & Li & Hi & Al & Nm & Fe). exists self. split.
    - unfold doc_type. fold tns in Li. rewrite Li. destruct (gen_alone i (DC self) fa ft allow ltac:(rewrite Nm; reflexivity) public fe helpers slices st _ c Al Gc) as [X _]. unfold get_c. rewrite X. reflexivity.
    - fold tns in Fe. pose proof names_kept as Nk. clear - Fe Nk. induction Fe as [|el e els es [H1 H2] Fe IH]; constructor; [|exact IH]. split; [exact H1|]. rewrite Nk. exact H2.
  Qed.
  Theorem part_found p root t : nlocal (pa_type p) = "" -> nlocal (pa_elem p) <> "" -> In root roots -> attr root "" "targetNamespace" = nspace (pa_elem p) -> top_element root (nlocal (pa_elem p)) t -> at_home (nspace (pa_elem p)) t ->
    part_type p = andthen (name_of public fa fe helpers all c t) (fun r => Ret (Some r)).
  Proof.
    intros H1 H2 Hr Ht Tp Ho. apply top_is in Tp as (el & He & En & ->). destruct (doc_of root Hr) as (self & Ds & Fe). rewrite Ht in Ds, Fe. unfold part_type, get_part_type. rewrite H1. cbn [String.eqb negb]. apply String.eqb_neq in H2. rewrite H2. cbn [negb]. rewrite Ds.
    apply el_home in Ho. pose proof (pt_once _ (Pt root Hr)) as Nd. assert (G : exists e, find (fun e => xname_eqb (el_name e) (pa_elem p)) (ct_elems self) = Some e /\ type_name (co_store c) (el_type e) = Some (el_tname el)).
    { clear - Fe Nd He En Ho. destruct (pa_elem p) as [s x]. cbn [nlocal nspace] in *. induction Fe as [|a e els es [N1 N2] Fe IH]; [destruct He|]. cbn [find]. cbn [map] in Nd. inversion Nd as [|y m Hy Hm]; subst.
      destruct (xname_eqb (el_name e) (mkName s (attr el "" "name"))) eqn:X.
      - apply xname_eqb_eq in X. rewrite N1 in X. injection X as X1 X2. exists e. split; [reflexivity|]. destruct He as [->|He]; [exact N2|]. destruct Hy. rewrite X2. apply (in_map (fun el => attr el "" "name")). exact He.
      - destruct He as [->|He]; [|apply IH; auto]. rewrite N1, Ho, (proj2 (xname_eqb_eq _ _) eq_refl) in X. discriminate. }
    destruct G as (e & -> & G). rewrite G. reflexivity.
  Qed.
  Theorem part_missing p : nlocal (pa_type p) = "" -> (forall root t, In root roots -> attr root "" "targetNamespace" = nspace (pa_elem p) -> top_element root (nlocal (pa_elem p)) t -> ~ at_home (nspace (pa_elem p)) t) -> part_type p = Ret None.
  Proof.
    intros H1 Hno. unfold part_type, get_part_type. rewrite H1. cbn [String.eqb negb]. destruct (String.eqb (nlocal (pa_elem p)) "") eqn:X; [reflexivity|]. cbn [negb].
    destruct (in_dec string_dec (nspace (pa_elem p)) (map (fun root => attr root "" "targetNamespace") roots)) as [Hi|Hi].
    - apply in_map_iff in Hi as (root & Et & Hr). destruct (doc_of root Hr) as (self & Ds & Fe). rewrite Et in Ds, Fe. rewrite Ds. assert (G : find (fun e => xname_eqb (el_name e) (pa_elem p)) (ct_elems self) = None); [|rewrite G; reflexivity].
      specialize (Hno root). assert (N : forall el, In el (tops root) -> attr el "" "name" = nlocal (pa_elem p) -> el_space (nspace (pa_elem p)) el <> nspace (pa_elem p)).
      { intros el He En Q. apply (Hno (el_tname el) Hr Et); [apply top_is; eauto|]. apply el_home. exact Q. }
      clear - Fe N. induction Fe as [|a e els es [N1 N2] Fe IH]; [reflexivity|]. cbn [find]. destruct (xname_eqb (el_name e) (pa_elem p)) eqn:Y; [|apply IH; intros el He; apply N; right; exact He].
      apply xname_eqb_eq in Y. rewrite N1 in Y. destruct (N a (or_introl eq_refl) (f_equal nlocal Y)). exact (f_equal nspace Y).
    - assert (G : doc_type all c (nspace (pa_elem p)) = None); [|rewrite G; reflexivity]. unfold doc_type. unfold all. rewrite all_none; [reflexivity|]. intros d v Hd Hv. destruct (dep_key d _ _ Hd Hv) as (r & i & e & Hr & Er & _).
      apply Hi. destruct (forall2_in_r _ _ _ Rd r Hr) as (root & Hroot & R). apply in_map_iff. exists root. split; [|exact Hroot]. rewrite <- Er. symmetry. exact (proj1 (read_spec _ _ _ _ _ _ _ _ _ _ _ _ R)).
  Qed.
  Theorem part_named p root t d : nlocal (pa_type p) = "" -> nlocal (pa_elem p) <> "" -> In root roots -> attr root "" "targetNamespace" = nspace (pa_elem p) -> top_element root (nlocal (pa_elem p)) t ->
    nspace t = nspace (pa_elem p) -> In (nspace t) ns -> PipeSpec.declares l t d -> picked ft allow t -> own_declaration fa l d -> part_type p = Ret (Some (c, public t)) /\ In (public t) (map fst (co_decls c)).
  Proof.
    intros H1 H2 Hr Ht Tp Ho Hi (r & Hr' & Hd) Pk Od. rewrite (part_found p root t H1 H2 Hr Ht Tp (or_intror Ho)).
    destruct (name_stays public fa fe ft allow helpers Hn (rank h l) slices st _ Hfa (st_generable h l D ord O st parsed E Hh) (rank_bound h l Hh) chosen_ok) as (c' & Ec & P). assert (c' = c) as -> by congruence.
    destruct (own_map h l D ord O st parsed E r Hr') as (own & Eo & M & _). destruct (M _ _ Hd) as (i & Io & Di). pose proof (proj2 (dc_keyed _ _ D r t d Hr' Hd)) as Sp. destruct (decl_nth h l D ord O st parsed E i _ _ Di) as (d' & Hd' & Nd' & _).
    destruct (P all (map snd (ord' (rd_tns r) own)) (TPtr i) t) as [P1 P2].
    - apply (chosen_has l parsed ord' namespaces targets r own Hr'); [rewrite used, <- Sp; exact Hi|exact Eo].
    - apply in_map_iff. exists (t, TPtr i). split; [reflexivity|]. exact (Permutation_in _ (O' _ _) Io).
    - cbn [type_name]. rewrite Hd'. cbn [option_map]. rewrite Nd'. reflexivity.
    - exact Pk.
    - exact (own_stays h l D ord O st parsed E fa Hfa t d i Di Od).
    - rewrite P1. split; [reflexivity|exact P2].
  Qed.
End Documents.

Section Whole.
  Variable annot : elem -> option string.
  Variables (F T : Type) (f0 : F) (t0 : T).
  Variables (pf : string -> option F) (pd pr : string -> option T) (comp : string -> bool) (msg : string -> string).
  Variables (public : xname -> string) (fa : option (attribute -> bool)) (fe : option (element -> bool)) (ft : option (xname -> bool)) (allow : option (list xname)) (helpers : list Z) (slices : bool).
  Variables (h : xname -> nat) (roots : list elem) (l : list rd) (namespaces targets ns : list string).
  Hypothesis Hn : forall b, non_trivial b = true -> memb b helpers = true.
  Hypothesis Hfa : forall a t, filtered fa (retype_at a t) = filtered fa a.
  Hypothesis Rd : Forall2 (fun root r => read annot F T f0 t0 pf pd pr comp msg root = Some r) roots l.
  Hypothesis Pt : forall root, In root roots -> plain_tops root.
  Hypothesis Nt : forall root, In root roots -> attr root "" "targetNamespace" <> "".
  Hypothesis D : documents h l.
  Hypothesis Us : unused_self l.
  Hypothesis Hh : forall n, h n <= N.to_nat 1000.
  Hypothesis Im : imports_first l.
  Hypothesis Ens : namespaces = [] /\ ns = targets \/ namespaces <> [] /\ ns = namespaces.
  Hypothesis Nn : NoDup ns.
  Hypothesis Hns : forall s, In s ns -> exists root, In root roots /\ attr root "" "targetNamespace" = s.
  Variables (ord : nat -> list (xname * ty) -> list (xname * ty)) (ord' : string -> list (xname * ty) -> list (xname * ty)).
  Hypothesis O : any_order ord.
  Hypothesis O' : forall s m, Permutation m (ord' s m).
  Lemma tns_read root r : read annot F T f0 t0 pf pd pr comp msg root = Some r -> rd_tns r = attr root "" "targetNamespace".
  Proof. intros R. exact (proj1 (read_spec _ _ _ _ _ _ _ _ _ _ _ _ R)). Qed.
  Lemma Nt' r : In r l -> rd_tns r <> "".
  Proof. intros H. destruct (forall2_in_r _ _ _ Rd r H) as (root & Hr & R). rewrite (tns_read _ _ R). exact (Nt root Hr). Qed.
  Lemma Hns' s : In s ns -> exists r, In r l /\ rd_tns r = s.
  Proof. intros H. destruct (Hns s H) as (root & Hr & <-). destruct (forall2_in_l _ _ _ Rd root Hr) as (r & H1 & R). exists r. split; [exact H1|exact (tns_read _ _ R)]. Qed.
  Theorem part_types : exists st parsed c, parse_rds ord l = Ok (st, parsed) /\ gen_code public fa fe ft allow helpers slices ord ord' namespaces targets l = Ret (Coded c) /\
    let all := all_types (chosen_schemas namespaces targets l parsed) (deps l parsed) in
    forall p, nlocal (pa_type p) = "" -> nlocal (pa_elem p) <> "" ->
      (forall root t, In root roots -> attr root "" "targetNamespace" = nspace (pa_elem p) -> top_element root (nlocal (pa_elem p)) t -> at_home (nspace (pa_elem p)) t ->
         get_part_type public fa fe helpers all c p = andthen (name_of public fa fe helpers all c t) (fun r => Ret (Some r)) /\
         forall d, In (nspace t) ns -> nspace t = nspace (pa_elem p) -> PipeSpec.declares l t d -> picked ft allow t -> own_declaration fa l d ->
           get_part_type public fa fe helpers all c p = Ret (Some (c, public t)) /\ In (public t) (map fst (co_decls c))) /\
      ((forall root t, In root roots -> attr root "" "targetNamespace" = nspace (pa_elem p) -> top_element root (nlocal (pa_elem p)) t -> ~ at_home (nspace (pa_elem p)) t) -> get_part_type public fa fe helpers all c p = Ret None).
  Proof.
    destruct (documents_parse h l D Im ord O) as (st & parsed & E). pose proof (used_is namespaces targets ns Ens) as U. pose proof (ns_incl l ns Hns') as I. pose proof Nn as N. rewrite <- U in I, N.
    destruct (gen_main public fa fe ft allow helpers Hn (rank h l) slices st _ Hfa (st_generable h l D ord O st parsed E Hh) (rank_bound h l Hh) (chosen_known h l D ord O st parsed E ord' namespaces targets O' I)) as (c & Ec & _).
    exists st, parsed, c. split; [exact E|]. split; [unfold gen_code; rewrite E, (enough h l D ord O st parsed E namespaces targets N I), Ec; reflexivity|]. intros all p H1 H2. split.
    - intros root t Hr Ht Tp Ho. split.
      + eapply part_found with (ns := ns); eauto using Nt', Hns'.
      + intros d Hi Hs Dd Pk Od. eapply part_named with (ns := ns) (root := root); eauto using Nt', Hns'.
    - intros Hno. eapply part_missing with (ns := ns); eauto using Nt', Hns'.
  Qed.
End Whole.
