(* Names of the fields of a struct; which field stands for which element or attribute. *)
From Verif Require Import Base SortLib ScopeModel TreeModel EqualModel Utf8 Decimal BuiltinModel CodecModel XsdModel TypesModel GraphModel GenModel SgModel SgStruct SgProofs.
Local Open Scope string_scope.

Lemma foldr_inv {A B} (f : A -> B -> run A) (P : A -> Prop) l : (forall a b a', In b l -> P a -> f a b = Ret a' -> P a') ->
  forall a a', P a -> foldr f a l = Ret a' -> P a'.
Proof.
  induction l as [|b l IH]; intros Hf a a' Pa; cbn [foldr]; [intros [= <-]; exact Pa|].
  destruct (f a b) as [x| | |] eqn:E; cbn [andthen]; try discriminate. apply IH; [intros ? ? ? Hi; apply Hf; right; exact Hi|].
  exact (Hf a b x (or_introl eq_refl) Pa E).
Qed.

Lemma NoDup_snoc {A} (l : list A) x : NoDup l -> ~ In x l -> NoDup (l ++ [x]).
Proof.
  induction l as [|a l IH]; intros N H; cbn [app]; [constructor; [exact H|constructor]|]. apply NoDup_cons_iff in N as [Ha N]. constructor.
  - intros Hx. apply in_app_or in Hx as [Hx|[<-|[]]]; [exact (Ha Hx)|apply H; left; reflexivity].
  - apply IH; [exact N|]. intros Hx. apply H. right. exact Hx.
Qed.
(* the fields that stand for an element or attribute of a given name *)
Definition plain (f : sfield) : bool := negb (String.eqb (sf_tag f) (quoted ",any") || String.eqb (sf_tag f) (quoted ",chardata")).
Definition names_ok (bound : nat) (g : gstate) : Prop :=
  NoDup (map sf_name (filter plain (g_fields g))) /\ incl (map sf_name (filter plain (g_fields g))) (g_taken g) /\
  List.length (g_taken g) <= bound.
Section Names.
  Variable public : xname -> string.
  Variable fa : option (attribute -> bool).
  Variable fe : option (element -> bool).
  Variable helpers : list Z.

  Lemma add_name bound g f taken : names_ok bound g -> (plain f = true -> taken = sf_name f :: g_taken g /\ ~ In (sf_name f) (g_taken g)) ->
    incl (g_taken g) taken -> List.length taken <= bound + 1 -> forall ov he,
    names_ok (bound + 1) (mkG taken (g_fields g ++ [f]) ov he).
  Proof.
    intros [N [I L]] Hf Hi Hl ov he. unfold names_ok. cbn [g_fields g_taken]. rewrite filter_app, map_app. cbn [filter].
    destruct (plain f) eqn:P; cbn [map]; [|rewrite app_nil_r; split; [exact N|]; split; [intros x Hx; apply Hi, I, Hx|exact Hl]].
    destruct (Hf eq_refl) as [-> Hn]. split; [|split; [|exact Hl]].
    - apply NoDup_snoc; [exact N|]. intros Hx. apply Hn, I, Hx.
    - intros x Hx. apply in_app_or in Hx as [Hx|[<-|[]]]; [right; apply I, Hx|left; reflexivity].
  Qed.
  Lemma element_names bound st g e g' : bound <= max_dup -> names_ok bound g -> element_field public helpers st g e = Ret g' -> names_ok (bound + 1) g'.
  Proof.
    intros Hb K. unfold element_field. destruct (expr_of public st (el_type e)); cbn [andthen]; try discriminate.
    destruct (element_name public (g_taken g) (el_name e)) as [taken name] eqn:E.
    destruct (override_for public helpers st (el_type e) (el_default e) _ _) as [oh| | |]; cbn [andthen]; try discriminate. intros [= <-].
    assert (X : taken = name :: g_taken g /\ ~ In name (g_taken g)).
    { apply (allot_fresh public (g_taken g) (false, el_name e)); [destruct K as [_ [_ K]]; lia|exact E]. }
    apply add_name; [exact K|..].
    - cbn [sf_name]. unfold plain. cbn [sf_tag]. destruct (el_wild e); [rewrite String.eqb_refl; discriminate|]. intros _. exact X.
    - destruct X as [-> _]. intros x Hx. right. exact Hx.
    - destruct X as [-> _]. destruct K as [_ [_ K]]. cbn [List.length]. lia.
  Qed.
  Lemma attribute_names bound st g a g' : bound <= max_dup -> names_ok bound g -> attribute_field public helpers st g a = Ret g' -> names_ok (bound + 1) g'.
  Proof.
    intros Hb K. unfold attribute_field. destruct (expr_of public st (at_type a)); cbn [andthen]; try discriminate.
    destruct (attribute_name public (g_taken g) (at_name a)) as [taken name] eqn:E.
    destruct (override_for public helpers st (at_type a) (at_default a) _ _) as [oh| | |]; cbn [andthen]; try discriminate. intros [= <-].
    assert (X : taken = name :: g_taken g /\ ~ In name (g_taken g)).
    { apply (allot_fresh public (g_taken g) (true, at_name a)); [destruct K as [_ [_ K]]; lia|exact E]. }
    apply add_name; [exact K|..].
    - cbn [sf_name]. intros _. exact X.
    - destruct X as [-> _]. intros x Hx. right. exact Hx.
    - destruct X as [-> _]. destruct K as [_ [_ K]]. cbn [List.length]. lia.
  Qed.
  Lemma names_fold {B} (f : gstate -> B -> run gstate) l : (forall bound g b g', bound <= max_dup -> names_ok bound g -> f g b = Ret g' -> names_ok (bound + 1) g') ->
    forall bound g g', bound + List.length l <= S max_dup -> names_ok bound g -> foldr f g l = Ret g' -> names_ok (bound + List.length l) g'.
  Proof.
    intros Hf. induction l as [|b l IH]; intros bound g g' Hb K; cbn [foldr List.length] in *; [intros [= <-]; rewrite Nat.add_0_r; exact K|].
    destruct (f g b) as [x| | |] eqn:E; cbn [andthen]; try discriminate. intros H. replace (bound + S (List.length l)) with ((bound + 1) + List.length l) by lia.
    apply (IH _ x); [lia| |exact H]. apply (Hf bound g b); [lia|exact K|exact E].
  Qed.
  Lemma quoted_chardata : plain (mkField "" (EId "") (quoted ",chardata")) = false.
  Proof. reflexivity. Qed.
  Lemma chardata_names st c g : chardata public helpers st c = Ret g -> names_ok 1 g.
  Proof.
    unfold chardata. assert (Z : names_ok 1 (mkG [] [] [] [])) by (split; [constructor|split; [intros ? []|cbn; lia]]).
    destruct (ct_mixed c); [|intros [= <-]; exact Z]. destruct (drill _ st (ct_base c)) as [b| | |]; cbn [andthen]; try discriminate.
    destruct (expr_of public st b) as [e| | |]; cbn [andthen]; try discriminate.
    assert (Y : forall taken name e ov he, List.length taken <= 1 -> names_ok 1 (mkG taken [mkField name e (quoted ",chardata")] ov he)).
    { intros taken name e' ov he Hl. split; [constructor|]. split; [intros ? []|exact Hl]. }
    destruct b as [|z|n|i].
    - cbn [is_simple]. discriminate.
    - destruct (z =? 0)%Z; [intros [= <-]; exact Z|]. destruct (if non_trivial z then _ else _) as [oh| | |]; cbn [andthen]; try discriminate.
      intros [= <-]. apply Y. cbn. lia.
    - discriminate.
    - destruct (is_simple st (TPtr i)); [|discriminate]. intros [= <-]. apply Y. cbn. lia.
  Qed.
  (* the fields in the order of elements and attributes *)
  Lemma gen_complex_names st i c st' sps : gen_complex public fa fe helpers st i c = Ret (st', sps) ->
    let (ats, els) := filter_fields fa fe (inherit st c) in List.length ats + List.length els <= max_dup ->
    exists sp fs, sps = [sp] /\ sp_struct sp = Some fs /\ NoDup (map sf_name (filter plain fs)).
  Proof.
    unfold gen_complex. destruct (chardata public helpers st c) as [g| | |] eqn:C; cbn [andthen]; try discriminate.
    destruct (filter_fields fa fe (inherit st c)) as [ats els]. intros H Hl.
    destruct (foldr (element_field public helpers _) g els) as [g1| | |] eqn:E1; cbn [andthen] in H; try discriminate.
    destruct (foldr (attribute_field public helpers _) g1 ats) as [g2| | |] eqn:E2; cbn [andthen] in H; try discriminate. injection H as <- <-.
    pose proof (chardata_names _ _ _ C) as K. apply (names_fold _ els) with (bound := 1) in E1; [|intros; eapply element_names; eassumption|lia|exact K].
    apply (names_fold _ ats) with (bound := 1 + List.length els) in E2; [|intros; eapply attribute_names; eassumption|lia|exact E1].
    eexists. eexists. split; [reflexivity|]. split; [reflexivity|]. apply E2.
  Qed.

  (* ---------- what the fields are ---------- *)
  (* the field's type, for an element *)
  Definition element_expr (st : store) (e : element) (x : gexpr) : Prop :=
    exists y, expr_of public st (el_type e) = Ret y /\
      let y := if (el_wild e && match el_type e with TB b => (b =? 0)%Z | _ => false end)%bool then EId "string" else y in
      x = if el_plural e then EArr y else y.
  Lemma element_fields st els : forall g g', foldr (element_field public helpers st) g els = Ret g' ->
    exists fs, g_fields g' = (g_fields g ++ fs)%list /\
      Forall2 (fun e f => sf_tag f = (if el_wild e then quoted ",any" else element_tag e) /\ element_expr st e (sf_expr f)) els fs.
  Proof.
    induction els as [|e els IH]; intros g g'; cbn [foldr]; [intros [= <-]; exists []; rewrite app_nil_r; split; [reflexivity|constructor]|].
    destruct (element_field public helpers st g e) as [x| | |] eqn:E; cbn [andthen]; try discriminate. intros H.
    destruct (IH _ _ H) as [fs [Hf F]]. unfold element_field in E.
    destruct (expr_of public st (el_type e)) as [y| | |] eqn:Ey; cbn [andthen] in E; try discriminate.
    destruct (element_name public (g_taken g) (el_name e)) as [taken name]. cbv zeta in E.
    destruct (override_for public helpers st (el_type e) (el_default e) _ _) as [oh| | |]; cbn [andthen] in E; try discriminate. injection E as <-.
    cbn [g_fields] in Hf. eexists (_ :: fs). split; [rewrite Hf, <- app_assoc; reflexivity|]. constructor; [|exact F].
    cbn [sf_tag sf_expr]. split; [reflexivity|]. exists y. split; [exact Ey|reflexivity].
  Qed.
  Lemma attribute_fields st ats : forall g g', foldr (attribute_field public helpers st) g ats = Ret g' ->
    exists fs, g_fields g' = (g_fields g ++ fs)%list /\
      Forall2 (fun a f => sf_tag f = attribute_tag a /\ expr_of public st (at_type a) = Ret (sf_expr f)) ats fs.
  Proof.
    induction ats as [|a ats IH]; intros g g'; cbn [foldr]; [intros [= <-]; exists []; rewrite app_nil_r; split; [reflexivity|constructor]|].
    destruct (attribute_field public helpers st g a) as [x| | |] eqn:E; cbn [andthen]; try discriminate. intros H.
    destruct (IH _ _ H) as [fs [Hf F]]. unfold attribute_field in E.
    destruct (expr_of public st (at_type a)) as [y| | |] eqn:Ey; cbn [andthen] in E; try discriminate.
    destruct (attribute_name public (g_taken g) (at_name a)) as [taken name]. cbv zeta in E.
    destruct (override_for public helpers st (at_type a) (at_default a) _ _) as [oh| | |]; cbn [andthen] in E; try discriminate. injection E as <-.
    cbn [g_fields] in Hf. eexists (_ :: fs). split; [rewrite Hf, <- app_assoc; reflexivity|]. constructor; [|exact F].
    cbn [sf_tag sf_expr]. split; [reflexivity|exact Ey].
  Qed.
  Lemma gen_complex_fields st i c st' sps : gen_complex public fa fe helpers st i c = Ret (st', sps) ->
    let c' := inherit st c in let (ats, els) := filter_fields fa fe c' in
    st' = put_c st i c' /\
    exists sp cs es fs, sps = [sp] /\ sp_name sp = public (ct_name c) /\ sp_doc sp = ct_doc c /\ sp_type sp = TPtr i /\ sp_struct sp = Some (cs ++ es ++ fs)%list /\
      Forall (fun f => sf_tag f = quoted ",chardata") cs /\ List.length cs <= 1 /\ (ct_mixed c = false -> cs = []) /\
      Forall2 (fun e f => sf_tag f = (if el_wild e then quoted ",any" else element_tag e) /\ element_expr st' e (sf_expr f)) els es /\
      Forall2 (fun a f => sf_tag f = attribute_tag a /\ expr_of public st' (at_type a) = Ret (sf_expr f)) ats fs.
  Proof.
    unfold gen_complex. destruct (chardata public helpers st c) as [g| | |] eqn:C; cbn [andthen]; try discriminate. cbv zeta.
    destruct (filter_fields fa fe (inherit st c)) as [ats els]. intros H.
    destruct (foldr (element_field public helpers _) g els) as [g1| | |] eqn:E1; cbn [andthen] in H; try discriminate.
    destruct (foldr (attribute_field public helpers _) g1 ats) as [g2| | |] eqn:E2; cbn [andthen] in H; try discriminate. injection H as <- <-.
    split; [reflexivity|]. apply element_fields in E1 as [es [Hes Fes]]. apply attribute_fields in E2 as [fs [Hfs Ffs]].
    assert (N : ct_name (inherit st c) = ct_name c /\ ct_doc (inherit st c) = ct_doc c).
    { unfold inherit. destruct (ct_base c); auto. destruct (get_c st id); auto. }
    destruct N as [N D]. eexists. exists (g_fields g), es, fs. split; [reflexivity|]. cbn [sp_name sp_doc sp_type sp_struct]. rewrite N, D. split; [reflexivity|].
    split; [reflexivity|]. split; [reflexivity|]. split; [rewrite Hfs, Hes, app_assoc; reflexivity|].
    assert (X : Forall (fun f => sf_tag f = quoted ",chardata") (g_fields g) /\ List.length (g_fields g) <= 1 /\ (ct_mixed c = false -> g_fields g = [])).
    { unfold chardata in C. destruct (ct_mixed c); [|injection C as <-; split; [constructor|split; [cbn; lia|auto]]].
      destruct (drill _ st (ct_base c)) as [b| | |]; cbn [andthen] in C; try discriminate.
      destruct (expr_of public st b) as [e| | |]; cbn [andthen] in C; try discriminate.
      assert (Y : Forall (fun f => sf_tag f = quoted ",chardata") (g_fields g) /\ List.length (g_fields g) <= 1); [|split; [apply Y|split; [apply Y|discriminate]]].
      destruct b as [|z|n|j]; cbn [is_simple] in C; try discriminate.
      - destruct (z =? 0)%Z; [injection C as <-; split; [constructor|cbn; lia]|]. destruct (if non_trivial z then _ else _) as [oh| | |]; cbn [andthen] in C; try discriminate.
        cbn in C. injection C as <-. cbn [g_fields]. split; [repeat constructor|cbn; lia].
      - destruct (match nth_error st j with Some (DS _) => true | _ => false end); [|discriminate]. injection C as <-. cbn [g_fields]. split; [repeat constructor|cbn; lia]. }
    destruct X as [X1 [X2 X3]]. auto 10.
  Qed.
End Names.

(* ---------- a thousand names are not enough ---------- *)
Lemma find_seq (f : nat -> bool) k : forall m a, k < m -> (forall j, j < k -> f (a + j) = false) -> f (a + k) = true -> find f (seq a m) = Some (a + k).
Proof.
  induction k as [|k IH]; intros m a Hm Hl Hk; (destruct m as [|m]; [lia|]); cbn [seq find].
  - rewrite Nat.add_0_r in *. rewrite Hk. reflexivity.
  - specialize (Hl 0 ltac:(lia)) as H0. rewrite Nat.add_0_r in H0. rewrite H0. rewrite (IH m (S a)); [f_equal; lia|lia| |].
    + intros j Hj. specialize (Hl (S j) ltac:(lia)). rewrite Nat.add_succ_r in Hl. exact Hl.
    + rewrite Nat.add_succ_r in Hk. exact Hk.
Qed.
Definition used_up (n : string) (k : nat) : list string := (rev (map (numbered n) (seq 0 k)) ++ [n])%list.
Lemma used_in n k s : In s (used_up n k) <-> s = n \/ exists j, j < k /\ s = numbered n j.
Proof.
  unfold used_up. rewrite in_app_iff, <- in_rev, in_map_iff. cbn [In]. split.
  - intros [[j [<- Hj]]|[<-|[]]]; [right; exists j; apply in_seq in Hj; split; [lia|reflexivity]|left; reflexivity].
  - intros [->|[j [Hj ->]]]; [right; left; reflexivity|left; exists j; split; [reflexivity|apply in_seq; lia]].
Qed.
Lemma allot_again public x k : k < max_dup -> allot public (used_up (public x) k) (false, x) = (used_up (public x) (S k), numbered (public x) k).
Proof.
  intros Hk. unfold allot, element_name. cbn [fst snd]. cbv zeta.
  assert (M : mem_str (public x) (used_up (public x) k) = true) by (apply mem_str_in, used_in; left; reflexivity). rewrite M. unfold unique. rewrite M.
  unfold free. rewrite (find_seq _ k max_dup 0 Hk).
  - cbn [option_map]. change (0 + k) with k. unfold used_up. rewrite seq_S, map_app, rev_app_distr. reflexivity.
  - intros j Hj. apply Bool.negb_false_iff, mem_str_in, used_in. right. exists j. auto.
  - apply Bool.negb_true_iff, mem_str_out. rewrite used_in. intros [H|[j [Hj H]]]; [exact (numbered_longer _ _ H)|]. apply numbered_inj in H. cbn in H. lia.
Qed.
Lemma allot_all_again public x m : forall k, k + m <= max_dup -> forall rs, allot_all public (used_up (public x) k) (repeat (false, x) m ++ rs) =
  (map (numbered (public x)) (seq k m) ++ allot_all public (used_up (public x) (k + m)) rs)%list.
Proof.
  induction m as [|m IH]; intros k Hk rs; cbn [repeat app seq map]; [rewrite Nat.add_0_r; reflexivity|]. cbn [allot_all].
  rewrite allot_again by lia. f_equal. rewrite IH by lia. do 3 f_equal. lia.
Qed.
Lemma allot_exhausted public x : allot_all public [] (repeat (false, x) (max_dup + 2)) =
  (public x :: map (numbered (public x)) (seq 0 max_dup) ++ [public x])%list.
Proof.
  replace (max_dup + 2) with (S (max_dup + 1)) by lia. cbn [repeat allot_all]. unfold allot at 1, element_name. cbn [fst snd mem_str existsb].
  rewrite repeat_app. change [public x] with (used_up (public x) 0) at 1. rewrite allot_all_again by lia. cbn [repeat allot_all].
  assert (E : allot public (used_up (public x) (0 + max_dup)) (false, x) = (used_up (public x) max_dup, public x)).
  { unfold allot, element_name. cbn [fst snd]. cbv zeta. change (0 + max_dup) with max_dup.
    assert (M : mem_str (public x) (used_up (public x) max_dup) = true) by (apply mem_str_in, used_in; left; reflexivity). rewrite M. unfold unique. rewrite M.
    unfold free. destruct (find _ _) as [i|] eqn:F; [|reflexivity]. apply find_some in F as [Hi F]. apply in_seq in Hi. apply Bool.negb_true_iff, mem_str_out in F.
    destruct F. apply used_in. right. exists i. split; [lia|reflexivity]. }
  rewrite E. reflexivity.
Qed.
