(* Concrete schemas with anonymous types. *)
From Verif Require Import Base ScopeModel ScopeSpec ScopeProofs TreeModel TreeSpec TreeProofs BuiltinModel Decimal XsdModel NormModel NormMem NormOps NormSpec NormBuild NormExamples NormHoistSpec NormHoist NormAnonSpec NormAnon NormAnonProofs NormCopyProofs NormAnonRoots.
Local Open Scope string_scope.

Definition seq_type (l : list (string * string)) (ks : list elem) : elem := xel "complexType" l [xel "sequence" [] ks].
Definition simple (b : string) : elem := xel "simpleType" [] [xel "restriction" [("base", b)] []].
(* an element with its type inside it *)
Definition doll (n : string) (ks : list elem) : elem := xel "element" [("name", n)] [seq_type [] ks].
Definition doll_schema : elem := schema_el [doll "a" [doll "b" []; doll "a" []; xel "element" [("name", "c")] [simple "xs:int"]]].
Definition list_schema : elem := schema_el [xel "simpleType" [("name", "l")] [xel "list" [] [simple "xs:int"]]].
Definition named_res (es : list elem) : res (nat * list (option elem)) :=
  let (h, ps) := build_roots pow2 pow2 es [] in
  match name_all dbl dbl 20 ps (h, 0) with Done (h, n) => Done (n, map (read_ptr 20 h) ps) | Fails => Fails | Runs => Runs end.

(* the hypotheses hold: decision procedures *)
Definition hit_okb (g : elem -> bool) (d : elem) : bool :=
  let ks := e_children d in let i := anon_index ks in
  match nth_error ks i with
  | Some t => anon_el t && negb (g t) && forallb (fun k => negb (g k) && negb (anon_el k)) (skipn (S i) ks)
  | None => false
  end.
Lemma hit_okb_ok g d : hit_okb g d = true -> hit_ok g d.
Proof.
  unfold hit_okb, hit_ok. cbn zeta. induction (e_children d) as [|k ks IH]; cbn [anon_index]; [discriminate|]. destruct (anon_el k) eqn:Ek.
  - cbn [nth_error skipn]. rewrite Ek. cbn [andb]. intros H. apply andb_true_iff in H. destruct H as [H1 H2]. apply negb_true_iff in H1. exists [], k, ks. split; [auto|]. split; [auto|]. split; [auto|]. split; [auto|].
    rewrite forallb_forall in H2. split; apply Forall_forall; intros y Hy; specialize (H2 y Hy); apply andb_true_iff in H2; destruct H2 as [A B]; apply negb_true_iff in A, B; auto.
  - cbn [nth_error skipn]. intros H. destruct (IH H) as (ks1 & t & ks2 & E & A1 & A2). exists (k :: ks1), t, ks2. rewrite E. split; [auto|]. split; [constructor; auto|auto].
Qed.
Fixpoint allb (P : elem -> bool) (e : elem) : bool := let '(Elem _ _ _ _ ks) := e in P e && forallb (allb P) ks.
Lemma allb_ok P e : allb P e = true -> everywhere (fun d => P d = true) e.
Proof.
  induction e as [n a s c ks IH] using elem_ind'. cbn [allb]. intros H. apply andb_true_iff in H. destruct H as [H1 H2]. apply everywhere_eq. split; [auto|]. cbn [e_children].
  apply Forall_forall. intros k Hk. apply IH; auto. rewrite forallb_forall in H2. auto.
Qed.
Definition tidyb (g : elem -> bool) (e : elem) : bool := allb (fun d => negb (g d) || hit_okb g d) e.
Lemma tidyb_ok g e : tidyb g e = true -> tidy g e.
Proof. intros H q d Hq Hg. apply allb_ok in H. specialize (H q d Hq). cbv beta in H. rewrite Hg in H. apply hit_okb_ok. exact H. Qed.
Fixpoint firstb (g : elem -> bool) (ks : list elem) : bool :=
  match ks with [] => true | k :: ks' => (allb (fun d => negb (g d)) k && firstb g ks') || forallb (fun k => negb (g k)) ks' end.
Lemma firstb_ok g ks : firstb g ks = true -> first_at_top g ks.
Proof.
  induction ks as [|k ks IH]; intros H ks1 k0 ks2 E Hg; [destruct ks1; discriminate|]. destruct ks1 as [|k1 ks1]; [constructor|]. cbn [app] in E. injection E as -> ->. cbn [firstb] in H.
  apply orb_true_iff in H. destruct H as [H|H].
  - apply andb_true_iff in H. destruct H as [H1 H2]. constructor; [|eapply IH; eauto]. apply allb_ok in H1. intros q d Hq. specialize (H1 q d Hq). cbv beta in H1. apply negb_true_iff in H1. auto.
  - exfalso. rewrite forallb_forall in H. specialize (H k0). rewrite Hg in H. assert (false = true) by (apply H, in_elt). discriminate.
Qed.
Definition expectedb (d : elem) : bool := negb (holder d) || match updates (nlocal (e_name d)) with None => false | Some _ => true end.
Lemma expectedb_ok e : allb expectedb e = true -> ~ unexpected e.
Proof. intros H (q & d & Hq & Hh & Hu). apply allb_ok in H. specialize (H q d Hq). cbv beta in H. unfold expectedb in H. rewrite Hh, Hu in H. discriminate H. Qed.
Definition name_readyb (fuel : nat) (e : elem) : bool := Nat.leb (height e) fuel && forallb (tidyb has_anon_el) (e_children e) && firstb has_anon_el (e_children e) && forallb (allb expectedb) (e_children e).
Definition copy_readyb (fuel : nat) (e : elem) : bool := Nat.leb (height e) fuel && forallb (tidyb copies) (e_children e) && firstb copies (e_children e).
Lemma name_readyb_ok fuel e : name_readyb fuel e = true -> name_ready fuel e.
Proof.
  unfold name_readyb, name_ready. intros H. apply andb_true_iff in H. destruct H as [H H4]. apply andb_true_iff in H. destruct H as [H H3]. apply andb_true_iff in H. destruct H as [H1 H2]. apply Nat.leb_le in H1. rewrite forallb_forall in H2, H4.
  split; [auto|]. split; [apply Forall_forall; intros k Hk; apply tidyb_ok; auto|]. split; [apply firstb_ok; auto|]. apply Forall_forall. intros k Hk. apply expectedb_ok. auto.
Qed.
Lemma copy_readyb_ok fuel e : copy_readyb fuel e = true -> copy_ready fuel e.
Proof.
  unfold copy_readyb, copy_ready. intros H. apply andb_true_iff in H. destruct H as [H H3]. apply andb_true_iff in H. destruct H as [H1 H2]. apply Nat.leb_le in H1. rewrite forallb_forall in H2.
  split; [auto|]. split; [apply Forall_forall; intros k Hk; apply tidyb_ok; auto|apply firstb_ok; auto].
Qed.

Lemma digits_no_colon s : forall acc n, digits_val acc s = Some n -> s_in ":" s = false.
Proof.
  induction s as [|c s IH]; intros acc n H; cbn [s_in digits_val] in *; auto. destruct (digit_val c) as [d|] eqn:E; [|discriminate]. rewrite (IH _ _ H), orb_false_r.
  destruct (Ascii.eqb_spec ":" c) as [<- |]; [discriminate E|auto].
Qed.
Lemma dec_no_colon i : s_in ":" (dec (Z.of_nat i)) = false.
Proof.
  rewrite SgProofs.dec_nat. pose proof (digits_dec_N (N.of_nat i)) as H. unfold digits in H. destruct (dec_N (N.of_nat i)) as [|c s] eqn:E; [discriminate|]. eapply digits_no_colon; eauto.
Qed.
Lemma refers_resolves tns i d : refers tns (anon_name i) d -> no_shadowing (e_scope d) -> prefixes_ok (e_scope d) -> (exists p, In (mkName tns p) (e_scope d)) -> tns <> "" -> tns <> xml_uri -> tns <> xmlns_uri ->
  exists upd accum before q, updates (nlocal (e_name d)) = Some (upd, accum) /\ attr d "" upd = before ++ q /\ (before = "" \/ accum = true /\ exists b, before = b ++ " ") /\
    resolve_ns (e_scope d) q = (mkName tns (anon_name i), true).
Proof.
  intros (upd & accum & Hu & _ & Ha) N P I H1 H2 H3. cbn zeta in Ha. set (q := prefix (e_scope d) (mkName tns (anon_name i))) in *.
  assert (Rq : resolve_ns (e_scope d) q = (mkName tns (anon_name i), true)).
  { apply resolve_prefix; auto; cbn [nlocal nspace]; [discriminate|]. unfold anon_name. change (s_in ":" (String "_" (String "a" (String "n" (String "o" (String "n" (dec (Z.of_nat i))))))) = false). cbn [s_in]. rewrite !orb_false_iff. repeat (split; [reflexivity|]). apply dec_no_colon. }
  destruct Ha as [Ha|(Hacc & b & Ha)]; exists upd, accum.
  - exists "", q. auto.
  - exists (b ++ " "), q. split; [auto|]. split; [rewrite Ha, sapp_assoc; reflexivity|]. split; [right; eauto|auto].
Qed.

(* two declarations with types inside: the first append moves the children, the second type stays *)
Lemma two_dolls : exists e e', named_res [e] = Done (2, [Some e']) /\ List.length (flat_map (searched holder) (e_children e)) = 2 /\
  nth_error (e_children e') 1 = nth_error (e_children e) 1 /\ flat_map (searched holder) (e_children e') <> [] /\
  ~ referred "urn:a" (anon_name 2) (e_children e').
Proof.
  exists (schema_el [doll "a" []; doll "b" []]), (schema_el [xel "element" [("name", "a"); ("type", "a:_anon1")] []; doll "b" []; seq_type [("name", "_anon1"); ("_isAnonymous", "true")] []; seq_type [("name", "_anon2"); ("_isAnonymous", "true")] []]).
  split; [vm_compute; reflexivity|]. split; [reflexivity|]. split; [reflexivity|]. split; [vm_compute; discriminate|].
  set (ks := e_children _). assert (H : forallb (allb (fun d => negb (existsb (fun u => String.eqb (attr d "" u) "a:_anon2") ["type"; "itemType"; "base"; "memberTypes"]) && negb (String.eqb (nlocal (e_name d)) "union"))) ks = true) by (vm_compute; reflexivity).
  assert (Hs : forallb (allb (fun d => String.eqb (prefix (e_scope d) (mkName "urn:a" (anon_name 2))) "a:_anon2")) ks = true) by (vm_compute; reflexivity).
  rewrite forallb_forall in H, Hs. clearbody ks. intros (k & q & d & Hk & Hq & upd & accum & Hu & _ & Ha). specialize (H k Hk). specialize (Hs k Hk). apply allb_ok in H, Hs. specialize (H q d Hq). specialize (Hs q d Hq). cbv beta in H, Hs. apply String.eqb_eq in Hs. cbn zeta in Ha. rewrite Hs in Ha.
  apply andb_true_iff in H. destruct H as [H1 H2]. apply negb_true_iff in H1, H2. cbn [existsb] in H1. rewrite !orb_false_iff in H1. destruct H1 as (T1 & T2 & T3 & T4 & _). apply String.eqb_neq in T1, T2, T3, T4.
  unfold updates in Hu. rewrite H2 in Hu. destruct (String.eqb (nlocal (e_name d)) "element" || String.eqb (nlocal (e_name d)) "attribute"); [injection Hu as <- <-; destruct Ha as [Ha|[Ha _]]; congruence|].
  destruct (String.eqb (nlocal (e_name d)) "list"); [injection Hu as <- <-; destruct Ha as [Ha|[Ha _]]; congruence|]. destruct (String.eqb (nlocal (e_name d)) "restriction"); [injection Hu as <- <-; destruct Ha as [Ha|[Ha _]]; congruence|discriminate Hu].
Qed.
Lemma four_dolls : exists e e', normalized [e] = Done [Some e'] /\ e_children e = map (fun n => doll n []) ["a"; "b"; "c"; "d"] /\
  List.length (flat_map (searched holder) (e_children e')) = 2 /\ List.length (filter named (e_children e')) = 7.
Proof. exists (schema_el (map (fun n => doll n []) ["a"; "b"; "c"; "d"])). eexists. split; [vm_compute; reflexivity|]. split; [reflexivity|]. split; vm_compute; reflexivity. Qed.
Definition union_schema : elem := schema_el [xel "simpleType" [("name", "u")] [xel "union" [] [simple "xs:int"; simple "xs:date"; simple "xs:string"]]].
Lemma union_skips : exists e', named_res [union_schema] = Done (2, [Some e']) /\ exists d, sub e' [0; 0] = Some d /\ attr d "" "memberTypes" = " a:_anon1 a:_anon2" /\ e_children d = [simple "xs:date"].
Proof. eexists. split; [vm_compute; reflexivity|]. eexists. split; [reflexivity|]. split; vm_compute; reflexivity. Qed.
(* the type of the attribute moves, but the attribute itself has been moved before *)
Definition shifted_schema : elem := schema_el [xel "complexType" [("name", "t")] [xel "simpleContent" [] [xel "restriction" [] [simple "xs:int"; xel "attribute" [("name", "x")] [simple "xs:string"]]]]].
Lemma shifted : exists e', named_res [shifted_schema] = Done (2, [Some e']) /\ exists d, sub e' [0; 0; 0; 0] = Some d /\ d = xel "attribute" [("name", "x")] [simple "xs:string"].
Proof. eexists. split; [vm_compute; reflexivity|]. eexists. split; [reflexivity|]. vm_compute. reflexivity. Qed.
(* names starting with _anon are not reserved *)
Definition clash_schema : elem := schema_el [doll "a" [xel "element" [("name", "a")] [simple "xs:int"]]; seq_type [("name", "_anon1")] []].
Lemma clash : exists e', normalized [clash_schema] = Done [Some e'] /\ List.length (filter (fun t => String.eqb (attr t "" "name") "_anon1") (e_children e')) = 2.
Proof. eexists. split; [vm_compute; reflexivity|]. vm_compute. reflexivity. Qed.
(* two declarations with one name in different places: one type serves as its namesake's *)
Definition bad_parent : elem := schema_el [xel "complexType" [("name", "t")] [xel "sequence" [] [xel "simpleType" [] []]]].
Lemma bad_parent_fails : named_res [bad_parent] = Fails.
Proof. vm_compute. reflexivity. Qed.
(* ---------- in the words of XML Schema ---------- *)
Lemma xs_of d l : nspace (e_name d) = schemaNS -> nlocal (e_name d) = l -> e_name d = xs l.
Proof. destruct (e_name d) as [s n]. cbn [nspace nlocal]. unfold xs. congruence. Qed.
Lemma refers_says tns n d : refers tns n d -> says tns n d.
Proof.
  intros (upd & accum & H1 & H2 & H3). unfold says. cbv zeta in *. unfold updates in H1.
  destruct (String.eqb (nlocal (e_name d)) "element") eqn:E1; [apply String.eqb_eq in E1; injection H1 as <- <-; left; split; [left; apply xs_of; auto|destruct H3 as [H|[H _]]; [auto|discriminate]]|].
  destruct (String.eqb (nlocal (e_name d)) "attribute") eqn:E2; [apply String.eqb_eq in E2; injection H1 as <- <-; left; split; [right; apply xs_of; auto|destruct H3 as [H|[H _]]; [auto|discriminate]]|]. cbn [orb] in H1.
  destruct (String.eqb (nlocal (e_name d)) "list") eqn:E3; [apply String.eqb_eq in E3; injection H1 as <- <-; right; left; split; [apply xs_of; auto|destruct H3 as [H|[H _]]; [auto|discriminate]]|].
  destruct (String.eqb (nlocal (e_name d)) "restriction") eqn:E4; [apply String.eqb_eq in E4; injection H1 as <- <-; right; right; left; split; [apply xs_of; auto|destruct H3 as [H|[H _]]; [auto|discriminate]]|].
  destruct (String.eqb (nlocal (e_name d)) "union") eqn:E5; [apply String.eqb_eq in E5; injection H1 as <- <-; right; right; right; split; [apply xs_of; auto|destruct H3 as [H|[_ H]]; auto]|]. discriminate.
Qed.
Lemma unexpected_says e : unexpected e <-> exists q d, sub e q = Some d /\ has_anon_el d = true /\ nspace (e_name d) = schemaNS /\ ~ In (nlocal (e_name d)) ["element"; "attribute"; "list"; "restriction"; "union"].
Proof.
  assert (X : forall l, updates l = None <-> ~ In l ["element"; "attribute"; "list"; "restriction"; "union"]).
  { intros l. unfold updates. cbn [In]. destruct (String.eqb_spec l "element"), (String.eqb_spec l "attribute"), (String.eqb_spec l "list"), (String.eqb_spec l "restriction"), (String.eqb_spec l "union"); cbn [orb]; subst; try discriminate; split; intros H; try discriminate H; try tauto; try (exfalso; apply H; tauto); intros [A|[A|[A|[A|[A|[]]]]]]; congruence. }
  split; intros (q & d & H).
  - destruct H as (A & B & C). apply X in C. apply andb_prop in B. destruct B as [B1 B2]. apply String.eqb_eq in B2. exists q, d. auto.
  - destruct H as (A & B & B' & C). apply X in C. exists q, d. split; [auto|]. split; [|auto]. unfold holder. rewrite B, B', String.eqb_refl. reflexivity.
Qed.
