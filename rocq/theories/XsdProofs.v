From Coq Require Import Sorted.
From Verif Require Import Base ScopeModel TreeModel TreeSpec TreeProofs EqualModel EqualSpec EqualProofs Utf8 Decimal BuiltinModel
  CodecModel CodecProofs CodecTime XsdModel XsdSpec.
Local Open Scope string_scope.

(* ---------- searching ---------- *)
Lemma sub_app : forall p q root, sub root (p ++ q)%list = match sub root p with Some e => sub e q | None => None end.
Proof.
  induction p as [|i p IH]; intros q root; cbn [sub app]; auto.
  destruct (nth_error (e_children root) i); auto.
Qed.

Lemma search_at_elems fn : forall e root p, sub root p = Some e ->
  Forall2 (fun q d => sub root q = Some d) (search_at fn e p) (search_elems fn e).
Proof.
  induction e as [n a s c ch IH] using elem_ind'. intros root p Hp.
  rewrite search_at_eq, search_elems_eq. cbn [e_children].
  apply Forall2_app. { destruct (fn _); constructor; auto. }
  assert (G : forall l pre, ch = (pre ++ l)%list ->
    Forall2 (fun q d => sub root q = Some d) (walk_search fn p l (List.length pre)) (flat_map (search_elems fn) l)).
  { induction l as [|x l IHl]; intros pre E; cbn [walk_search flat_map]; [constructor|].
    apply Forall2_app.
    - apply IH; [rewrite E, in_app_iff; cbn; auto|]. rewrite sub_app, Hp. cbn [sub e_children].
      rewrite E, nth_error_app2, Nat.sub_diag by lia. reflexivity.
    - specialize (IHl (pre ++ [x])%list). rewrite app_length, Nat.add_1_r in IHl. apply IHl.
      rewrite E, <- app_assoc. reflexivity. }
  apply (G ch []). reflexivity.
Qed.

Lemma search_func_elems_at fn root : Forall2 (fun q d => sub root q = Some d) (search_func fn root) (search_func_elems fn root).
Proof.
  unfold search_func, search_func_elems.
  assert (G : forall l pre, e_children root = (pre ++ l)%list ->
    Forall2 (fun q d => sub root q = Some d) (walk_search fn [] l (List.length pre)) (flat_map (search_elems fn) l)).
  { induction l as [|x l IHl]; intros pre E; cbn [walk_search flat_map]; [constructor|].
    apply Forall2_app.
    - apply search_at_elems. cbn [sub app]. rewrite E, nth_error_app2, Nat.sub_diag by lia. reflexivity.
    - specialize (IHl (pre ++ [x])%list). rewrite app_length, Nat.add_1_r in IHl. apply IHl.
      rewrite E, <- app_assoc. reflexivity. }
  apply (G _ []). reflexivity.
Qed.

Lemma name_match_schema local n : name_match schemaNS local n = true <-> n = mkName schemaNS local.
Proof.
  unfold name_match. destruct n as [sp lo]. cbn [nlocal nspace].
  destruct (String.eqb lo local) eqn:E; cbn [negb].
  - apply String.eqb_eq in E as ->. rewrite orb_true_iff, !String.eqb_eq. split.
    + intros [H|H]; [discriminate H|]. rewrite <- H. reflexivity.
    + intros H. right. injection H as ->. reflexivity.
  - apply String.eqb_neq in E. split; [discriminate|]. intros H. injection H as _ H. contradiction.
Qed.

Lemma find_all_lists local root : lists root local (find_all local root).
Proof.
  exists (search_func (fun e => name_match schemaNS local (e_name e)) root). split; [apply search_func_sorted|]. split.
  - intros p. rewrite search_func_spec. split; intros (e & H & E); exists e; split; auto; apply name_match_schema; auto.
  - apply search_func_elems_at.
Qed.

Lemma sorted_ext {A} (R : A -> A -> Prop) (irr : forall a, ~ R a a) (tr : forall a b c, R a b -> R b c -> R a c) :
  forall l m, StronglySorted R l -> StronglySorted R m -> (forall x, In x l <-> In x m) -> l = m.
Proof.
  induction l as [|a l IH]; intros m Hl Hm E.
  - destruct m as [|b m]; auto. destruct (proj2 (E b)); cbn; auto.
  - destruct m as [|b m]; [destruct (proj1 (E a)); cbn; auto|].
    inversion Hl as [|? ? Sl Fl]; inversion Hm as [|? ? Sm Fm]; subst. rewrite Forall_forall in Fl, Fm.
    assert (a = b) as ->.
    { destruct (proj1 (E a) (or_introl eq_refl)) as [->|Ha]; auto.
      destruct (proj2 (E b) (or_introl eq_refl)) as [->|Hb]; auto.
      exfalso. apply (irr a). eapply tr; [apply Fl, Hb|apply Fm, Ha]. }
    f_equal. apply IH; auto. intros x. split; intros H.
    + destruct (proj1 (E x) (or_intror H)) as [->|]; auto. exfalso. eapply irr. apply Fl, H.
    + destruct (proj2 (E x) (or_intror H)) as [->|]; auto. exfalso. eapply irr. apply Fm, H.
Qed.

Lemma doc_before_trans : forall a b c, doc_before a b -> doc_before b c -> doc_before a c.
Proof.
  induction a as [|i a IH]; intros b c H1 H2.
  - inversion H1; subst. inversion H2; subst; constructor.
  - inversion H1; subst; inversion H2; subst; try (apply db_left; lia). apply db_below. eapply IH; eauto.
Qed.

(* the list is determined *)
Lemma lists_inj root local a b : lists root local a -> lists root local b -> a = b.
Proof.
  intros (ps & S1 & E1 & F1) (qs & S2 & E2 & F2).
  assert (ps = qs) as <-.
  { eapply sorted_ext; eauto using doc_before_irrefl, doc_before_trans. intros x. rewrite E1, E2. tauto. }
  clear - F1 F2. revert b F2. induction F1 as [|p e ps es H F IH]; intros b F2; inversion F2; subst; auto.
  f_equal; auto. congruence.
Qed.

(* ---------- Imports ---------- *)
Lemma imports_spec root : exists imps scs incs,
  lists root "import" imps /\
  (e_name root = mkName schemaNS "schema" -> scs = [root]) /\
  (e_name root <> mkName schemaNS "schema" -> lists root "schema" scs) /\
  Forall2 (fun sc l => lists sc "include" l) scs incs /\
  imports root = (map (fun v => mkRef (attr v "" "namespace") (attr v "" "schemaLocation")) imps ++
    concat (map (fun p => map (fun v => mkRef (attr (fst p) "" "targetNamespace") (attr v "" "schemaLocation")) (snd p)) (combine scs incs)))%list.
Proof.
  exists (find_all "import" root), (schemas_of root), (map (find_all "include") (schemas_of root)).
  split; [apply find_all_lists|]. split; [|split; [|split]].
  - intros E. unfold schemas_of. rewrite E. destruct (xname_eqb _ _) eqn:X; auto.
    rewrite (proj2 (xname_eqb_eq _ _)) in X; [discriminate|reflexivity].
  - intros E. unfold schemas_of. destruct (xname_eqb _ _) eqn:X; [|apply find_all_lists].
    apply xname_eqb_eq in X. contradiction.
  - induction (schemas_of root); cbn [map]; constructor; auto. apply find_all_lists.
  - unfold imports. f_equal. induction (schemas_of root) as [|x l IH]; auto. cbn [map flat_map combine concat fst snd]. rewrite IH. reflexivity.
Qed.

Definition nested_schema : elem :=
  let inc := Elem (xs "include") [mkAttr (mkName "" "schemaLocation") "c.xsd"] [] "" [] in
  let inner := Elem (xs "schema") [mkAttr (mkName "" "targetNamespace") "urn:b"] [] "" [inc] in
  let outer := Elem (xs "schema") [mkAttr (mkName "" "targetNamespace") "urn:a"] [] "" [inner] in
  Elem (mkName "urn:w" "types") [] [] "" [outer].
Lemma include_twice : imports nested_schema = [mkRef "urn:a" "c.xsd"; mkRef "urn:b" "c.xsd"] /\
  List.length (find_all "include" nested_schema) = 1.
Proof. split; reflexivity. Qed.

(* ---------- attribute values ---------- *)
Lemma same_text_trim s : same_text s (trim_space s).
Proof.
  apply trim_same_text. destruct (trim_space_split s) as (u & v & _ & _ & _ & Hi & Hi').
  symmetry. rewrite <- (trim_unique "" (trim_space s) "") at 2; try constructor; auto.
  cbn [append]. rewrite sapp_nil_r. reflexivity.
Qed.
Lemma numeral_chars s n : numeral s n -> s_all time_char s = true.
Proof.
  assert (G : forall c d, digit_val c = Some d -> time_char c = true).
  { intros [[] [] [] [] [] [] [] []] d H; try discriminate H; reflexivity. }
  induction 1 as [c d H|s n c d H IH Hd].
  - cbn [s1 s_all]. rewrite (G _ _ H). reflexivity.
  - rewrite s_all_app, IH. cbn [s1 s_all]. rewrite (G _ _ Hd). reflexivity.
Qed.
Lemma int_literal_trim t z : int_literal t z -> trim_space t = t.
Proof.
  intros H. apply trim_none. destruct H; cbn [s_all]; rewrite (numeral_chars _ _ H); reflexivity.
Qed.
Lemma int_literal_not t z : int_literal t z -> t <> "" /\ t <> "unbounded".
Proof.
  intros H. destruct H as [s n H|s n H|s n H]; try (split; discriminate).
  pose proof (numeral_head s n H) as (c & r & -> & Hc). split; [discriminate|]. intros E. injection E as -> _. discriminate Hc.
Qed.

Lemma parse_int_spec s z : parse_int s = Some z <-> occurs s z.
Proof.
  unfold parse_int. cbv zeta.
  assert (T0 : trim_space "" = "") by reflexivity. assert (TU : trim_space "unbounded" = "unbounded") by reflexivity.
  destruct (String.eqb (trim_space s) "") eqn:E0; [|destruct (String.eqb (trim_space s) "unbounded") eqn:EU].
  - apply String.eqb_eq in E0. split.
    + intros H. injection H as <-. apply oc_absent, trim_same_text. congruence.
    + intros H. destruct H as [s H|s H|s t z H L R]; auto; apply trim_same_text in H.
      * rewrite TU in H. congruence.
      * rewrite (int_literal_trim _ _ L) in H. apply int_literal_not in L as [L _]. congruence.
  - apply String.eqb_eq in EU. split.
    + intros H. injection H as <-. apply oc_unbounded, trim_same_text. congruence.
    + intros H. destruct H as [s H|s H|s t z H L R]; auto; apply trim_same_text in H.
      * rewrite T0 in H. congruence.
      * rewrite (int_literal_trim _ _ L) in H. apply int_literal_not in L as [_ L]. congruence.
  - apply String.eqb_neq in E0, EU. rewrite atoi_spec. split.
    + intros [L R]. eapply oc_int; eauto using same_text_trim.
    + intros H. destruct H as [s H|s H|s t z H L R]; apply trim_same_text in H; try congruence.
      rewrite (int_literal_trim _ _ L) in H. rewrite H. auto.
Qed.
Lemma occurs_fun s a b : occurs s a -> occurs s b -> a = b.
Proof. rewrite <- !parse_int_spec. congruence. Qed.

Lemma parse_bool_spec s b : parse_bool s = Some b <-> boolean s b.
Proof.
  unfold parse_bool. split.
  - destruct (_ || _)%bool eqn:E; [|destruct (_ || _)%bool eqn:E' in |- *]; intros H; try discriminate H; injection H as <-.
    + rewrite !orb_true_iff, !String.eqb_eq in E. destruct E as [[->| ->]| ->]; constructor.
    + rewrite !orb_true_iff, !String.eqb_eq in E'. destruct E' as [->| ->]; constructor.
  - intros H; destruct H; reflexivity.
Qed.

Lemma parse_plural_spec el b : parse_plural el = Some b <-> plural (attr el "" "minOccurs") (attr el "" "maxOccurs") b.
Proof.
  unfold parse_plural. generalize (attr el "" "minOccurs") (attr el "" "maxOccurs"). intros mn mx.
  destruct (parse_int mn) as [lo|] eqn:L.
  - pose proof (proj1 (parse_int_spec _ _) L) as OL. destruct (1 <? lo)%Z eqn:B.
    + apply Z.ltb_lt in B. split.
      * intros H. injection H as <-. eapply pl_min; eauto.
      * intros H. destruct H as [? ? l O H|? ? l h O H ? ?|? ? l h O H ? ?]; auto; pose proof (occurs_fun _ _ _ O OL); lia.
    + apply Z.ltb_ge in B. destruct (parse_int mx) as [hi|] eqn:M.
      * pose proof (proj1 (parse_int_spec _ _) M) as OM. split.
        -- intros H. injection H as <-. destruct (hi <? 0)%Z eqn:C1; cbn [orb].
           { apply Z.ltb_lt in C1. eapply pl_many; eauto. }
           apply Z.ltb_ge in C1. destruct (1 <? hi)%Z eqn:C2.
           { apply Z.ltb_lt in C2. eapply pl_many; eauto. }
           apply Z.ltb_ge in C2. eapply pl_one; eauto.
        -- intros H. destruct H as [? ? l O H|? ? l h O H O2 H2|? ? l h O H O2 H2].
           ++ pose proof (occurs_fun _ _ _ O OL). lia.
           ++ pose proof (occurs_fun _ _ _ O2 OM). subst. f_equal. rewrite orb_true_iff, !Z.ltb_lt. auto.
           ++ pose proof (occurs_fun _ _ _ O2 OM). subst. f_equal. rewrite orb_false_iff, !Z.ltb_ge. lia.
      * split; [discriminate|]. intros H. destruct H as [? ? l O H|? ? l h O H O2 H2|? ? l h O H O2 H2].
        -- pose proof (occurs_fun _ _ _ O OL). lia.
        -- apply parse_int_spec in O2. congruence.
        -- apply parse_int_spec in O2. congruence.
  - split; [discriminate|]. intros H. exfalso. destruct H as [? ? l O H|? ? l h O H O2 H2|? ? l h O H O2 H2]; apply parse_int_spec in O; congruence.
Qed.

(* the successful results of parseElement *)
Lemma parse_element_fields annot ns el e : parse_element annot ns el = Some e ->
  boolean (attr el "" "abstract") (el_abstract e) /\ boolean (attr el "" "nillable") (el_nillable e) /\
  plural (attr el "" "minOccurs") (attr el "" "maxOccurs") (el_plural e) /\
  (el_optional e = true <-> (attr el "" "minOccurs" <> "" /\ occurs (attr el "" "minOccurs") 0) \/ attr el "" "default" <> "") /\
  el_default e = attr el "" "default" /\ el_wild e = false.
Proof.
  unfold parse_element. destruct (parse_bool (attr el "" "abstract")) as [ab|] eqn:EA; [|discriminate].
  destruct (parse_bool (attr el "" "nillable")) as [ni|] eqn:EN; [|discriminate].
  destruct (parse_plural el) as [pl|] eqn:EP; [|discriminate]. destruct (parse_optional el) as [op|] eqn:EO; [|discriminate].
  destruct (docs annot el); [|discriminate]. intros H. injection H as <-. cbn [el_abstract el_nillable el_plural el_optional el_default el_wild].
  split; [apply parse_bool_spec; auto|]. split; [apply parse_bool_spec; auto|]. split; [apply parse_plural_spec; auto|].
  split; [|auto]. unfold parse_optional in EO. destruct (String.eqb (attr el "" "minOccurs") "") eqn:E.
  - apply String.eqb_eq in E. injection EO as <-. rewrite negb_true_iff, String.eqb_neq. split; auto. intros [[H _]|H]; auto; contradiction.
  - apply String.eqb_neq in E. destruct (parse_int (attr el "" "minOccurs")) as [n|] eqn:I; [|discriminate]. injection EO as <-.
    rewrite orb_true_iff, Z.eqb_eq, negb_true_iff, String.eqb_neq, <- parse_int_spec, I. split.
    + intros [->|H]; auto.
    + intros [[_ H]|H]; auto. injection H as <-. auto.
Qed.

(* when parseElement rejects *)
Lemma parse_element_total annot ns el : (forall e, annot e <> None) ->
  (exists a, boolean (attr el "" "abstract") a) -> (exists a, boolean (attr el "" "nillable") a) ->
  (exists a, plural (attr el "" "minOccurs") (attr el "" "maxOccurs") a) -> exists e, parse_element annot ns el = Some e.
Proof.
  intros An [a Ha] [n Hn] [p Hp]. unfold parse_element.
  apply parse_bool_spec in Ha, Hn. rewrite Ha, Hn. pose proof Hp as Hp'. apply parse_plural_spec in Hp. rewrite Hp.
  assert (exists o, parse_optional el = Some o) as [o ->].
  { unfold parse_optional. destruct (String.eqb _ ""); eauto.
    assert (exists z, occurs (attr el "" "minOccurs") z) as [z Hz] by (inversion Hp'; eauto). apply parse_int_spec in Hz. rewrite Hz. eauto. }
  assert (exists d, docs annot el = Some d) as [d ->]; [|eauto].
  unfold docs, walk. match goal with |- exists d, foldo ?f _ _ = _ => assert (G : forall l d, exists d', foldo f d l = Some d') end; [|apply G].
  induction l as [|x l IH]; intros d; cbn [foldo]; eauto.
  destruct (local_is x "annotation"); auto. destruct (annot x) as [y|] eqn:E; auto. destruct (An _ E).
Qed.

Definition el_with (l : list (string * string)) : elem :=
  Elem (xs "element") (map (fun p => mkAttr (mkName "" (fst p)) (snd p)) l) [] "" [].
Definition no_doc (_ : elem) : option string := Some "".

Lemma bad_max_accepted : exists el e, attr el "" "maxOccurs" = "many" /\ (forall z, ~ occurs "many" z) /\
  parse_element no_doc "urn:a" el = Some e.
Proof.
  exists (el_with [("name", "e"); ("minOccurs", "2"); ("maxOccurs", "many")]). eexists. split; [reflexivity|]. split; [|reflexivity].
  intros z H. apply parse_int_spec in H. discriminate H.
Qed.

(* ---------- merging ---------- *)
Lemma firsts_length {A} (l r : list A) : firsts l r -> List.length r <= List.length l.
Proof. induction 1; auto; rewrite ?app_length; cbn [List.length]; lia. Qed.
Lemma firsts_in {A} (l r : list A) : firsts l r -> forall x, In x r <-> In x l.
Proof.
  induction 1 as [|l r a H IH N|l r a H IH N]; intros x; [tauto| |]; rewrite ?in_app_iff, IH; cbn [In]; [tauto|].
  split; auto. intros [Hx|[->|[]]]; auto.
Qed.
Lemma nodup_snoc {A} (l : list A) a : NoDup l -> ~ In a l -> NoDup (l ++ [a])%list.
Proof.
  induction l as [|x l IH]; intros H N; cbn [app]; [constructor; auto|]. inversion H; subst. constructor.
  - rewrite in_app_iff. cbn [In]. intros [K|[->|[]]]; auto. apply N. cbn; auto.
  - apply IH; auto. intros K. apply N. cbn; auto.
Qed.
Lemma firsts_nodup {A} (l r : list A) : firsts l r -> NoDup r.
Proof.
  induction 1 as [|l r a H IH N|l r a H IH N]; auto; [constructor|]. apply nodup_snoc; auto. rewrite (firsts_in _ _ H). auto.
Qed.

Lemma firsts_fun {A} (l r r' : list A) : firsts l r -> firsts l r' -> r = r'.
Proof.
  intros H. revert r'. induction H as [|l r a H IH N|l r a H IH N]; intros r' H'.
  - inversion H' as [E|l' r0 a H0 N E|l' r0 a H0 N E]; auto; destruct l'; discriminate E.
  - inversion H' as [E|l' r0 b H0 N0 E|l' r0 b H0 N0 E]; [destruct l; discriminate E| |]; apply app_inj_tail in E as [-> ->].
    + f_equal. auto.
    + contradiction.
  - inversion H' as [E|l' r0 b H0 N0 E|l' r0 b H0 N0 E]; [destruct l; discriminate E| |]; apply app_inj_tail in E as [-> ->]; auto.
    contradiction.
Qed.

Lemma same_name_iff n e : same_name n e = true <-> el_name e = n.
Proof. apply xname_eqb_eq. Qed.

Lemma merges_single e : merges [e] e.
Proof.
  constructor.
  - exists e, []. repeat (split; [reflexivity|]). reflexivity.
  - split; [intros H; exists e; cbn; auto|]. intros (x & [->|[]] & H). auto.
  - split; [intros H; exists e; cbn; auto|]. intros (x & [->|[]] & H). auto.
  - split; [intros H; exists e; cbn; auto|]. intros (x & [->|[]] & H). auto.
  - split; [intros H x [->|[]]; auto|]. intros H. apply H. cbn; auto.
  - intros d Hd. split; [intros H x [->|[]]; auto|]. intros H. apply H. cbn; auto.
  - cbn [map from_text]. destruct (el_doc e); reflexivity.
Qed.
Lemma exists_snoc {A} (P : A -> Prop) l e : (exists x, In x (l ++ [e])%list /\ P x) <-> (exists x, In x l /\ P x) \/ P e.
Proof.
  split.
  - intros (x & H & Hp). apply in_app_iff in H as [H|[->|[]]]; eauto.
  - intros [(x & H & Hp)|H]; [exists x|exists e]; rewrite in_app_iff; cbn; auto.
Qed.
Lemma forall_snoc {A} (P : A -> Prop) l e : (forall x, In x (l ++ [e])%list -> P x) <-> (forall x, In x l -> P x) /\ P e.
Proof.
  split.
  - intros H. split; [intros x Hx|]; apply H; rewrite in_app_iff; cbn; auto.
  - intros [H1 H2] x H. apply in_app_iff in H as [H|[->|[]]]; auto.
Qed.
Lemma from_text_snoc : forall l e, from_text (l ++ [e])%list = match from_text l with [] => from_text [e] | _ => (from_text l ++ [e])%list end.
Proof. induction l as [|[|c x] l IH]; intros e; [reflexivity|exact (IH e)|reflexivity]. Qed.
Lemma from_text_head : forall l, match from_text l with [] => True | x :: _ => x <> "" end.
Proof. induction l as [|[|c x] l IH]; [exact I|exact IH|]. cbn. discriminate. Qed.
Lemma concat_snoc s : forall l x e, String.concat s ((x :: l) ++ [e])%list = String.concat s (x :: l) ++ s ++ e.
Proof.
  assert (A : forall a b c : string, (a ++ b) ++ c = a ++ b ++ c) by (induction a as [|c a IH]; intros; cbn [append]; rewrite ?IH; auto).
  induction l as [|y l IH]; intros x e; [reflexivity|].
  change (String.concat s ((x :: y :: l) ++ [e])%list) with (x ++ s ++ String.concat s ((y :: l) ++ [e])%list).
  change (String.concat s (x :: y :: l)) with (x ++ s ++ String.concat s (y :: l)). rewrite IH, !A. reflexivity.
Qed.
Lemma doc_snoc l e : (if String.eqb (String.concat nl (from_text l)) "" then "" else String.concat nl (from_text l) ++ nl) ++ e =
  String.concat nl (from_text (l ++ [e])%list).
Proof.
  rewrite from_text_snoc. pose proof (from_text_head l) as H. destruct (from_text l) as [|x r].
  - cbn [String.concat String.eqb append]. destruct e; reflexivity.
  - rewrite concat_snoc. destruct (String.eqb_spec (String.concat nl (x :: r)) "") as [E|E].
    + destruct x; [congruence|]. destruct r; discriminate E.
    + assert (A : forall a b c : string, (a ++ b) ++ c = a ++ b ++ c) by (induction a as [|c a IH]; intros; cbn [append]; rewrite ?IH; auto).
      apply A.
Qed.
Lemma merges_join g m e : merges g m -> merges (g ++ [e])%list (join_elem m e).
Proof.
  intros [Hf Hp Ho Hn Ha Hd Ht]. constructor.
  - destruct Hf as (x & g' & -> & H). exists x, (g' ++ [e])%list. split; [reflexivity|]. exact H.
  - cbn [join_elem el_plural]. rewrite orb_true_iff, exists_snoc, Hp. tauto.
  - cbn [join_elem el_optional]. rewrite orb_true_iff, exists_snoc, Ho. tauto.
  - cbn [join_elem el_nillable]. rewrite orb_true_iff, exists_snoc, Hn. tauto.
  - cbn [join_elem el_abstract]. rewrite andb_true_iff, forall_snoc, Ha. tauto.
  - intros d Nd. cbn [join_elem el_default]. rewrite forall_snoc, <- (Hd d Nd). destruct (String.eqb _ _) eqn:E.
    + apply String.eqb_eq in E. rewrite E. tauto.
    + apply String.eqb_neq in E. split; [congruence|]. intros [H1 H2]. congruence.
  - cbn [join_elem el_doc]. rewrite Ht, map_app. apply doc_snoc.
Qed.

Lemma nth_error_set_nth {A} : forall (l : list A) i x k, i < List.length l ->
  nth_error (set_nth i x l) k = if Nat.eqb k i then Some x else nth_error l k.
Proof.
  induction l as [|a l IH]; intros [|i] x [|k] H; cbn [List.length] in H; cbn [set_nth nth_error Nat.eqb]; try lia; auto.
  apply IH. lia.
Qed.
Lemma set_nth_length {A} : forall (l : list A) i x, List.length (set_nth i x l) = List.length l.
Proof. induction l as [|a l IH]; intros [|i] x; cbn [set_nth List.length]; auto. Qed.
Lemma set_nth_app {A} (p : list A) : forall l k x, set_nth (List.length p + k) x (p ++ l)%list = (p ++ set_nth k x l)%list.
Proof. induction p as [|a p IH]; intros l k x; cbn [List.length Nat.add app set_nth]; auto. rewrite IH. reflexivity. Qed.
Lemma set_nth_map {A B} (f : A -> B) : forall (l : list A) i x a, nth_error l i = Some a -> f x = f a -> map f (set_nth i x l) = map f l.
Proof.
  induction l as [|b l IH]; intros [|i] x a H E; cbn [nth_error] in H; try discriminate; cbn [set_nth map].
  - injection H as ->. rewrite E. reflexivity.
  - rewrite (IH _ _ _ H E). reflexivity.
Qed.

Lemma merge_invariant els0 : forall new, exists ms used, fold_left merge_step new (els0, []) = ((els0 ++ ms)%list, used) /\
  firsts (map el_name new) (map el_name ms) /\
  (forall n i, lookup n used = Some i <-> exists k, nth_error (map el_name ms) k = Some n /\ i = List.length els0 + k) /\
  (forall m, In m ms -> merges (filter (same_name (el_name m)) new) m).
Proof.
  induction new as [|e new IH] using rev_ind.
  - exists [], []. cbn [fold_left map lookup]. rewrite app_nil_r. split; [reflexivity|]. split; [constructor|]. split.
    + intros n i. split; [discriminate|]. intros ([|k] & H & _); discriminate H.
    + intros m [].
  - destruct IH as (ms & used & E & Hf & Hu & Hm). rewrite fold_left_app, E. cbn [fold_left merge_step].
    destruct (lookup (el_name e) used) as [i|] eqn:L.
    + apply Hu in L as (k & Hk & ->). rewrite nth_error_app2, Nat.add_comm, Nat.add_sub by lia.
      rewrite nth_error_map in Hk. destruct (nth_error ms k) as [a|] eqn:Ek; [|discriminate Hk]. injection Hk as Hk.
      exists (set_nth k (join_elem a e) ms), used. rewrite Nat.add_comm, set_nth_app.
      assert (Em : map el_name (set_nth k (join_elem a e) ms) = map el_name ms) by (eapply set_nth_map; eauto).
      split; [reflexivity|]. rewrite Em. split; [|split]; auto.
      * rewrite map_app. cbn [map]. apply fi_old; auto. apply (firsts_in _ _ Hf). rewrite <- Hk. apply in_map. eapply nth_error_In; eauto.
      * intros m Him. apply In_nth_error in Him as [j Hj].
        assert (k < List.length ms) by (apply nth_error_Some; congruence). rewrite nth_error_set_nth in Hj by auto.
        rewrite filter_app. cbn [filter]. destruct (Nat.eqb j k) eqn:Ej.
        -- injection Hj as <-. cbn [join_elem el_name]. rewrite (proj2 (same_name_iff _ _)) by congruence. apply merges_join. apply Hm.
           eapply nth_error_In; eauto.
        -- apply Nat.eqb_neq in Ej. destruct (same_name (el_name m) e) eqn:Es.
           ++ exfalso. apply same_name_iff in Es. apply Ej. apply firsts_nodup in Hf. rewrite NoDup_nth_error in Hf.
              apply Hf; [rewrite map_length; apply nth_error_Some; congruence|]. rewrite !nth_error_map, Hj, Ek. cbn [option_map]. congruence.
           ++ rewrite app_nil_r. apply Hm. eapply nth_error_In; eauto.
    + assert (N : ~ In (el_name e) (map el_name ms)).
      { intros H. apply In_nth_error in H as [k Hk]. assert (lookup (el_name e) used = Some (List.length els0 + k)) by (apply Hu; eauto). congruence. }
      exists (ms ++ [e])%list, ((el_name e, List.length (els0 ++ ms)%list) :: used). rewrite app_assoc. split; [reflexivity|].
      rewrite !map_app. cbn [map]. split; [|split].
      * apply fi_new; auto. rewrite <- (firsts_in _ _ Hf). auto.
      * intros n i. cbn [lookup]. destruct (xname_eqb (el_name e) n) eqn:X.
        -- apply xname_eqb_eq in X as <-. split.
           ++ intros H. injection H as <-. exists (List.length ms). rewrite app_length, nth_error_app2, map_length, Nat.sub_diag by (rewrite map_length; lia). auto.
           ++ intros (k & Hk & ->). destruct (Nat.lt_ge_cases k (List.length (map el_name ms))) as [Lt|Ge].
              { rewrite nth_error_app1 in Hk by auto. destruct N. eapply nth_error_In; eauto. }
              rewrite nth_error_app2 in Hk by auto. rewrite map_length in *. destruct (k - List.length ms) eqn:D; [|destruct n; discriminate Hk].
              rewrite app_length. f_equal. lia.
        -- rewrite Hu. split; intros (k & Hk & ->); exists k; split; auto.
           ++ rewrite nth_error_app1; auto. apply nth_error_Some. congruence.
           ++ destruct (Nat.lt_ge_cases k (List.length (map el_name ms))) as [Lt|Ge]; [rewrite nth_error_app1 in Hk; auto|].
              rewrite nth_error_app2 in Hk by auto. destruct (k - _) as [|j]; [|destruct j; discriminate Hk]. injection Hk as Hk.
              rewrite (proj2 (xname_eqb_eq _ _) Hk) in X. discriminate.
      * intros m Him. rewrite filter_app. cbn [filter]. apply in_app_iff in Him as [Him|[<-|[]]].
        -- destruct (same_name (el_name m) e) eqn:Es.
           ++ apply same_name_iff in Es. destruct N. rewrite Es. apply in_map. auto.
           ++ rewrite app_nil_r. auto.
        -- rewrite (proj2 (same_name_iff _ _) eq_refl). assert (filter (same_name (el_name e)) new = []) as ->.
           { destruct (filter (same_name (el_name e)) new) as [|y l] eqn:Ef; auto. exfalso. assert (In y (filter (same_name (el_name e)) new)) as Hy by (rewrite Ef; cbn; auto).
             apply filter_In in Hy as [Hy1 Hy2]. apply same_name_iff in Hy2. apply N. rewrite <- Hy2. apply (firsts_in _ _ Hf). apply in_map. auto. }
           apply merges_single.
Qed.

Lemma merge_elems_spec els0 new : exists ms, merge_elems els0 new = (els0 ++ ms)%list /\
  firsts (map el_name new) (map el_name ms) /\
  (forall m, In m ms -> merges (filter (same_name (el_name m)) new) m).
Proof.
  destruct (merge_invariant els0 new) as (ms & used & E & H1 & _ & H2). exists ms. unfold merge_elems. rewrite E. auto.
Qed.

(* ---------- complex types ---------- *)
Lemma foldo_app {A B} (f : A -> B -> option A) : forall l m a,
  foldo f a (l ++ m)%list = match foldo f a l with Some a' => foldo f a' m | None => None end.
Proof. induction l as [|x l IH]; intros m a; cbn [foldo app]; auto. destruct (f a x); auto. Qed.
Lemma foldo_inv {A B} (f : A -> B -> option A) (P : A -> Prop) l : (forall a b a', In b l -> P a -> f a b = Some a' -> P a') ->
  forall a a', P a -> foldo f a l = Some a' -> P a'.
Proof.
  induction l as [|x l IH]; intros H a a' Ha E; cbn [foldo] in E.
  - injection E as <-. auto.
  - destruct (f a x) as [b|] eqn:Ef; [|discriminate]. eapply IH; [intros; eapply H; eauto; right; auto| |exact E].
    eapply H; eauto. left; auto.
Qed.
Lemma mapo_forall2 {A B} (f : A -> option B) : forall l m, mapo f l = Some m <-> Forall2 (fun a b => f a = Some b) l m.
Proof.
  induction l as [|a l IH]; intros m; cbn [mapo].
  - split; [intros H; injection H as <-; constructor|]. intros H; inversion H; auto.
  - split.
    + destruct (f a) as [b|] eqn:E; [|discriminate]. destruct (mapo f l) as [m'|]; [|discriminate]. intros H. injection H as <-.
      constructor; auto. apply IH. auto.
    + intros H. inversion H as [|? b ? m' Hb Hm]; subst. rewrite Hb. apply IH in Hm. rewrite Hm. auto.
Qed.

Lemma derivation_fields annot ns t el t' : parse_derivation annot ns t el = Some t' ->
  exists decls es adecls ats wild ms, lists el "element" decls /\ Forall2 (fun x e => parse_element annot ns x = Some e) decls es /\
    lists el "attribute" adecls /\ Forall2 (fun x a => parse_attribute annot ns x = Some a) adecls ats /\
    ct_elems t' = (ct_elems t ++ wild ++ ms)%list /\ ct_attrs t' = (ct_attrs t ++ ats)%list /\
    (lists el "any" [] /\ wild = [] \/ exists a w rest, lists el "any" (a :: rest) /\ parse_any a = Some w /\ wild = [w]) /\
    firsts (map el_name es) (map el_name ms) /\
    (forall m, In m ms -> merges (filter (same_name (el_name m)) es) m) /\
    ct_base t' = parse_type (resolve (e_scope el) (attr el "" "base")) /\
    ct_name t' = ct_name t /\ ct_abstract t' = ct_abstract t /\ ct_mixed t' = ct_mixed t /\ ct_extends t' = ct_extends t /\ ct_anon t' = ct_anon t.
Proof.
  unfold parse_derivation. cbn [set_base ct_elems ct_attrs].
  match goal with |- match ?ww with _ => _ end = _ -> _ => destruct ww as [w|] eqn:W; [|discriminate] end.
  destruct (mapo (parse_element annot ns) (find_all "element" el)) as [es|] eqn:E1; [|discriminate].
  destruct (mapo (parse_attribute annot ns) (find_all "attribute" el)) as [ats|] eqn:E2; [|discriminate].
  intros H. injection H as <-. cbn [set_fields ct_elems ct_attrs ct_base ct_name ct_abstract ct_mixed ct_extends ct_anon set_base].
  destruct (merge_elems_spec w es) as (ms & Em & Hf & Hm). rewrite Em.
  exists (find_all "element" el), es, (find_all "attribute" el), ats.
  assert (exists wild, w = (ct_elems t ++ wild)%list /\
    (lists el "any" [] /\ wild = [] \/ exists a w rest, lists el "any" (a :: rest) /\ parse_any a = Some w /\ wild = [w])) as (wild & -> & Hw).
  { pose proof (find_all_lists "any" el) as L. destruct (find_all "any" el) as [|a rest].
    - injection W as <-. exists []. rewrite app_nil_r. auto.
    - destruct (parse_any a) as [x|] eqn:Ea; [|discriminate]. injection W as <-. exists [x]. split; auto. right. exists a, x, rest. auto. }
  exists wild, ms. repeat apply conj; auto using find_all_lists; try (apply mapo_forall2; auto). rewrite app_assoc. reflexivity.
Qed.

Lemma complex_type_spec annot tns root d t : parse_complex_type annot tns root = Some t -> derives root d ->
  exists decls es adecls ats wild ms, lists d "element" decls /\ Forall2 (fun x e => parse_element annot tns x = Some e) decls es /\
    lists d "attribute" adecls /\ Forall2 (fun x a => parse_attribute annot tns x = Some a) adecls ats /\
    ct_elems t = (wild ++ ms)%list /\ ct_attrs t = ats /\
    (lists d "any" [] /\ wild = [] \/ exists a w rest, lists d "any" (a :: rest) /\ parse_any a = Some w /\ wild = [w]) /\
    firsts (map el_name es) (map el_name ms) /\
    (forall m, In m ms -> merges (filter (same_name (el_name m)) es) m) /\
    ct_base t = parse_type (resolve (e_scope d) (attr d "" "base")) /\
    (ct_extends t = true <-> nlocal (e_name d) = "extension").
Proof.
  intros H (cc & (l1 & l2 & A1 & A2 & K) & Ncc & (m1 & m2 & B1 & B2 & K') & Nd). unfold schema_children in K, K'.
  unfold parse_complex_type in H.
  destruct (parse_bool (attr root "" "abstract")) as [ab|]; [|discriminate]. destruct (parse_bool (attr root "" "mixed")) as [mi|]; [|discriminate].
  unfold walk in H. change (filter in_schema (e_children root)) with (filter (fun e => String.eqb (nspace (e_name e)) schemaNS) (e_children root)) in H.
  rewrite <- K in H.
  match type of H with match foldo ?ff (?tt0, _) _ with _ => _ end = _ => set (f := ff) in H; set (t0 := tt0) in H end.
  assert (AN : forall l, annotations l -> forall t d t' d', foldo f (t, d) l = Some (t', d') -> t' = t).
  { clear. induction l as [|x l IH]; intros A t d t' d' E; cbn [foldo] in E; [injection E as <- _; auto|].
    unfold f in E at 1. unfold local_is in E. rewrite (A x (or_introl eq_refl)), String.eqb_refl in E. destruct (annot x); [|discriminate].
    cbn [option_map] in E. eapply IH; eauto. intros y Hy. apply A. right. auto. }
  rewrite foldo_app in H. destruct (foldo f (t0, "") l1) as [[t1 d1]|] eqn:E1; [|discriminate].
  apply AN in E1; auto. subst t1. cbn [foldo] in H. unfold f in H at 1. unfold local_is in H. rewrite Ncc in H. cbn [String.eqb Ascii.eqb Bool.eqb] in H.
  destruct (parse_complex_content annot tns t0 cc) as [t2|] eqn:E2; [|discriminate]. cbn [option_map] in H.
  destruct (foldo f (t2, d1) l2) as [[t3 d3]|] eqn:E3; [|discriminate]. apply AN in E3; auto. subst t3.
  assert (Hs : forall t x, ct_elems (set_doc t x) = ct_elems t /\ ct_attrs (set_doc t x) = ct_attrs t /\ ct_base (set_doc t x) = ct_base t /\ ct_extends (set_doc t x) = ct_extends t) by (intros; repeat split).
  injection H as <-. destruct (Hs t2 (ct_doc t2 ++ d3)) as (-> & -> & -> & ->). clear AN f.
  unfold parse_complex_content in E2. destruct (if String.eqb (attr cc "" "mixed") "" then _ else _) as [mixed|]; [|discriminate].
  unfold walk in E2. change (filter in_schema (e_children cc)) with (filter (fun e => String.eqb (nspace (e_name e)) schemaNS) (e_children cc)) in E2.
  rewrite <- K' in E2.
  match type of E2 with match foldo ?ff (?tt1, _) _ with _ => _ end = _ => set (f := ff) in E2; set (t1 := tt1) in E2 end.
  assert (AN : forall l, annotations l -> forall t d t' d', foldo f (t, d) l = Some (t', d') -> t' = t).
  { clear. induction l as [|x l IH]; intros A t d t' d' E; cbn [foldo] in E; [injection E as <- _; auto|].
    unfold f in E at 1. unfold local_is in E. rewrite (A x (or_introl eq_refl)) in E. cbn [String.eqb Ascii.eqb Bool.eqb] in E. destruct (annot x); [|discriminate].
    cbn [option_map] in E. eapply IH; eauto. intros y Hy. apply A. right. auto. }
  rewrite foldo_app in E2. destruct (foldo f (t1, "") m1) as [[u1 e1]|] eqn:F1; [|discriminate].
  apply AN in F1; auto. subst u1. cbn [foldo] in E2.
  assert (exists u, parse_derivation annot tns (if String.eqb (nlocal (e_name d)) "extension" then set_extends t1 true else t1) d = Some u /\
     f (t1, e1) d = Some (u, e1)) as (u & Hu & Fu).
  { destruct (f (t1, e1) d) as [p|] eqn:Ff; [clear E2|discriminate].
    unfold f, local_is in Ff. destruct Nd as [Nd|Nd]; rewrite Nd in Ff |- *; cbn [String.eqb Ascii.eqb Bool.eqb] in Ff |- *.
    - destruct (parse_derivation annot tns (set_extends t1 true) d) as [u|]; [|discriminate Ff]. exists u. rewrite <- Ff. auto.
    - destruct (parse_derivation annot tns t1 d) as [u|]; [|discriminate Ff]. exists u. rewrite <- Ff. auto. }
  rewrite Fu in E2. destruct (foldo f (u, e1) m2) as [[u2 e2]|] eqn:F2; [|discriminate]. apply AN in F2; auto. subst u2.
  injection E2 as <-. destruct (Hs u (ct_doc u ++ e2)) as (-> & -> & -> & ->).
  apply derivation_fields in Hu as (decls & es & adecls & ats & wild & ms & P1 & P2 & P3 & P4 & P5 & P6 & P7 & P8 & P9 & P10 & _ & _ & _ & P11 & _).
  exists decls, es, adecls, ats, wild, ms.
  assert (X : ct_elems (if String.eqb (nlocal (e_name d)) "extension" then set_extends t1 true else t1) = [] /\
              ct_attrs (if String.eqb (nlocal (e_name d)) "extension" then set_extends t1 true else t1) = []).
  { destruct (String.eqb (nlocal (e_name d)) "extension"); split; reflexivity. }
  destruct X as [X1 X2]. rewrite X1 in P5. rewrite X2 in P6.
  refine (conj P1 (conj P2 (conj P3 (conj P4 (conj P5 (conj P6 (conj P7 (conj P8 (conj P9 (conj P10 _)))))))))).
  rewrite P11. destruct (String.eqb (nlocal (e_name d)) "extension") eqn:X.
  - apply String.eqb_eq in X. split; intros _; [exact X|reflexivity].
  - apply String.eqb_neq in X. cbn [t1 t0 set_mixed ct_extends]. split; [discriminate|contradiction].
Qed.

(* ---------- names and types of elements and attributes ---------- *)
Lemma element_name annot ns el e : parse_element annot ns el = Some e ->
  (attr el "" "type" = "" -> el_type e = TB 0) /\
  (forall b, attr el "" "type" <> "" -> parse_builtin (resolve (e_scope el) (attr el "" "type")) = Some b -> el_type e = TB b) /\
  (attr el "" "type" <> "" -> parse_builtin (resolve (e_scope el) (attr el "" "type")) = None ->
     el_type e = TLink (resolve (e_scope el) (attr el "" "type")) /\
     el_name e = mkName (nspace (resolve (e_scope el) (attr el "" "type"))) (nlocal (resolve_default (e_scope el) (attr el "" "name") ns))) /\
  (attr el "" "type" = "" \/ parse_builtin (resolve (e_scope el) (attr el "" "type")) <> None ->
     el_name e = resolve_default (e_scope el) (attr el "" "name") ns).
Proof.
  unfold parse_element. destruct (parse_bool (attr el "" "abstract")) as [ab|] eqn:EA; [|discriminate].
  destruct (parse_bool (attr el "" "nillable")) as [ni|] eqn:EN; [|discriminate].
  destruct (parse_plural el) as [pl|] eqn:EP; [|discriminate]. destruct (parse_optional el) as [op|] eqn:EO; [|discriminate].
  destruct (docs annot el); [|discriminate]. intros H. injection H as <-. cbn [el_type el_name]. unfold parse_type.
  destruct (String.eqb (attr el "" "type") "") eqn:E.
  - apply String.eqb_eq in E. repeat split; auto; intros; contradiction.
  - apply String.eqb_neq in E. destruct (parse_builtin _) as [b|]; repeat split; auto; intros; try contradiction; try congruence.
    destruct H; congruence.
Qed.
Lemma attribute_name annot ns el a : parse_attribute annot ns el = Some a ->
  at_name a = mkName ns (nlocal (resolve (e_scope el) (attr el "" "name"))) \/ at_name a = mkName ns (attr el "" "name").
Proof. unfold parse_attribute. destruct (docs annot el); [|discriminate]. intros H. injection H as <-. cbn [at_name]. destruct (s_in _ _); auto. Qed.

Lemma attribute_fields annot ns el a : parse_attribute annot ns el = Some a ->
  (at_optional a = true <-> attr el "" "use" <> "required") /\ at_default a = attr el "" "default" /\
  (forall b, parse_builtin (resolve (e_scope el) (attr el "" "type")) = Some b -> at_type a = TB b) /\
  (parse_builtin (resolve (e_scope el) (attr el "" "type")) = None -> at_type a = TLink (resolve (e_scope el) (attr el "" "type"))) /\
  (s_in colon (attr el "" "name") = true -> at_name a = mkName ns (nlocal (resolve (e_scope el) (attr el "" "name")))) /\
  (s_in colon (attr el "" "name") = false -> at_name a = mkName ns (attr el "" "name")) /\
  at_attr a = e_attrs el /\ at_scope a = e_scope el.
Proof.
  unfold parse_attribute. destruct (docs annot el); [|discriminate]. intros H. injection H as <-. cbn [at_optional at_default at_type at_name at_attr at_scope].
  split; [|split; [reflexivity|split; [|split; [|split; [|split; [|split; reflexivity]]]]]].
  - rewrite negb_true_iff. apply String.eqb_neq.
  - unfold parse_type. intros b ->. reflexivity.
  - unfold parse_type. intros ->. reflexivity.
  - intros ->. reflexivity.
  - intros ->. reflexivity.
Qed.
Lemma wildcard_fields el e : parse_any el = Some e ->
  el_wild e = true /\ plural (attr el "" "minOccurs") (attr el "" "maxOccurs") (el_plural e) /\ el_optional e = false /\ el_name e = mkName "" "" /\
  (attr el "" "type" = "" -> el_type e = TB 0).
Proof.
  unfold parse_any. destruct (parse_plural el) as [p|] eqn:E; [|discriminate]. intros H. injection H as <-. cbn [el_wild el_plural el_optional el_name el_type].
  split; [auto|]. split; [apply parse_plural_spec; auto|]. split; [auto|]. split; [auto|]. intros ->. reflexivity.
Qed.

Definition scope_ab : scope := [mkName "urn:b" "b"].
Lemma element_namespace_counter : exists el e, resolve_default (e_scope el) (attr el "" "name") "urn:a" = mkName "urn:a" "item" /\
  parse_element no_doc "urn:a" el = Some e /\ el_name e = mkName "urn:b" "item".
Proof.
  exists (Elem (xs "element") [mkAttr (mkName "" "name") "item"; mkAttr (mkName "" "type") "b:Thing"] scope_ab "" []).
  eexists. split; [reflexivity|]. split; reflexivity.
Qed.
Lemma attribute_namespace_counter : exists el a, resolve (e_scope el) (attr el "" "name") = mkName "urn:b" "id" /\
  parse_attribute no_doc "urn:a" el = Some a /\ at_name a = mkName "urn:a" "id".
Proof.
  exists (Elem (xs "attribute") [mkAttr (mkName "" "name") "b:id"; mkAttr (mkName "" "type") "b:Thing"] scope_ab "" []).
  eexists. split; [reflexivity|]. split; reflexivity.
Qed.

(* ---------- simple types ---------- *)
Section Simple.
  Variable annot : elem -> option string.
  Variables (F T : Type) (f0 : F) (t0 : T).
  Variables (pf : string -> option F) (pd pr : string -> option T) (comp : string -> bool) (msg : string -> string).
  Notation step := (restr_step annot F T f0 t0 pf pd pr comp msg).

  Definition last_or (l : list elem) (f : string -> Prop) (d : Prop) : Prop := match rev l with [] => d | x :: _ => f (value x) end.
  (* the pattern field after a list of pattern values *)
  Fixpoint patterns (cur : option string) (vs : list string) : option string :=
    match vs with
    | [] => cur
    | v :: vs' => let p := match cur with Some q => q ++ "|" ++ v | None => v end in patterns (if comp p then Some p else None) vs'
    end.
  Lemma patterns_snoc vs : forall v cur, patterns cur (vs ++ [v])%list =
    let p := match patterns cur vs with Some q => q ++ "|" ++ v | None => v end in if comp p then Some p else None.
  Proof. induction vs as [|x vs IH]; intros v cur; cbn [patterns app]; auto. Qed.

  Definition fac (l : list elem) (local : string) : list elem := filter (fun e => String.eqb (nlocal (e_name e)) local) l.
  Lemma fac_snoc l x local : fac (l ++ [x])%list local = (fac l local ++ (if String.eqb (nlocal (e_name x)) local then [x] else []))%list.
  Proof. unfold fac. rewrite filter_app. cbn [filter]. destruct (String.eqb _ _); auto. Qed.
  Lemma last_int_snoc l x z : last_int (l ++ [x])%list z <-> occurs (value x) z.
  Proof. unfold last_int. rewrite rev_app_distr. cbn [rev app]. tauto. Qed.

  Lemma restr_inv base : forall l r doc, foldo (step base) (empty_restr F T f0 t0, "") l = Some (r, doc) ->
    rs_enum F T r = map value (fac l "enumeration") /\
    last_int (fac l "length") (rs_len F T r) /\ last_int (fac l "minLength") (rs_minlen F T r) /\
    last_int (fac l "maxLength") (rs_maxlen F T r) /\ last_int (fac l "totalDigits") (rs_total F T r) /\
    last_int (fac l "fractionDigits") (rs_prec F T r) /\ (0 <= rs_prec F T r)%Z /\
    rs_pattern F T r = patterns None (map value (fac l "pattern")).
  Proof.
    induction l as [|x l IH] using rev_ind; intros r doc H.
    - injection H as <- <-. cbn. repeat split; auto; lia.
    - rewrite foldo_app in H. destruct (foldo (step base) _ l) as [[r1 d1]|]; [|discriminate].
      destruct (IH r1 d1 eq_refl) as (H1 & H2 & H3 & H4 & H5 & H6 & H7 & H8). cbn [foldo] in H.
      destruct (step base (r1, d1) x) as [[r2 d2]|] eqn:E; [|discriminate]. injection H as -> ->.
      rewrite !fac_snoc, !map_app. destruct r1 as [prec enum mn mx len minl maxl mnd mxd pat tot rd].
      cbn [rs_enum rs_len rs_minlen rs_maxlen rs_total rs_prec rs_pattern] in H1, H2, H3, H4, H5, H6, H7, H8.
      unfold restr_step, local_is in E. fold (value x) in E.
      destruct (String.eqb (nlocal (e_name x)) "enumeration") eqn:C1.
      { apply String.eqb_eq in C1. rewrite C1. cbn [String.eqb Ascii.eqb Bool.eqb map]. rewrite !app_nil_r. injection E as <- <-.
        cbn [rs_enum rs_len rs_minlen rs_maxlen rs_total rs_prec rs_pattern]. rewrite H1. auto 10. }
      destruct (String.eqb (nlocal (e_name x)) "minExclusive" || String.eqb (nlocal (e_name x)) "minInclusive")%bool eqn:C2.
      { rewrite orb_true_iff, !String.eqb_eq in C2. destruct (parse_min_max _ _ _ _ _ _ _ x base) as [df|]; [|discriminate]. injection E as <- <-.
        cbn [rs_enum rs_len rs_minlen rs_maxlen rs_total rs_prec rs_pattern].
        destruct C2 as [C2|C2]; rewrite C2; cbn [String.eqb Ascii.eqb Bool.eqb map]; rewrite !app_nil_r; auto 10. }
      destruct (String.eqb (nlocal (e_name x)) "maxExclusive" || String.eqb (nlocal (e_name x)) "maxInclusive")%bool eqn:C3.
      { rewrite orb_true_iff, !String.eqb_eq in C3. destruct (parse_min_max _ _ _ _ _ _ _ x base) as [df|]; [|discriminate]. injection E as <- <-.
        cbn [rs_enum rs_len rs_minlen rs_maxlen rs_total rs_prec rs_pattern].
        destruct C3 as [C3|C3]; rewrite C3; cbn [String.eqb Ascii.eqb Bool.eqb map]; rewrite !app_nil_r; auto 10. }
      destruct (String.eqb (nlocal (e_name x)) "length") eqn:C4.
      { apply String.eqb_eq in C4. rewrite C4. cbn [String.eqb Ascii.eqb Bool.eqb map]. rewrite !app_nil_r.
        destruct (parse_int (value x)) as [n|] eqn:P; [|discriminate]. injection E as <- <-. apply parse_int_spec in P.
        cbn [rs_enum rs_len rs_minlen rs_maxlen rs_total rs_prec rs_pattern]. rewrite last_int_snoc. auto 10. }
      destruct (String.eqb (nlocal (e_name x)) "maxLength") eqn:C5.
      { apply String.eqb_eq in C5. rewrite C5. cbn [String.eqb Ascii.eqb Bool.eqb map]. rewrite !app_nil_r.
        destruct (parse_int (value x)) as [n|] eqn:P; [|discriminate]. injection E as <- <-. apply parse_int_spec in P.
        cbn [rs_enum rs_len rs_minlen rs_maxlen rs_total rs_prec rs_pattern]. rewrite last_int_snoc. auto 10. }
      destruct (String.eqb (nlocal (e_name x)) "minLength") eqn:C6.
      { apply String.eqb_eq in C6. rewrite C6. cbn [String.eqb Ascii.eqb Bool.eqb map]. rewrite !app_nil_r.
        destruct (parse_int (value x)) as [n|] eqn:P; [|discriminate]. injection E as <- <-. apply parse_int_spec in P.
        cbn [rs_enum rs_len rs_minlen rs_maxlen rs_total rs_prec rs_pattern]. rewrite last_int_snoc. auto 10. }
      destruct (String.eqb (nlocal (e_name x)) "pattern") eqn:C7.
      { apply String.eqb_eq in C7. rewrite C7. cbn [String.eqb Ascii.eqb Bool.eqb map]. rewrite !app_nil_r, patterns_snoc, <- H8. cbv zeta.
        destruct (comp _); injection E as <- <-;
        cbn [rs_enum rs_len rs_minlen rs_maxlen rs_total rs_prec rs_pattern]; auto 10. }
      destruct (String.eqb (nlocal (e_name x)) "fractionDigits") eqn:C8.
      { apply String.eqb_eq in C8. rewrite C8. cbn [String.eqb Ascii.eqb Bool.eqb map]. rewrite !app_nil_r.
        destruct (parse_int (value x)) as [n|] eqn:P; [|discriminate]. destruct (n <? 0)%Z eqn:N; [discriminate|]. apply Z.ltb_ge in N.
        injection E as <- <-. apply parse_int_spec in P.
        cbn [rs_enum rs_len rs_minlen rs_maxlen rs_total rs_prec rs_pattern]. rewrite last_int_snoc. auto 10. }
      destruct (String.eqb (nlocal (e_name x)) "annotation") eqn:C9.
      { apply String.eqb_eq in C9. rewrite C9. cbn [String.eqb Ascii.eqb Bool.eqb map]. rewrite !app_nil_r.
        destruct (annot x); [|discriminate]. injection E as <- <-.
        cbn [rs_enum rs_len rs_minlen rs_maxlen rs_total rs_prec rs_pattern]. auto 10. }
      destruct (String.eqb (nlocal (e_name x)) "totalDigits") eqn:C10.
      { apply String.eqb_eq in C10. rewrite ?C10. cbn [String.eqb Ascii.eqb Bool.eqb map]. rewrite !app_nil_r.
        destruct (parse_int (value x)) as [n|] eqn:P; [|discriminate]. injection E as <- <-. apply parse_int_spec in P.
        cbn [rs_enum rs_len rs_minlen rs_maxlen rs_total rs_prec rs_pattern]. rewrite last_int_snoc. auto 10. }
      injection E as <- <-. cbn [map]. rewrite !app_nil_r.
      cbn [rs_enum rs_len rs_minlen rs_maxlen rs_total rs_prec rs_pattern]. auto 10.
  Qed.

  Lemma alternation_snoc vs v : vs <> [] -> alternation (vs ++ [v])%list = alternation vs ++ "|" ++ v.
  Proof.
    induction vs as [|x vs IH]; intros H; [contradiction|]. destruct vs as [|y vs]; [reflexivity|].
    change (alternation ((x :: y :: vs) ++ [v])%list) with (x ++ "|" ++ alternation ((y :: vs) ++ [v])%list).
    rewrite IH by discriminate. change (alternation (x :: y :: vs)) with (x ++ "|" ++ alternation (y :: vs)).
    rewrite <- !sapp_assoc. reflexivity.
  Qed.
  Lemma patterns_all vs : (forall p q, vs = (p ++ q)%list -> p <> [] -> comp (alternation p) = true) ->
    patterns None vs = match vs with [] => None | _ => Some (alternation vs) end.
  Proof.
    induction vs as [|v vs IH] using rev_ind; intros H; [reflexivity|].
    rewrite patterns_snoc, IH by (intros p q E; apply (H p (q ++ [v])%list); rewrite app_assoc, <- E; reflexivity). cbv zeta.
    assert (C : comp (alternation (vs ++ [v])%list) = true) by (apply (H _ []); [rewrite app_nil_r; reflexivity|destruct vs; discriminate]).
    destruct vs as [|y vs].
    - cbn [app alternation] in C |- *. rewrite C. reflexivity.
    - rewrite alternation_snoc in C |- * by discriminate. rewrite C. reflexivity.
  Qed.
  (* a pattern that does not compile forgets everything before it *)
  Lemma patterns_dropped vs v ws : comp (match patterns None vs with Some q => q ++ "|" ++ v | None => v end) = false ->
    patterns None (vs ++ v :: ws)%list = patterns None ws.
  Proof.
    intros H. change (v :: ws) with ([v] ++ ws)%list. rewrite app_assoc.
    assert (G : forall l c, patterns c (l ++ ws)%list = patterns (patterns c l) ws).
    { induction l as [|x l IH]; intros c; cbn [app patterns]; auto. }
    rewrite G, patterns_snoc. cbv zeta. rewrite H. reflexivity.
  Qed.

  Lemma restriction_spec root base r : parse_restriction annot F T f0 t0 pf pd pr comp msg root base = Some r ->
    rs_enum F T r = map value (facets root "enumeration") /\
    last_int (facets root "length") (rs_len F T r) /\ last_int (facets root "minLength") (rs_minlen F T r) /\
    last_int (facets root "maxLength") (rs_maxlen F T r) /\ last_int (facets root "totalDigits") (rs_total F T r) /\
    last_int (facets root "fractionDigits") (rs_prec F T r) /\ (0 <= rs_prec F T r)%Z.
  Proof.
    unfold parse_restriction, walk. destruct (foldo _ _ _) as [[r1 d]|] eqn:E; [|discriminate]. intros H. injection H as <-.
    apply restr_inv in E as (H1 & H2 & H3 & H4 & H5 & H6 & H7 & _). exact (conj H1 (conj H2 (conj H3 (conj H4 (conj H5 (conj H6 H7)))))).
  Qed.
  Lemma pattern_spec root base r : parse_restriction annot F T f0 t0 pf pd pr comp msg root base = Some r ->
    (forall p q, map value (facets root "pattern") = (p ++ q)%list -> p <> [] -> comp (alternation p) = true) ->
    rs_pattern F T r = match facets root "pattern" with [] => None | _ => Some (alternation (map value (facets root "pattern"))) end.
  Proof.
    unfold parse_restriction, walk. destruct (foldo _ _ _) as [[r1 d]|] eqn:E; [|discriminate]. intros H C. injection H as <-.
    apply restr_inv in E as (_ & _ & _ & _ & _ & _ & _ & H8). cbn [set_rdoc rs_pattern fst]. rewrite H8.
    change (fac (filter in_schema (e_children root)) "pattern") with (facets root "pattern"). rewrite patterns_all; auto.
    destruct (facets root "pattern"); reflexivity.
  Qed.

  (* bounds *)
  Lemma min_max_date el : parse_min_max F T f0 t0 pf pd pr el (TB 16) = option_map (fun d => (d, f0)) (pd (value el)).
  Proof. reflexivity. Qed.
  Lemma min_max_datetime el : parse_min_max F T f0 t0 pf pd pr el (TB 17) = option_map (fun d => (d, f0)) (pr (value el)).
  Proof. reflexivity. Qed.
  Lemma min_max_linked el n d : pd (value el) = None -> pr (value el) = Some d ->
    parse_min_max F T f0 t0 pf pd pr el (TLink n) = Some (t0, f0).
  Proof. unfold parse_min_max. fold (value el). intros -> ->. reflexivity. Qed.

  (* the last bound facet decides *)
  Definition bound (base : ty) (l : list elem) : option (T * F) :=
    match rev l with [] => Some (t0, f0) | x :: _ => parse_min_max F T f0 t0 pf pd pr x base end.
  Lemma bound_snoc base l x : bound base (l ++ [x])%list = parse_min_max F T f0 t0 pf pd pr x base.
  Proof. unfold bound. rewrite rev_app_distr. reflexivity. Qed.
  Lemma restr_bounds base : forall l r doc, foldo (step base) (empty_restr F T f0 t0, "") l = Some (r, doc) ->
    bound base (filter is_min l) = Some (rs_mindate F T r, rs_min F T r) /\
    bound base (filter is_max l) = Some (rs_maxdate F T r, rs_max F T r).
  Proof.
    induction l as [|x l IH] using rev_ind; intros r doc H.
    - injection H as <- <-. auto.
    - rewrite foldo_app in H. destruct (foldo (step base) _ l) as [[r1 d1]|]; [|discriminate].
      destruct (IH r1 d1 eq_refl) as (H1 & H2). cbn [foldo] in H.
      destruct (step base (r1, d1) x) as [[r2 d2]|] eqn:E; [|discriminate]. injection H as -> ->.
      rewrite !filter_app. cbn [filter]. destruct r1 as [prec enum mn mx len minl maxl mnd mxd pat tot rd].
      cbn [rs_mindate rs_min rs_maxdate rs_max] in H1, H2.
      unfold restr_step, local_is in E. fold (is_min x) in E. fold (is_max x) in E.
      destruct (String.eqb (nlocal (e_name x)) "enumeration") eqn:C1.
      { assert (is_min x = false /\ is_max x = false) as [-> ->] by (apply String.eqb_eq in C1; unfold is_min, is_max; rewrite C1; auto).
        rewrite !app_nil_r. injection E as <- <-. auto. }
      destruct (is_min x) eqn:C2.
      { assert (is_max x = false) as ->.
        { unfold is_min in C2. rewrite orb_true_iff, !String.eqb_eq in C2. unfold is_max. destruct C2 as [-> | ->]; auto. }
        rewrite bound_snoc, app_nil_r. destruct (parse_min_max _ _ _ _ _ _ _ x base) as [[d f]|]; [|discriminate]. injection E as <- <-. auto. }
      destruct (is_max x) eqn:C3.
      { rewrite bound_snoc, app_nil_r. destruct (parse_min_max _ _ _ _ _ _ _ x base) as [[d f]|]; [|discriminate]. injection E as <- <-. auto. }
      rewrite !app_nil_r.
      destruct (String.eqb (nlocal (e_name x)) "length"); [destruct (parse_int _); [|discriminate]; injection E as <- <-; auto|].
      destruct (String.eqb (nlocal (e_name x)) "maxLength"); [destruct (parse_int _); [|discriminate]; injection E as <- <-; auto|].
      destruct (String.eqb (nlocal (e_name x)) "minLength"); [destruct (parse_int _); [|discriminate]; injection E as <- <-; auto|].
      destruct (String.eqb (nlocal (e_name x)) "pattern"); [destruct (comp _); injection E as <- <-; auto|].
      destruct (String.eqb (nlocal (e_name x)) "fractionDigits"); [destruct (parse_int _) as [n|]; [|discriminate]; destruct (n <? 0)%Z; [discriminate|]; injection E as <- <-; auto|].
      destruct (String.eqb (nlocal (e_name x)) "annotation"); [destruct (annot x); [|discriminate]; injection E as <- <-; auto|].
      destruct (String.eqb (nlocal (e_name x)) "totalDigits"); [destruct (parse_int _); [|discriminate]; injection E as <- <-; auto|].
      injection E as <- <-. auto.
  Qed.

  Lemma bounds_spec root base r : parse_restriction annot F T f0 t0 pf pd pr comp msg root base = Some r ->
    let kids := filter (fun e => String.eqb (nspace (e_name e)) schemaNS) (e_children root) in
    let ok := fun f d x =>
      match base with
      | TB b => if (b =? 16)%Z then pd (value f) = Some d /\ x = f0 else if (b =? 17)%Z then pr (value f) = Some d /\ x = f0
                else d = t0 /\ (same_text (value f) "" /\ x = f0 \/ ~ same_text (value f) "" /\ pf (trim_space (value f)) = Some x)
      | _ => True
      end in
    match rev (filter is_min kids) with [] => rs_mindate F T r = t0 /\ rs_min F T r = f0 | f :: _ => ok f (rs_mindate F T r) (rs_min F T r) end /\
    match rev (filter is_max kids) with [] => rs_maxdate F T r = t0 /\ rs_max F T r = f0 | f :: _ => ok f (rs_maxdate F T r) (rs_max F T r) end.
  Proof.
    cbv zeta. unfold parse_restriction, walk. destruct (foldo _ _ _) as [[r1 d]|] eqn:E; [|discriminate]. intros H. injection H as <-.
    apply restr_bounds in E. cbn [set_rdoc rs_mindate rs_min rs_maxdate rs_max fst].
    assert (G : forall f d x, parse_min_max F T f0 t0 pf pd pr f base = Some (d, x) ->
      match base with
      | TB b => if (b =? 16)%Z then pd (value f) = Some d /\ x = f0 else if (b =? 17)%Z then pr (value f) = Some d /\ x = f0
                else d = t0 /\ (same_text (value f) "" /\ x = f0 \/ ~ same_text (value f) "" /\ pf (trim_space (value f)) = Some x)
      | _ => True
      end).
    { intros f d' x. unfold parse_min_max. fold (value f). destruct base as [|b| |]; auto.
      destruct (b =? 16)%Z; [destruct (pd (value f)); [|discriminate]; intros K; injection K as <- <-; auto|].
      destruct (b =? 17)%Z; [destruct (pr (value f)); [|discriminate]; intros K; injection K as <- <-; auto|].
      unfold parse_decimal. cbv zeta.
      assert (Q : same_text (value f) "" <-> trim_space (value f) = "") by (rewrite <- trim_same_text; change (trim_space "") with ""; tauto).
      destruct (String.eqb (trim_space (value f)) "") eqn:Z.
      - apply String.eqb_eq in Z. intros K. injection K as <- <-. tauto.
      - apply String.eqb_neq in Z. destruct (pf (trim_space (value f))) as [y|]; [|discriminate]. intros K. injection K as <- <-. tauto. }
    destruct E as [E1 E2]. unfold bound in E1, E2. split.
    - change (filter in_schema (e_children root)) with (filter (fun e => String.eqb (nspace (e_name e)) schemaNS) (e_children root)) in E1.
      destruct (rev (filter is_min _)); [injection E1 as -> ->; auto|apply G; auto].
    - change (filter in_schema (e_children root)) with (filter (fun e => String.eqb (nspace (e_name e)) schemaNS) (e_children root)) in E2.
      destruct (rev (filter is_max _)); [injection E2 as -> ->; auto|apply G; auto].
  Qed.
End Simple.

Lemma prohibited_kept : exists el a, attr el "" "use" = "prohibited" /\ parse_attribute no_doc "urn:a" el = Some a /\ at_optional a = true.
Proof. exists (Elem (xs "attribute") [mkAttr (mkName "" "name") "id"; mkAttr (mkName "" "use") "prohibited"] [] "" []). eexists. split; [reflexivity|]. split; reflexivity. Qed.
