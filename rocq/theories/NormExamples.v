(* Concrete schemas for Normalize. *)
From Verif Require Import Base ScopeModel ScopeSpec ScopeProofs TreeModel TreeSpec TreeProofs BuiltinModel XsdModel NormModel NormMem NormOps NormPath NormSpec NormPass NormDefaults NormExpand NormBuild.
Local Open Scope string_scope.

Lemma read_rep : forall e fuel h x, rep h e x -> height e <= fuel -> read_node fuel h x = Some e.
Proof.
  induction e as [n a s c ks IH] using elem_ind'. intros [|fuel] h x R H; rewrite height_eq in H; cbn [e_children] in H; [lia|].
  apply rep_eq in R. destruct R as (R1 & R2 & R3 & RA & RK & RB). cbn [e_name e_scope e_content e_attrs e_children] in *.
  cbn [read_node]. rewrite (attrs_ok_eq _ _ _ RA), R1, R2, R3.
  assert (E : mapo (read_node fuel h) (kids h x) = Some ks); [|rewrite E; reflexivity].
  assert (Hk : forall k, In k ks -> height k <= fuel). { intros k Hk. assert (height k <= heights ks); [|lia]. clear -Hk. induction ks as [|z ks IH]; [destruct Hk|]. cbn [heights]. destruct Hk as [-> |Hk]; [lia|]. specialize (IH Hk). lia. }
  clear -RB IH Hk. induction RB as [|k y ks ys R B IHB]; cbn [mapo]; auto. rewrite (IH k (or_introl eq_refl) fuel h y R (Hk k (or_introl eq_refl))), IHB; auto.
  - intros e He. apply IH. right. auto.
  - intros k' Hk'. apply Hk. right. auto.
Qed.
Lemma stands_read h roots es fuel : stands h roots es -> Forall (fun e => height e <= fuel) es -> map (read_ptr fuel h) roots = map Some es.
Proof.
  intros (xs & L & B & _) H. revert es B H. induction L as [|p x ps ys Lp L IH]; intros es B H; inversion B as [|e ? es' ? R B']; subst; cbn [map]; auto.
  inversion H; subst. unfold read_ptr at 1. rewrite Lp, (read_rep _ fuel _ _ R) by auto. rewrite (IH es'); auto.
Qed.

(* how Go 1.x grows small slices: capacities are powers of two *)
Fixpoint p2 (f n k : nat) := match f with 0 => k | S f => if Nat.leb n k then k else p2 f n (2*k) end.
Definition pow2 (n : nat) := match n with 0 => 0 | _ => p2 10 n 1 end.
Definition dbl (old need : nat) := if Nat.leb need (2 * old) then 2 * old else need.
Definition xsd_scope : scope := [mkName schemaNS "xs"; mkName "urn:a" "a"].
Definition xel (n : string) (ats : list (string * string)) (ks : list elem) : elem :=
  Elem (xs n) (map (fun p => mkAttr (mkName "" (fst p)) (snd p)) ats) xsd_scope "" ks.
Definition schema_el (ks : list elem) : elem := xel "schema" [("targetNamespace", "urn:a")] ks.
(* parse, run one pass on each root, read the trees *)
Definition passed (f : ptr -> heap -> res heap) (es : list elem) : res (list (option elem)) :=
  let (h, ps) := build_roots pow2 pow2 es [] in
  match on_each f ps h with Done h => Done (map (read_ptr 20 h) ps) | Fails => Fails | Runs => Runs end.
Definition normalized (es : list elem) : res (list (option elem)) :=
  let (h, ps) := build_roots pow2 pow2 es [] in
  match normalize dbl dbl 20 ps h with Done h => Done (map (read_ptr 20 h) ps) | Fails => Fails | Runs => Runs end.

(* default types *)
Definition defaults_schema : elem :=
  schema_el [xel "element" [("name", "p")] []; xel "complexType" [("name", "t")] [xel "sequence" [] [xel "element" [("name", "q"); ("type", "xs:int")] []]; xel "attribute" [("name", "r")] []]].
Definition choice_schema : elem :=
  schema_el [xel "complexType" [("name", "t")]
    [xel "choice" [] [xel "element" [("name", "q")] []; xel "sequence" [("minOccurs", "2")] [xel "element" [("name", "r"); ("minOccurs", "1")] []; xel "choice" [] [xel "any" [] []]]]]].
Definition shorthand_schema : elem :=
  schema_el [xel "complexType" [("name", "t")] [xel "annotation" [] []; xel "sequence" [] [xel "element" [("name", "q")] [xel "complexType" [] [xel "attribute" [("name", "r")] []]]]; xel "attribute" [("name", "u")] []];
             xel "complexType" [("name", "v")] [xel "complexContent" [] [xel "extension" [("base", "a:t")] []]]].
(* invalid, but accepted: a complexType directly inside another *)
Definition nested_schema : elem := schema_el [xel "complexType" [("name", "t")] [xel "complexType" [("name", "u")] [xel "sequence" [] []]]].

Lemma typed_resolves : forall d any, no_shadowing (e_scope d) -> prefixes_ok (e_scope d) -> (exists p, In (mkName schemaNS p) (e_scope d)) ->
  any = "anyType" \/ any = "anySimpleType" ->
  resolve_ns (e_scope d) (attr_get (attr_set (e_attrs d) "" "type" (prefix (e_scope d) (xs any))) "" "type") = (xs any, true).
Proof.
  intros d any N P H A. rewrite attr_get_set. destruct A as [-> | ->]; apply resolve_prefix; auto; try discriminate; reflexivity.
Qed.
Lemma default_types_roots agrow fuel roots es h : stands h roots es -> Forall (fun e => height e <= fuel) es ->
  exists h' es', on_each (default_types agrow fuel) roots h = Done h' /\ stands h' roots es' /\ Forall2 (only_attrs defaulted) es es'.
Proof. intros H1 H2. destruct (on_each_stands _ _ _ roots es h (defaults_pass agrow fuel) H1 H2) as (h' & es' & A & B & C). eauto. Qed.
Lemma optional_roots agrow fuel roots es h : stands h roots es -> Forall (fun e => height e <= fuel) es ->
  exists h' es', on_each (set_choices_optional agrow fuel) roots h = Done h' /\ stands h' roots es' /\ Forall2 (fun e => only_attrs (made_optional e) e) es es'.
Proof. intros H1 H2. destruct (on_each_stands _ _ _ roots es h (optional_pass agrow fuel) H1 H2) as (h' & es' & A & B & C). eauto. Qed.
Lemma expand_roots grow fuel roots es h : stands h roots es -> Forall (fun e => height e <= fuel /\ e_name e = xs "schema") es ->
  exists h', on_each (expand_shorthand grow fuel) roots h = Done h' /\ stands h' roots (map (below expand_el) es).
Proof.
  intros H1 H2. destruct (on_each_stands _ _ _ roots es h (expand_pass grow fuel) H1) as (h' & es' & A & B & C).
  - eapply Forall_impl; [|exact H2]. cbv beta. intros e (E1 & E2). split; auto. rewrite E2. discriminate.
  - exists h'. split; [auto|]. assert (E : es' = map (below expand_el) es); [|rewrite <- E; auto]. clear -B. induction B; cbn [map]; auto. subst. reflexivity.
Qed.
Lemma expanded_types e q d : no_nested_ct e -> descendant (below expand_el e) q d -> e_name d = xs "complexType" -> exists k, In k (e_children d) /\ (e_name k = xs "simpleContent" \/ e_name k = xs "complexContent").
Proof.
  intros H (Hq & Hd) Hn. destruct q as [|i q]; [congruence|]. cbn [sub] in Hd. unfold below, with_children in Hd. cbn [e_children] in Hd.
  destruct (nth_error (map expand_el (e_children e)) i) as [k|] eqn:E; [|discriminate]. apply nth_error_In in E. apply in_map_iff in E. destruct E as (k0 & <- & Hk).
  pose proof (expand_all_done k0 (no_nested_kid e k0 H Hk) q d Hd) as Hs. unfold shorthand in Hs. apply andb_false_iff in Hs. destruct Hs as [Hs|Hs].
  - exfalso. assert (xname_eqb (e_name d) (xs "complexType") = true) by (apply xname_eqb_eq; auto). congruence.
  - apply negb_false_iff in Hs. apply existsb_exists in Hs. destruct Hs as (c & Hc & Hx). exists c. split; auto. unfold content_el in Hx. apply orb_true_iff in Hx. destruct Hx as [Hx|Hx]; apply xname_eqb_eq in Hx; auto.
Qed.
Lemma expanded_twice e : no_nested_ct e -> below expand_el (below expand_el e) = below expand_el e.
Proof.
  intros H. destruct e as [n a s c ks]. unfold below, with_children. cbn [e_name e_attrs e_scope e_content e_children]. f_equal. rewrite map_map. apply map_ext_in.
  intros k Hk. apply expand_twice. eapply no_nested_kid; eauto.
Qed.
Lemma foreign_type : exists e d, descendant e [0] d /\ e_name d = xs "element" /\ attr d "urn:a" "type" = "zip" /\
  passed (default_types dbl 20) [e] = Done [Some e] /\ forall a, In a (e_attrs d) -> aname a <> mkName "" "type".
Proof.
  exists (schema_el [Elem (xs "element") [mkAttr (mkName "urn:a" "type") "zip"] xsd_scope "" []]), (Elem (xs "element") [mkAttr (mkName "urn:a" "type") "zip"] xsd_scope "" []).
  split; [split; [discriminate|reflexivity]|]. do 3 (split; [vm_compute; reflexivity|]). intros x [<- |[]]. discriminate.
Qed.
Lemma nested_left : exists e e' d, passed (expand_shorthand dbl 20) [e] = Done [Some e'] /\ descendant e' [0; 0; 0; 0] d /\
  e_name d = xs "complexType" /\ shorthand d = true.
Proof.
  exists nested_schema, (below expand_el nested_schema), (xel "complexType" [("name", "u")] [xel "sequence" [] []]).
  split; [vm_compute; reflexivity|]. split; [split; [discriminate|reflexivity]|]. split; reflexivity.
Qed.
