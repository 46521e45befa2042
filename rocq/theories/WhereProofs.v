(* Where errors are. *)
From Verif Require Import Base ScopeModel TreeModel EqualModel BuiltinModel CodecModel XsdModel TypesModel TreeSpec FilesModel FilesSpec FilesProofs WhereModel WhereSpec.
Local Open Scope string_scope.

Definition forget {A} (x : tried A) : option A := match x with Good a => Some a | Bad _ => None end.
Lemma forget_or_stop {A} (o : option A) : forget (or_stop o) = o.
Proof. destruct o; reflexivity. Qed.
Lemma forget_mapt {A B} (f : A -> tried B) g l : (forall a, forget (f a) = g a) -> forget (mapt f l) = mapo g l.
Proof. intros H. induction l as [|a l IH]; [reflexivity|]. cbn [mapt mapo]. rewrite <- (H a), <- IH. destruct (f a) as [b|]; [|reflexivity]. cbn [next forget]. destruct (mapt f l); reflexivity. Qed.
Lemma forget_foldt {A B} (f : A -> B -> tried A) g l : (forall a b, forget (f a b) = g a b) -> forall a, forget (foldt f a l) = foldo g a l.
Proof. intros H. induction l as [|b l IH]; intros a; [reflexivity|]. cbn [foldt foldo]. rewrite <- (H a b). destruct (f a b) as [a'|]; [|reflexivity]. cbn [next forget]. apply IH. Qed.
Lemma forget_walkt {A} root (f : A -> elem -> tried A) g a : (forall a b, forget (f a b) = g a b) -> forget (walkt root f a) = walk root g a.
Proof. intros H. unfold walkt, walk. rewrite <- (forget_foldt f g _ H a). destruct (foldt f a _); reflexivity. Qed.
Lemma stop_bad {A} (o : option A) p : or_stop o = Bad p -> o = None /\ p = [].
Proof. destruct o; [discriminate|]. intros E. injection E as <-. auto. Qed.
Lemma mapt_bad {A B} (f : A -> tried B) l p : mapt f l = Bad p -> exists l1 a l2, l = (l1 ++ a :: l2)%list /\ f a = Bad p /\ Forall (fun x => exists y, f x = Good y) l1.
Proof.
  induction l as [|a l IH]; [discriminate|]. cbn [mapt]. destruct (f a) as [b|q] eqn:E; cbn [next].
  - destruct (mapt f l) as [m|q]; [discriminate|]. intros H. injection H as <-. destruct (IH eq_refl) as (l1 & x & l2 & -> & X & G). exists (a :: l1), x, l2. split; [reflexivity|]. split; [exact X|]. constructor; [exists b; exact E|exact G].
  - intros H. injection H as <-. exists [], a, l. auto.
Qed.
Lemma foldt_bad {A B} (f : A -> B -> tried A) l p : forall a, foldt f a l = Bad p -> exists x b, In b l /\ f x b = Bad p.
Proof.
  induction l as [|b l IH]; [discriminate|]. intros a. cbn [foldt]. destruct (f a b) as [a'|q] eqn:E; cbn [next]; intros H.
  - destruct (IH _ H) as (x & c & I & X). exists x, c. split; [right; exact I|exact X].
  - injection H as <-. exists a, b. split; [left; reflexivity|exact E].
Qed.
Lemma walkt_bad {A} root (f : A -> elem -> tried A) a p : walkt root f a = Bad p -> exists q x k, p = (q ++ [root])%list /\ any_child k root /\ f x k = Bad q.
Proof.
  unfold walkt. destruct (foldt f a _) as [|q] eqn:E; [discriminate|]. intros H. injection H as <-. destruct (foldt_bad _ _ _ _ E) as (x & k & I & X). exists q, x, k. split; [reflexivity|]. split; [|exact X].
  apply filter_In in I. destruct I as [I J]. split; [exact I|]. apply String.eqb_eq. exact J.
Qed.
Lemma foldt_first {A B} (f : A -> B -> tried A) l p : forall a, foldt f a l = Bad p -> exists l1 b l2 x, l = (l1 ++ b :: l2)%list /\ foldt f a l1 = Good x /\ f x b = Bad p.
Proof.
  induction l as [|b l IH]; [discriminate|]. intros a. cbn [foldt]. destruct (f a b) as [a'|q] eqn:E; cbn [next]; intros H.
  - destruct (IH _ H) as (l1 & c & l2 & x & -> & G & X). exists (b :: l1), c, l2, x. split; [reflexivity|]. split; [cbn [foldt]; rewrite E; exact G|exact X].
  - injection H as <-. exists [], b, l, a. auto.
Qed.
Lemma filter_split {B} (g : B -> bool) l l1 b l2 : filter g l = (l1 ++ b :: l2)%list -> exists m1 m2, l = (m1 ++ b :: m2)%list /\ filter g m1 = l1 /\ g b = true.
Proof.
  revert l1. induction l as [|c l IH]; intros l1 H; [destruct l1; discriminate|]. cbn [filter] in H. destruct (g c) eqn:E.
  - destruct l1 as [|c' l1]; cbn [app] in H; injection H as <- H; [exists [], l; auto|]. destruct (IH _ H) as (m1 & m2 & -> & F & G). exists (c :: m1), m2. split; [reflexivity|]. cbn [filter]. rewrite E, F. auto.
  - destruct (IH _ H) as (m1 & m2 & -> & F & G). exists (c :: m1), m2. split; [reflexivity|]. cbn [filter]. rewrite E. auto.
Qed.
(* a walk that fails does so at a child before which all is well *)
Lemma walkt_first {A} root (f : A -> elem -> tried A) a p : walkt root f a = Bad p -> exists l1 k l2 x q, e_children root = (l1 ++ k :: l2)%list /\ in_schema k = true /\ p = (q ++ [root])%list /\ f x k = Bad q /\
  (exists y, walkt (with_kids root l1) f a = Good y) /\ (exists q', walkt (with_kids root (l1 ++ [k])%list) f a = Bad q').
Proof.
  unfold walkt. destruct (foldt f a _) as [|q] eqn:E; [discriminate|]. intros H. injection H as <-. destruct (foldt_first _ _ _ _ E) as (l1 & k & l2 & x & El & G & X). destruct (filter_split _ _ _ _ _ El) as (m1 & m2 & Em & Fm & Gk).
  exists m1, k, m2, x, q. split; [exact Em|]. split; [exact Gk|]. split; [reflexivity|]. split; [exact X|]. cbn [with_kids e_children]. split; [exists x; rewrite Fm, G; reflexivity|].
  rewrite filter_app, Fm. cbn [filter]. rewrite Gk. exists (q ++ [with_kids root (m1 ++ [k])])%list. clear - G X. revert a G. induction l1 as [|b l1 IH]; intros a G; cbn [app foldt] in *; [injection G as <-; rewrite X; reflexivity|].
  destruct (f a b) as [a'|]; [|discriminate]. cbn [next] in *. apply IH. exact G.
Qed.
Lemma next_bad {A B} (x : tried A) (f : A -> tried B) p : next x f = Bad p -> x = Bad p \/ exists a, x = Good a /\ f a = Bad p.
Proof. destruct x as [a|q]; cbn [next]; intros H; [right; exists a; auto|left; injection H as <-; reflexivity]. Qed.
Lemma called l k e : any_child k e -> local_is k l = true -> child l k e.
Proof. intros [I S] L. split; [exact I|]. apply String.eqb_eq in L. destruct (e_name k) as [s n]. cbn in *. congruence. Qed.
Lemma not_called l k : local_is k l = false -> nlocal (e_name k) <> l.
Proof. intros L. apply String.eqb_neq. exact L. Qed.
Lemma bool_bad e a : parse_bool (attr e "" a) = None -> bad_bool e a.
Proof.
  unfold parse_bool, bad_bool. intros H I. repeat (destruct I as [I|I]; [rewrite <- I in H; discriminate H|]). exact I.
Qed.
Lemma found_below l v e : In v (find_all l e) -> declared l v e.
Proof. intros H. apply found_all in H. destruct H as (p & D & N). split; [exists p; exact D|exact N]. Qed.
Lemma child_below k e : In k (e_children e) -> below k e.
Proof. intros H. apply In_nth_error in H. destruct H as [i Hi]. exists [i]. split; [discriminate|]. cbn [sub]. rewrite Hi. reflexivity. Qed.

Ltac same_walk := match goal with |- forget (next (walkt ?r ?f ?a) _) = match walk ?r ?g ?a with _ => _ end => rewrite <- (forget_walkt r f g a); [destruct (walkt r f a) as [[? ?]|]; reflexivity|] end.
Section WhereProofs.
  Variable annot : elem -> option string.
  Notation bad_annotation := (WhereSpec.bad_annotation annot).
  Notation located := (WhereSpec.located annot).
  (* ---------- the same values ---------- *)
  Lemma docs_same el : forget (docst annot el) = docs annot el.
  Proof. apply forget_walkt. intros d e. destruct (local_is e "annotation"); [|reflexivity]. destruct (annot e); reflexivity. Qed.
  Lemma element_same ns el : forget (parse_elementt annot ns el) = parse_element annot ns el.
  Proof.
    unfold parse_elementt. pose proof (docs_same el) as D. unfold parse_element. destruct (parse_bool (attr el "" "abstract")), (parse_bool (attr el "" "nillable")), (parse_plural el), (parse_optional el); try reflexivity.
    cbn [or_stop next]. rewrite <- D. destruct (docst annot el); reflexivity.
  Qed.
  Lemma attribute_same ns el : forget (parse_attributet annot ns el) = parse_attribute annot ns el.
  Proof. unfold parse_attributet. pose proof (docs_same el) as D. unfold parse_attribute. rewrite <- D. destruct (docst annot el); reflexivity. Qed.
  Lemma derivation_same ns t el : forget (parse_derivationt annot ns t el) = parse_derivation annot ns t el.
  Proof.
    unfold parse_derivationt. pose proof (forget_mapt _ _ (find_all "element" el) (element_same ns)) as E. pose proof (forget_mapt _ _ (find_all "attribute" el) (attribute_same ns)) as B. unfold parse_derivation.
    rewrite <- E, <- B. destruct (find_all "any" el) as [|v l]; [|destruct (parse_any v); [|reflexivity]]; cbn [or_stop next]; (destruct (mapt (parse_elementt annot ns) _); cbn [next forget option_map]; [|reflexivity]); destruct (mapt (parse_attributet annot ns) _); reflexivity.
  Qed.
  Lemma complex_content_same ns t root : forget (parse_complex_contentt annot ns t root) = parse_complex_content annot ns t root.
  Proof.
    unfold parse_complex_contentt, parse_complex_content. destruct (String.eqb (attr root "" "mixed") "").
    - cbn [next]. same_walk.
      intros [t' d] e. cbv beta iota. rewrite <- !derivation_same. destruct (local_is e "extension"); [destruct (parse_derivationt _ _ _ _); reflexivity|]. destruct (local_is e "restriction"); [destruct (parse_derivationt _ _ _ _); reflexivity|].
      destruct (local_is e "annotation"); [|reflexivity]. destruct (annot e); reflexivity.
    - destruct (parse_bool (attr root "" "mixed")); [|reflexivity]. cbn [or_stop next]. same_walk.
      intros [t' d] e. cbv beta iota. rewrite <- !derivation_same. destruct (local_is e "extension"); [destruct (parse_derivationt _ _ _ _); reflexivity|]. destruct (local_is e "restriction"); [destruct (parse_derivationt _ _ _ _); reflexivity|].
      destruct (local_is e "annotation"); [|reflexivity]. destruct (annot e); reflexivity.
  Qed.
  Lemma simple_content_same ns t root : forget (parse_simple_contentt annot ns t root) = parse_simple_content annot ns t root.
  Proof.
    unfold parse_simple_contentt, parse_simple_content. same_walk.
    intros [t' d] e. cbv beta iota. destruct (local_is e "annotation"); [destruct (annot e); reflexivity|]. destruct (local_is e "restriction"); [reflexivity|]. destruct (local_is e "extension"); [|reflexivity].
    rewrite <- (forget_mapt _ _ (find_all "attribute" e) (attribute_same ns)). destruct (mapt _ _); reflexivity.
  Qed.
  Theorem complex_type_same tns root : forget (parse_complex_typet annot tns root) = parse_complex_type annot tns root.
  Proof.
    unfold parse_complex_typet, parse_complex_type. destruct (parse_bool (attr root "" "abstract")); [|reflexivity]. destruct (parse_bool (attr root "" "mixed")); [|reflexivity]. cbn [or_stop next].
    same_walk.
    intros [t' d] e. cbv beta iota. rewrite <- complex_content_same, <- simple_content_same. destruct (local_is e "annotation"); [destruct (annot e); reflexivity|].
    destruct (local_is e "simpleContent"); [destruct (parse_simple_contentt _ _ _ _); reflexivity|]. destruct (local_is e "complexContent"); [destruct (parse_complex_contentt _ _ _ _); reflexivity|]. reflexivity.
  Qed.
  (* ---------- where ---------- *)
  Lemma docs_where el p : docst annot el = Bad p -> p = [el] /\ bad_annotation el.
  Proof.
    intros H. destruct (walkt_bad _ _ _ _ H) as (q & x & k & -> & C & X). destruct (local_is k "annotation") eqn:L; [|discriminate]. apply next_bad in X. destruct X as [X|(d & _ & X)]; [|discriminate].
    apply stop_bad in X. destruct X as [X ->]. split; [reflexivity|]. exists k. split; [apply called; assumption|exact X].
  Qed.
  Lemma plural_bad v : parse_plural v = None -> bad_int v "minOccurs" \/ bad_int v "maxOccurs".
  Proof. unfold parse_plural, bad_int. destruct (parse_int (attr v "" "minOccurs")) as [m|]; [|auto]. destruct (1 <? m)%Z; [discriminate|]. destruct (parse_int (attr v "" "maxOccurs")); [discriminate|auto]. Qed.
  Lemma optional_bad v : parse_optional v = None -> bad_int v "minOccurs".
  Proof. unfold parse_optional, bad_int. destruct (String.eqb _ ""); [discriminate|]. destruct (parse_int _); [discriminate|auto]. Qed.
  Lemma element_where ns v p : parse_elementt annot ns v = Bad p ->
    p = [] /\ (bad_bool v "abstract" \/ bad_bool v "nillable" \/ bad_int v "minOccurs" \/ bad_int v "maxOccurs") \/ p = [v] /\ bad_annotation v.
  Proof.
    unfold parse_elementt. intros H. apply next_bad in H. destruct H as [H|(a & Ea & H)]; [apply stop_bad in H; destruct H as [H ->]; left; auto using bool_bad|].
    apply next_bad in H. destruct H as [H|(b & Eb & H)]; [apply stop_bad in H; destruct H as [H ->]; left; auto using bool_bad|].
    apply next_bad in H. destruct H as [H|(c & Ec & H)]; [apply stop_bad in H; destruct H as [H ->]; left; split; [reflexivity|]; destruct (plural_bad _ H); auto|].
    apply next_bad in H. destruct H as [H|(o & Eo & H)]; [apply stop_bad in H; destruct H as [H ->]; left; split; [reflexivity|]; apply optional_bad in H; auto|].
    apply next_bad in H. destruct H as [H|(d & Ed & H)]; [right; apply docs_where; exact H|]. apply stop_bad in H. destruct H as [H _]. exfalso.
    rewrite <- element_same in H. unfold parse_elementt in H. rewrite Ea, Eb, Ec, Eo, Ed in H. cbn [next] in H. rewrite forget_or_stop in H.
    pose proof (docs_same v) as D. rewrite Ed in D. cbn [forget] in D. unfold parse_element in H. rewrite <- D in H.
    destruct (parse_bool (attr v "" "abstract")); [|discriminate Ea]. destruct (parse_bool (attr v "" "nillable")); [|discriminate Eb]. destruct (parse_plural v); [|discriminate Ec]. destruct (parse_optional v); [|discriminate Eo]. discriminate H.
  Qed.
  Lemma attribute_where ns v p : parse_attributet annot ns v = Bad p -> p = [v] /\ bad_annotation v.
  Proof.
    unfold parse_attributet. intros H. apply next_bad in H. destruct H as [H|(d & Ed & H)]; [apply docs_where; exact H|]. apply stop_bad in H. destruct H as [H _]. exfalso.
    pose proof (docs_same v) as D. rewrite Ed in D. cbn [forget] in D. unfold parse_attribute in H. rewrite <- D in H. discriminate H.
  Qed.
  Lemma derivation_where ns t x p : parse_derivationt annot ns t x = Bad p ->
    p = [] /\ (exists v, declared "any" v x /\ (bad_int v "minOccurs" \/ bad_int v "maxOccurs")) \/
    p = [] /\ (exists v, declared "element" v x /\ (bad_bool v "abstract" \/ bad_bool v "nillable" \/ bad_int v "minOccurs" \/ bad_int v "maxOccurs")) \/
    exists v, p = [v] /\ (declared "element" v x \/ declared "attribute" v x) /\ bad_annotation v.
  Proof.
    intros H. pose proof (derivation_same ns t x) as S. rewrite H in S. unfold parse_derivationt in H.
    apply next_bad in H. destruct H as [H|(a & Ea & H)].
    { left. destruct (find_all "any" x) as [|v l] eqn:Ef; [discriminate|]. apply next_bad in H. destruct H as [H|(b & _ & H)]; [|discriminate]. apply stop_bad in H. destruct H as [H ->]. split; [reflexivity|].
      exists v. split; [apply found_below; rewrite Ef; left; reflexivity|]. apply plural_bad. unfold parse_any in H. destruct (parse_plural v); [discriminate|reflexivity]. }
    apply next_bad in H. destruct H as [H|(es & Ee & H)].
    { apply mapt_bad in H. destruct H as (l1 & v & l2 & El & H & _). assert (B : declared "element" v x) by (apply found_below; rewrite El; apply in_or_app; right; left; reflexivity).
      apply element_where in H. destruct H as [[-> H]|[-> H]]; [right; left; split; [reflexivity|]; exists v; auto|right; right; exists v; auto]. }
    apply next_bad in H. destruct H as [H|(ats & Et & H)].
    { apply mapt_bad in H. destruct H as (l1 & v & l2 & El & H & _). assert (B : declared "attribute" v x) by (apply found_below; rewrite El; apply in_or_app; right; left; reflexivity).
      apply attribute_where in H. destruct H as [-> H]. right; right; exists v; auto. }
    exfalso. cbn [forget] in S. unfold parse_derivation in S. rewrite <- (forget_mapt _ _ _ (element_same ns)), <- (forget_mapt _ _ _ (attribute_same ns)), Ee, Et in S. cbn [forget] in S.
    destruct (find_all "any" x) as [|v l]; [discriminate|]. destruct (parse_any v); [discriminate S|discriminate Ea].
  Qed.
  Lemma complex_content_where ns t0 t k p : child "complexContent" k t -> parse_complex_contentt annot ns t0 k = Bad p -> located t (rev (p ++ [t])).
  Proof.
    intros C. unfold parse_complex_contentt. intros H. apply next_bad in H. destruct H as [H|(m & _ & H)].
    { assert (X : p = [] /\ bad_bool k "mixed"). { destruct (String.eqb (attr k "" "mixed") ""); [discriminate|]. apply stop_bad in H. destruct H as [H ->]. auto using bool_bad. }
      destruct X as [-> X]. apply At_type. right; right. exists k. auto. }
    apply next_bad in H. destruct H as [H|(st & _ & H)]; [|discriminate]. apply walkt_bad in H. destruct H as (q & [t' d] & x & -> & Cx & H).
    assert (K : forall t1, (child "restriction" x k \/ child "extension" x k) -> parse_derivationt annot ns t1 x = Bad q -> located t (rev ((q ++ [k]) ++ [t]))).
    { intros t1 D X. apply derivation_where in X. destruct X as [[-> (v & V & X)]|[[-> (v & V & X)]|(v & -> & V & X)]]; cbn [app rev]; eauto using WhereSpec.located. }
    destruct (local_is x "extension") eqn:L1; [apply next_bad in H; destruct H as [H|(b & _ & H)]; [|discriminate]; apply (K _ (or_intror (called _ _ _ Cx L1)) H)|].
    destruct (local_is x "restriction") eqn:L2; [apply next_bad in H; destruct H as [H|(b & _ & H)]; [|discriminate]; apply (K _ (or_introl (called _ _ _ Cx L2)) H)|].
    destruct (local_is x "annotation") eqn:L3.
    - apply next_bad in H. destruct H as [H|(b & _ & H)]; [|discriminate]. apply stop_bad in H. destruct H as [H ->]. cbn [app rev]. apply At_content; [left; exact C|]. exists x. split; [apply called; assumption|exact H].
    - injection H as <-. cbn [app rev]. apply (At_unexpected _ _ k x); [exact C|exact Cx|]. apply not_called in L1, L2, L3. cbn [In]. intuition congruence.
  Qed.
  Lemma simple_content_where ns t0 t k p : child "simpleContent" k t -> parse_simple_contentt annot ns t0 k = Bad p -> located t (rev (p ++ [t])).
  Proof.
    intros C. unfold parse_simple_contentt. intros H. apply next_bad in H. destruct H as [H|(st & _ & H)]; [|discriminate]. apply walkt_bad in H. destruct H as (q & [t' d] & x & -> & Cx & H).
    destruct (local_is x "annotation") eqn:L1.
    { apply next_bad in H. destruct H as [H|(b & _ & H)]; [|discriminate]. apply stop_bad in H. destruct H as [H ->]. cbn [app rev]. apply At_content; [right; exact C|]. exists x. split; [apply called; assumption|exact H]. }
    destruct (local_is x "restriction"); [discriminate|]. destruct (local_is x "extension") eqn:L2; [|discriminate]. apply next_bad in H. destruct H as [H|(b & _ & H)]; [|discriminate].
    apply mapt_bad in H. destruct H as (l1 & v & l2 & El & H & _). assert (B : declared "attribute" v x) by (apply found_below; rewrite El; apply in_or_app; right; left; reflexivity).
    apply attribute_where in H. destruct H as [-> H]. cbn [app rev]. apply (At_simple _ _ k x v); auto using called.
  Qed.
  Theorem complex_type_where tns t p : parse_complex_typet annot tns t = Bad p -> located t (rev p).
  Proof.
    unfold parse_complex_typet. intros H. apply next_bad in H. destruct H as [H|(a & _ & H)]; [apply stop_bad in H; destruct H as [H ->]; apply At_head; auto using bool_bad|].
    apply next_bad in H. destruct H as [H|(m & _ & H)]; [apply stop_bad in H; destruct H as [H ->]; apply At_head; auto using bool_bad|].
    apply next_bad in H. destruct H as [H|(st & _ & H)]; [|discriminate]. apply walkt_bad in H. destruct H as (q & [t' d] & k & -> & Ck & H).
    destruct (local_is k "annotation") eqn:L1.
    { apply next_bad in H. destruct H as [H|(b & _ & H)]; [|discriminate]. apply stop_bad in H. destruct H as [H ->]. apply At_type. left. exists k. split; [apply called; assumption|exact H]. }
    destruct (local_is k "simpleContent") eqn:L2; [apply next_bad in H; destruct H as [H|(b & _ & H)]; [|discriminate]; apply (simple_content_where _ _ _ _ _ (called _ _ _ Ck L2) H)|].
    destruct (local_is k "complexContent") eqn:L3; [apply next_bad in H; destruct H as [H|(b & _ & H)]; [|discriminate]; apply (complex_content_where _ _ _ _ _ (called _ _ _ Ck L3) H)|].
    injection H as <-. apply At_type. right; left. exists k. split; [exact Ck|]. apply not_called in L1, L2, L3. cbn [In]. intuition congruence.
  Qed.
  Theorem located_descends t way : located t way -> (way = [] \/ exists rest, way = t :: rest) /\ descends way.
  Proof.
    intros H. split; [destruct H; eauto|].
    assert (K : forall k x v, child "restriction" x k \/ child "extension" x k -> declared "element" v x \/ declared "attribute" v x -> below v k).
    { intros k x v X D. assert (I : In x (e_children k)) by (destruct X as [[X _]|[X _]]; exact X). assert (B : below v x) by (destruct D as [[D _]|[D _]]; exact D). destruct B as (p & P1 & P2).
      apply In_nth_error in I. destruct I as [i Hi]. exists (i :: p). split; [discriminate|]. cbn [sub]. rewrite Hi. exact P2. }
    destruct H as [H|H|k C B|k x C X N|k x v C X D B|k x v C X D B|k x v C X D B|k x v C X D B]; cbn [descends]; auto.
    - destruct C as [[C _]|[C _]]; auto using child_below.
    - destruct C as [C _]. auto using child_below.
    - destruct C as [C _]. auto using child_below.
    - destruct C as [C _]. auto using child_below.
    - split; [destruct C as [C _]; auto using child_below|]. split; [apply (K k x v X D)|exact I].
    - split; [destruct C as [C _]; auto using child_below|]. split; [apply (K k x v (or_intror X) (or_intror D))|exact I].
  Qed.

  (* ---------- simple types ---------- *)
  Variables (F T : Type) (f0 : F) (t0 : T).
  Variables (pf : string -> option F) (pd pr : string -> option T) (comp : string -> bool) (msg : string -> string).
  Notation located_simple := (WhereSpec.located_simple annot F T pf pd pr).
  Notation restr_step := (XsdModel.restr_step annot F T f0 t0 pf pd pr comp msg).
  Notation parse_simple_typet := (WhereModel.parse_simple_typet annot F T f0 t0 pf pd pr comp msg).
  Notation parse_simple_type := (XsdModel.parse_simple_type annot F T f0 t0 pf pd pr comp msg).
  Notation parse_restrictiont := (WhereModel.parse_restrictiont annot F T f0 t0 pf pd pr comp msg).
  Notation read_typest := (WhereModel.read_typest annot F T f0 t0 pf pd pr comp msg).
  Notation read_types := (TypesModel.read_types annot F T f0 t0 pf pd pr comp msg).
  Lemma restriction_same root b : forget (parse_restrictiont root b) = parse_restriction annot F T f0 t0 pf pd pr comp msg root b.
  Proof.
    unfold WhereModel.parse_restrictiont, parse_restriction. rewrite <- (forget_walkt root (fun st el => or_stop (restr_step b st el)) (restr_step b)); [destruct (walkt root _ _); reflexivity|]. intros st el. apply forget_or_stop.
  Qed.
  Theorem simple_type_same tns root : forget (parse_simple_typet tns root) = parse_simple_type tns root.
  Proof.
    unfold WhereModel.parse_simple_typet, XsdModel.parse_simple_type. cbv zeta.
    match goal with |- forget (next (walkt ?r ?f ?a) _) = option_map _ (walk ?r ?g ?a) => rewrite <- (forget_walkt r f g a); [destruct (walkt r f a) as [[[[[? ?] ?] ?] ?]|]; reflexivity|] end.
    intros [[[[l u] r] b] d] e. cbv beta iota. rewrite <- restriction_same. destruct (local_is e "restriction"); [destruct (parse_restrictiont _ _); reflexivity|]. destruct (local_is e "list"); [reflexivity|].
    destruct (local_is e "union"); [destruct (map _ _); reflexivity|]. destruct (local_is e "annotation"); [destruct (annot e); reflexivity|reflexivity].
  Qed.
  Lemma decimal_bad v : parse_decimal F f0 pf v = None -> bad_number F pf v.
  Proof. unfold parse_decimal, bad_number. destruct (String.eqb (trim_space v) "") eqn:E; [discriminate|]. apply String.eqb_neq in E. auto. Qed.
  Lemma bound_bad n x : parse_min_max F T f0 t0 pf pd pr x (parse_type n) = None -> bad_bound F T pf pd pr n x.
  Proof.
    unfold parse_min_max, bad_bound, parse_type. destruct (parse_builtin n) as [z|].
    - destruct (z =? 16)%Z eqn:E1; [apply Z.eqb_eq in E1; subst; destruct (pd _); [discriminate|reflexivity]|]. destruct (z =? 17)%Z eqn:E2; [apply Z.eqb_eq in E2; subst; destruct (pr _); [discriminate|reflexivity]|].
      intros H. assert (N : bad_number F pf (attr x "" "value")) by (apply decimal_bad; destruct (parse_decimal _ _ _ _); [discriminate|reflexivity]).
      apply Z.eqb_neq in E1, E2. destruct z as [|z|z]; try exact N. do 5 (destruct z as [z|z|]; try exact N); congruence.
    - destruct (pd _); [discriminate|]. destruct (pr _); [discriminate|]. intros H. split; [reflexivity|]. split; [reflexivity|]. apply decimal_bad. destruct (parse_decimal _ _ _ _); [discriminate|reflexivity].
  Qed.
  Lemma restriction_where t k p : child "restriction" k t -> parse_restrictiont k (parse_type (resolve (e_scope k) (attr k "" "base"))) = Bad p -> located_simple t (rev (p ++ [t])).
  Proof.
    intros C. unfold WhereModel.parse_restrictiont. intros H. apply next_bad in H. destruct H as [H|(st & _ & H)]; [|discriminate]. apply walkt_bad in H. destruct H as (q & [r d] & x & -> & Cx & H). apply stop_bad in H. destruct H as [H ->]. cbn [app rev].
    destruct r. cbn [XsdModel.restr_step] in H.
    destruct (local_is x "enumeration"); [discriminate|].
    assert (Bd : forall l, local_is x l = true -> In l ["minExclusive"; "minInclusive"; "maxExclusive"; "maxInclusive"] -> parse_min_max F T f0 t0 pf pd pr x (parse_type (resolve (e_scope k) (attr k "" "base"))) = None -> located_simple t [t; k]).
    { intros l L I X. apply String.eqb_eq in L. apply (In_bound _ _ _ _ _ _ t k x C Cx); [rewrite L; exact I|apply bound_bad; exact X]. }
    assert (Nm : forall l, local_is x l = true -> In l ["length"; "minLength"; "maxLength"; "fractionDigits"; "totalDigits"] -> parse_int (attr x "" "value") = None -> located_simple t [t; k]).
    { intros l L I X. apply String.eqb_eq in L. apply (In_number _ _ _ _ _ _ t k x C Cx); [rewrite L; exact I|exact X]. }
    destruct (local_is x "minExclusive") eqn:L1; [apply (Bd _ L1); [cbn; tauto|]; cbn [orb] in H; destruct (parse_min_max _ _ _ _ _ _ _ _ _); [discriminate|reflexivity]|].
    destruct (local_is x "minInclusive") eqn:L2; [apply (Bd _ L2); [cbn; tauto|]; cbn [orb] in H; destruct (parse_min_max _ _ _ _ _ _ _ _ _); [discriminate|reflexivity]|].
    destruct (local_is x "maxExclusive") eqn:L3; [apply (Bd _ L3); [cbn; tauto|]; cbn [orb] in H; destruct (parse_min_max _ _ _ _ _ _ _ _ _); [discriminate|reflexivity]|].
    destruct (local_is x "maxInclusive") eqn:L4; [apply (Bd _ L4); [cbn; tauto|]; cbn [orb] in H; destruct (parse_min_max _ _ _ _ _ _ _ _ _); [discriminate|reflexivity]|]. cbn [orb] in H.
    destruct (local_is x "length") eqn:L5; [apply (Nm _ L5); [cbn; tauto|]; destruct (parse_int _); [discriminate|reflexivity]|].
    destruct (local_is x "maxLength") eqn:L6; [apply (Nm _ L6); [cbn; tauto|]; destruct (parse_int _); [discriminate|reflexivity]|].
    destruct (local_is x "minLength") eqn:L7; [apply (Nm _ L7); [cbn; tauto|]; destruct (parse_int _); [discriminate|reflexivity]|].
    destruct (local_is x "pattern"); [destruct (comp _); discriminate|].
    destruct (local_is x "fractionDigits") eqn:L8.
    { destruct (parse_int (attr x "" "value")) as [n|] eqn:En; [|apply (Nm _ L8); [cbn; tauto|reflexivity]]. destruct (n <? 0)%Z eqn:E0; [|discriminate]. apply Z.ltb_lt in E0. apply (In_digits _ _ _ _ _ _ t k x n); auto using called. }
    destruct (local_is x "annotation") eqn:L9.
    { apply In_restriction; [exact C|]. exists x. split; [apply called; assumption|]. destruct (annot x); [discriminate|reflexivity]. }
    destruct (local_is x "totalDigits") eqn:L10; [apply (Nm _ L10); [cbn; tauto|]; destruct (parse_int _); [discriminate|reflexivity]|]. discriminate.
  Qed.
  Theorem simple_type_where tns t p : parse_simple_typet tns t = Bad p -> located_simple t (rev p).
  Proof.
    unfold WhereModel.parse_simple_typet. cbv zeta. intros H. apply next_bad in H. destruct H as [H|([[[[l u] r] b] d] & _ & H)]; [|discriminate]. apply walkt_bad in H. destruct H as (q & [[[[l u] r] b] d] & k & -> & Ck & H).
    destruct (local_is k "restriction") eqn:L1; [apply next_bad in H; destruct H as [H|(x & _ & H)]; [|discriminate]; exact (restriction_where _ _ _ (called _ _ _ Ck L1) H)|].
    destruct (local_is k "list"); [discriminate|]. destruct (local_is k "union"); [destruct (map _ _); discriminate|]. destruct (local_is k "annotation") eqn:L2; [|discriminate].
    apply next_bad in H. destruct H as [H|(x & _ & H)]; [|discriminate]. apply stop_bad in H. destruct H as [H ->]. cbn [app rev]. apply In_simple. exists k. split; [apply called; assumption|exact H].
  Qed.
  Theorem simple_descends t way : located_simple t way -> (exists rest, way = t :: rest) /\ descends way.
  Proof. intros H. destruct H as [B|k [C _] B|k x [C _]|k x [C _]|k x n [C _]]; cbn [descends]; split; eauto; split; auto using child_below. Qed.

  (* ---------- schemas ---------- *)
  Theorem types_same root : forget (read_typest root) = read_types root.
  Proof.
    unfold WhereModel.read_typest, TypesModel.read_types. cbv zeta. set (tns := attr root "" "targetNamespace").
    rewrite <- (forget_mapt _ _ (find_all "complexType" root) (complex_type_same tns)), <- (forget_mapt _ _ (find_all "simpleType" root) (simple_type_same tns)), <- complex_type_same.
    destruct (mapt _ (find_all "complexType" root)) as [cs|]; [|reflexivity]. cbn [next forget]. destruct (mapt _ (find_all "simpleType" root)) as [ss|]; [|reflexivity]. cbn [next forget]. destruct (parse_complex_typet _ _ _); reflexivity.
  Qed.
  Lemma good_before {A B} (f : A -> tried B) g l : (forall a, forget (f a) = g a) -> Forall (fun x => exists y, f x = Good y) l -> Forall (fun x => g x <> None) l.
  Proof. intros H. apply Forall_impl. intros a [y Y]. rewrite <- H, Y. discriminate. Qed.
  Lemma mapt_good {A B} (f : A -> tried B) l m : mapt f l = Good m -> Forall (fun x => exists y, f x = Good y) l.
  Proof.
    revert m. induction l as [|a l IH]; intros m; [constructor|]. cbn [mapt]. destruct (f a) as [b|] eqn:E; [|discriminate]. cbn [next]. destruct (mapt f l) as [m'|]; [|discriminate]. intros _. constructor; [exists b; exact E|exact (IH _ eq_refl)].
  Qed.
  Theorem types_where root p : read_typest root = Bad p ->
    let tns := attr root "" "targetNamespace" in
    let complex := parse_complex_type annot tns in
    let simple := parse_simple_type tns in
    (exists l1 t l2, find_all "complexType" root = (l1 ++ t :: l2)%list /\ Forall (fun x => complex x <> None) l1 /\ complex t = None /\ located t (rev p)) \/
    Forall (fun x => complex x <> None) (find_all "complexType" root) /\
    ((exists l1 t l2, find_all "simpleType" root = (l1 ++ t :: l2)%list /\ Forall (fun x => simple x <> None) l1 /\ simple t = None /\ located_simple t (rev p)) \/
     Forall (fun x => simple x <> None) (find_all "simpleType" root) /\ complex (self_elem root) = None /\ located (self_elem root) (rev p)).
  Proof.
    intros H tns complex simple. unfold WhereModel.read_typest in H. fold tns in H. apply next_bad in H. destruct H as [H|(cs & Ec & H)].
    { left. apply mapt_bad in H. destruct H as (l1 & t & l2 & E & X & G). exists l1, t, l2. split; [exact E|]. split; [apply (good_before _ _ _ (complex_type_same tns) G)|]. split; [unfold complex; rewrite <- complex_type_same, X; reflexivity|exact (complex_type_where _ _ _ X)]. }
    right. split; [apply (good_before _ _ _ (complex_type_same tns)); exact (mapt_good _ _ _ Ec)|]. apply next_bad in H. destruct H as [H|(ss & Es & H)].
    { left. apply mapt_bad in H. destruct H as (l1 & t & l2 & E & X & G). exists l1, t, l2. split; [exact E|]. split; [apply (good_before _ _ _ (simple_type_same tns) G)|]. split; [unfold simple; rewrite <- simple_type_same, X; reflexivity|exact (simple_type_where _ _ _ X)]. }
    right. split; [apply (good_before _ _ _ (simple_type_same tns)); exact (mapt_good _ _ _ Es)|]. apply next_bad in H. destruct H as [H|(s & _ & H)]; [|discriminate].
    split; [unfold complex; rewrite <- complex_type_same, H; reflexivity|exact (complex_type_where _ _ _ H)].
  Qed.
  (* the child of the type in which the error is: the first that makes the type wrong *)
  Lemma way_child {A} root (f : A -> elem -> tried A) a p : walkt root f a = Bad p -> (forall x k q, f x k = Bad q -> q = [] \/ exists q', q = (q' ++ [k])%list) ->
    exists l1 k l2, e_children root = (l1 ++ k :: l2)%list /\ nspace (e_name k) = schemaNS /\ (rev p = [root] \/ exists rest, rev p = root :: k :: rest) /\ (exists y, walkt (with_kids root l1) f a = Good y) /\ (exists q', walkt (with_kids root (l1 ++ [k])%list) f a = Bad q').
  Proof.
    intros H K. destruct (walkt_first _ _ _ _ H) as (l1 & k & l2 & x & q & E & S & -> & X & G1 & G2). exists l1, k, l2. split; [exact E|]. split; [apply String.eqb_eq; exact S|]. split; [|split; [exact G1|exact G2]].
    destruct (K _ _ _ X) as [->|(q' & ->)]; [left; reflexivity|]. right. exists (rev q'). rewrite !rev_app_distr. reflexivity.
  Qed.
  Lemma content_ends ns tc k p : parse_complex_contentt annot ns tc k = Bad p -> p = [] \/ exists q, p = (q ++ [k])%list.
  Proof.
    unfold parse_complex_contentt. intros H. apply next_bad in H. destruct H as [H|(m & _ & H)]; [left; destruct (String.eqb _ ""); [discriminate|]; apply stop_bad in H; apply H|].
    apply next_bad in H. destruct H as [H|(st & _ & H)]; [|discriminate]. apply walkt_bad in H. destruct H as (q & _ & _ & -> & _). right. exists q. reflexivity.
  Qed.
  Lemma scontent_ends ns tc k p : parse_simple_contentt annot ns tc k = Bad p -> p = [] \/ exists q, p = (q ++ [k])%list.
  Proof. unfold parse_simple_contentt. intros H. apply next_bad in H. destruct H as [H|(st & _ & H)]; [|discriminate]. apply walkt_bad in H. destruct H as (q & _ & _ & -> & _). right. exists q. reflexivity. Qed.
  Theorem complex_child tns t p : parse_complex_typet annot tns t = Bad p ->
    p = [] /\ (bad_bool t "abstract" \/ bad_bool t "mixed") \/
    exists l1 k l2, e_children t = (l1 ++ k :: l2)%list /\ nspace (e_name k) = schemaNS /\ (rev p = [t] \/ exists rest, rev p = t :: k :: rest) /\
      parse_complex_type annot tns (with_kids t l1) <> None /\ parse_complex_type annot tns (with_kids t (l1 ++ [k])%list) = None.
  Proof.
    intros H. unfold parse_complex_typet in H. apply next_bad in H. destruct H as [H|(a & Ea & H)]; [apply stop_bad in H; destruct H as [H ->]; left; auto using bool_bad|].
    apply next_bad in H. destruct H as [H|(m & Em & H)]; [apply stop_bad in H; destruct H as [H ->]; left; auto using bool_bad|].
    apply next_bad in H. destruct H as [H|(st & _ & H)]; [|discriminate]. right. apply way_child in H.
    - destruct H as (l1 & k & l2 & E & S & W & [y Y] & [q Q]). exists l1, k, l2. split; [exact E|]. split; [exact S|]. split; [exact W|]. rewrite <- !complex_type_same. unfold parse_complex_typet. change (attr (with_kids t l1)) with (attr t). change (attr (with_kids t (l1 ++ [k])%list)) with (attr t).
      change (e_scope (with_kids t l1)) with (e_scope t). change (e_scope (with_kids t (l1 ++ [k])%list)) with (e_scope t). rewrite Ea, Em. cbn [next]. rewrite Y, Q. split; [discriminate|reflexivity].
    - intros [t' d] k q X. destruct (local_is k "annotation"); [apply next_bad in X; destruct X as [X|(b & _ & X)]; [|discriminate]; apply stop_bad in X; left; apply X|].
      destruct (local_is k "simpleContent"); [apply next_bad in X; destruct X as [X|(b & _ & X)]; [|discriminate]; exact (scontent_ends _ _ _ _ X)|].
      destruct (local_is k "complexContent"); [apply next_bad in X; destruct X as [X|(b & _ & X)]; [|discriminate]; exact (content_ends _ _ _ _ X)|]. injection X as <-. auto.
  Qed.
  Theorem simple_child tns t p : parse_simple_typet tns t = Bad p ->
    exists l1 k l2, e_children t = (l1 ++ k :: l2)%list /\ nspace (e_name k) = schemaNS /\ (rev p = [t] \/ exists rest, rev p = t :: k :: rest) /\
      parse_simple_type tns (with_kids t l1) <> None /\ parse_simple_type tns (with_kids t (l1 ++ [k])%list) = None.
  Proof.
    intros H. unfold WhereModel.parse_simple_typet in H. cbv zeta in H. apply next_bad in H. destruct H as [H|([[[[l u] r] b] d] & _ & H)]; [|discriminate]. apply way_child in H.
    - destruct H as (l1 & k & l2 & E & S & W & [y Y] & [q Q]). exists l1, k, l2. split; [exact E|]. split; [exact S|]. split; [exact W|]. rewrite <- !simple_type_same. unfold WhereModel.parse_simple_typet. cbv zeta.
      rewrite Y, Q. destruct y as [[[[l' u'] r'] b'] d']. split; [discriminate|reflexivity].
    - intros [[[[l' u'] r'] b'] d'] k q X. destruct (local_is k "restriction"); [apply next_bad in X; destruct X as [X|(x & _ & X)]; [|discriminate]; unfold WhereModel.parse_restrictiont in X; apply next_bad in X; destruct X as [X|(st & _ & X)]; [|discriminate]; apply walkt_bad in X; destruct X as (q' & _ & _ & -> & _); right; exists q'; reflexivity|].
      destruct (local_is k "list"); [discriminate|]. destruct (local_is k "union"); [destruct (map _ _); discriminate|]. destruct (local_is k "annotation"); [|discriminate]. apply next_bad in X. destruct X as [X|(x & _ & X)]; [|discriminate]. apply stop_bad in X. left. apply X.
  Qed.
  Theorem types_child root p t rest : read_typest root = Bad p -> rev p = t :: rest ->
    let tns := attr root "" "targetNamespace" in
    exists l1 k l2, e_children t = (l1 ++ k :: l2)%list /\ nspace (e_name k) = schemaNS /\ (rest = [] \/ exists more, rest = k :: more) /\
      (parse_complex_type annot tns (with_kids t l1) <> None /\ parse_complex_type annot tns (with_kids t (l1 ++ [k])%list) = None \/
       parse_simple_type tns (with_kids t l1) <> None /\ parse_simple_type tns (with_kids t (l1 ++ [k])%list) = None).
  Proof.
    intros H R tns. unfold WhereModel.read_typest in H. fold tns in H.
    assert (K : forall x, parse_complex_typet annot tns x = Bad p -> exists l1 k l2, e_children t = (l1 ++ k :: l2)%list /\ nspace (e_name k) = schemaNS /\ (rest = [] \/ exists more, rest = k :: more) /\
      (parse_complex_type annot tns (with_kids t l1) <> None /\ parse_complex_type annot tns (with_kids t (l1 ++ [k])%list) = None \/ parse_simple_type tns (with_kids t l1) <> None /\ parse_simple_type tns (with_kids t (l1 ++ [k])%list) = None)).
    { intros x X. apply complex_child in X. destruct X as [[-> _]|(l1 & k & l2 & E & S & W & G)]; [discriminate R|]. rewrite R in W. assert (t = x) as -> by (destruct W as [W|[m W]]; congruence).
      exists l1, k, l2. split; [exact E|]. split; [exact S|]. split; [|left; exact G]. destruct W as [W|[m W]]; [left; congruence|right; exists m; congruence]. }
    apply next_bad in H. destruct H as [H|(cs & Ec & H)]; [apply mapt_bad in H; destruct H as (l1 & x & l2 & _ & X & _); exact (K x X)|].
    apply next_bad in H. destruct H as [H|(ss & Es & H)]; [|apply next_bad in H; destruct H as [H|(s & _ & H)]; [exact (K _ H)|discriminate]].
    apply mapt_bad in H. destruct H as (m1 & x & m2 & _ & X & _). apply simple_child in X. destruct X as (l1 & k & l2 & E & S & W & G). rewrite R in W. assert (t = x) as -> by (destruct W as [W|[m W]]; congruence).
    exists l1, k, l2. split; [exact E|]. split; [exact S|]. split; [|right; exact G]. destruct W as [W|[m W]]; [left; congruence|right; exists m; congruence].
  Qed.
  Theorem types_reported root : (forall l, read_typest root = Good l <-> read_types root = Some l) /\ ((exists p, read_typest root = Bad p) <-> read_types root = None).
  Proof.
    rewrite <- types_same. destruct (read_typest root) as [l0|p0]; cbn [forget]; split.
    - intros l. split; intros H; [injection H as ->|injection H as ->]; reflexivity.
    - split; [intros [p H]; discriminate H|discriminate].
    - intros l. split; discriminate.
    - split; [reflexivity|]. intros _. exists p0. reflexivity.
  Qed.
  Theorem schemas_where roots p : read_allt annot F T f0 t0 pf pd pr comp msg roots = Bad p -> exists l1 r l2, roots = (l1 ++ r :: l2)%list /\ Forall (fun x => read_types x <> None) l1 /\ read_typest r = Bad p.
  Proof. intros H. apply mapt_bad in H. destruct H as (l1 & r & l2 & E & X & G). exists l1, r, l2. split; [exact E|]. split; [apply (good_before _ _ _ types_same G)|exact X]. Qed.
End WhereProofs.
(* the text *)
Theorem text_is path m : error_text path m = "Error at " ++ trail (rev path) ++ ": " ++ m.
Proof.
  unfold error_text. f_equal. f_equal. unfold breadcrumbs. rewrite <- fold_left_rev_right. generalize (rev path). intros l. induction l as [|e l IH]; [reflexivity|]. cbn [fold_right trail].
  assert (P : piece e = (nlocal (e_name e) ++ (if String.eqb (attr e "" "name") "" then "" else "(" ++ attr e "" "name" ++ ")"))%string).
  { unfold piece. destruct (String.eqb _ ""); [|reflexivity]. induction (nlocal (e_name e)) as [|c s IHs]; [reflexivity|]. cbn. f_equal. exact IHs. }
  destruct l as [|e' l]; [cbn [fold_right String.concat]; rewrite P; symmetry; generalize (nlocal (e_name e) ++ (if String.eqb (attr e "" "name") "" then "" else "(" ++ attr e "" "name" ++ ")")); intros s; induction s as [|c s IHs]; [reflexivity|]; cbn; f_equal; exact IHs|].
  rewrite <- IH, P. cbn [fold_right String.concat]. reflexivity.
Qed.
