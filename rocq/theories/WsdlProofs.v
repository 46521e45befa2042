From Coq Require Import Sorted.
From Verif Require Import Base ScopeModel TreeModel TreeSpec TreeProofs XsdModel XsdProofs SgModel WsdlModel WsdlSpec.
Local Open Scope string_scope.

Lemma in_order_search root (fn : elem -> bool) (P : elem -> Prop) : (forall e, fn e = true <-> P e) -> in_order root P (search_func_elems fn root).
Proof.
  intros H. exists (search_func fn root). split; [apply search_func_sorted|]. split; [|apply search_func_elems_at].
  intros p. rewrite search_func_spec. split; intros (e & D & E); exists e; split; auto; apply H; auto.
Qed.
Lemma in_order_det root P l l' : in_order root P l -> in_order root P l' -> l = l'.
Proof.
  intros (ps & S1 & I1 & F1) (qs & S2 & I2 & F2).
  assert (ps = qs) as ->.
  { apply (sorted_ext doc_before doc_before_irrefl doc_before_trans); auto. intros p. rewrite I1, I2. reflexivity. }
  clear S1 S2 I1 I2. revert l' F2. induction F1 as [|q x qs l E F IH]; intros l' F2; inversion F2; subst; [reflexivity|]. f_equal; [congruence|auto].
Qed.
Lemma name_match_called ns local e : ns <> "" -> (name_match ns local (e_name e) = true <-> called ns local e).
Proof.
  intros NZ. unfold name_match, called. destruct (e_name e) as [sp lo]. cbn [nlocal nspace].
  destruct (String.eqb lo local) eqn:E; cbn [negb].
  - apply String.eqb_eq in E as ->. rewrite orb_true_iff, !String.eqb_eq. split.
    + intros [H|H]; [contradiction|]. rewrite <- H. reflexivity.
    + intros H. right. injection H as ->. reflexivity.
  - apply String.eqb_neq in E. split; [discriminate|]. intros H. injection H as _ H. contradiction.
Qed.
Lemma found_in_order ns local e : ns <> "" -> in_order e (called ns local) (found ns local e).
Proof. intros NZ. apply in_order_search. intros x. apply name_match_called; auto. Qed.
Lemma wsdl_nz : wsdlNS <> "". Proof. discriminate. Qed.
Lemma soap_nz : soapNS <> "". Proof. discriminate. Qed.
Lemma soap12_nz : soap12NS <> "". Proof. discriminate. Qed.
Lemma http_nz : httpNS <> "". Proof. discriminate. Qed.

Lemma last_of_value {A B} (f : A -> B) z l : last_value f z l (last_of f z l).
Proof.
  induction l as [|a l _] using rev_ind; [constructor|]. unfold last_of. rewrite fold_left_app. cbn [fold_left]. constructor.
Qed.
Lemma last_value_det {A B} (f : A -> B) z l x y : last_value f z l x -> last_value f z l y -> x = y.
Proof.
  intros H. destruct H as [|l a]; intros G; inversion G as [E|l' a' E]; auto.
  - destruct l'; discriminate.
  - destruct l; discriminate.
  - apply app_inj_tail in E as [_ ->]. reflexivity.
Qed.
Lemma joined_concat sep l : joined sep l = String.concat sep l.
Proof. induction l as [|x l IH]; [reflexivity|]. cbn [joined String.concat]. destruct l; [reflexivity|]. rewrite IH. reflexivity. Qed.
Lemma documentation_documents e : documents e (documentation e).
Proof. unfold documents, documentation. apply joined_concat. Qed.
Lemma names_it_defines tns local n e : names_it tns local n e = true <-> defines tns local n e.
Proof.
  unfold names_it, defines, called, declares, own_name. rewrite !andb_true_iff, !String.eqb_eq, xname_eqb_eq. destruct (e_name e) as [s l]. cbn [nspace nlocal].
  split; intros H; intuition congruence.
Qed.
Lemma Forall2_map_r {A B} (R : A -> B -> Prop) (f : A -> B) l : (forall a, R a (f a)) -> Forall2 R l (map f l).
Proof. intros H. induction l; constructor; auto. Qed.

(* messages *)
Lemma parse_message_reads tns e : reads_message tns e (parse_message tns e).
Proof.
  split; [reflexivity|]. exists (found wsdlNS "part" e). split; [apply found_in_order, wsdl_nz|]. cbn [parse_message ms_parts].
  apply Forall2_map_r. intros a. repeat split.
Qed.
Lemma reads_message_det tns e m m' : reads_message tns e m -> reads_message tns e m' -> m = m'.
Proof.
  intros (N1 & l1 & O1 & F1) (N2 & l2 & O2 & F2). rewrite (in_order_det _ _ _ _ O1 O2) in F1. destruct m as [n p], m' as [n' p']. cbn [ms_name ms_parts] in *.
  unfold declares in *. f_equal; [congruence|]. clear -F1 F2. revert p' F2. induction F1 as [|e x l p (A & B & C) F IH]; intros p' F2; inversion F2 as [|? y ? q (A' & B' & C') F']; subst; [reflexivity|].
  f_equal; auto. destruct x, y. cbn in *. unfold refers in *. congruence.
Qed.
Lemma messages_lookup tns l : forall acc n m,
  lookup n (fold_left (fun m el => let v := parse_message tns el in (ms_name v, v) :: m) l acc) = Some m <->
  (exists l1 e l2, l = (l1 ++ e :: l2)%list /\ own_name tns e = n /\ (forall e', In e' l2 -> own_name tns e' <> n) /\ m = parse_message tns e) \/
  ((forall e, In e l -> own_name tns e <> n) /\ lookup n acc = Some m).
Proof.
  induction l as [|a l IH]; intros acc n m; cbn [fold_left].
  { split; [intros H; right; split; [intros e []|auto]|]. intros [(l1 & e & l2 & E & _)|[_ H]]; [destruct l1; discriminate|auto]. }
  rewrite IH. cbn [lookup ms_name parse_message]. destruct (xname_eqb (own_name tns a) n) eqn:E.
  - apply xname_eqb_eq in E. split.
    + intros [(l1 & e & l2 & -> & H)|[H1 H2]].
      * left. exists (a :: l1), e, l2. auto.
      * left. exists [], a, l. split; [reflexivity|]. split; [auto|]. split; [auto|]. injection H2 as <-. reflexivity.
    + intros [(l1 & e & l2 & E2 & H1 & H2 & H3)|[H1 H2]].
      * destruct l1 as [|b l1]; injection E2 as -> ->; [right; split; [auto|]; subst m; reflexivity|left; exists l1, e, l2; auto].
      * exfalso. apply (H1 a); [left; reflexivity|auto].
  - assert (NE : own_name tns a <> n) by (intros H; apply xname_eqb_eq in H; congruence). split.
    + intros [(l1 & e & l2 & -> & H)|[H1 H2]]; [left; exists (a :: l1), e, l2; auto|right]. split; [|auto]. intros e [<-|HI]; auto.
    + intros [(l1 & e & l2 & E2 & H1 & H2 & H3)|[H1 H2]].
      * destruct l1 as [|b l1]; injection E2 as -> ->; [congruence|left; exists l1, e, l2; auto].
      * right. split; [intros e HI; apply H1; right; auto|auto].
Qed.
Theorem messages_spec upper root n m : lookup n (df_messages (parse_definition upper root)) = Some m <->
  exists l1 e l2, in_order root (called wsdlNS "message") (l1 ++ e :: l2) /\ declares (attr root "" "targetNamespace") e n /\
    (forall e', In e' l2 -> ~ declares (attr root "" "targetNamespace") e' n) /\ reads_message (attr root "" "targetNamespace") e m.
Proof.
  set (tns := attr root "" "targetNamespace").
  assert (EQ : df_messages (parse_definition upper root) = parse_messages tns root).
  { unfold parse_definition. fold tns. destruct (last_of _ _ _). reflexivity. }
  rewrite EQ. unfold parse_messages. rewrite messages_lookup. split.
  - intros [(l1 & e & l2 & E & H1 & H2 & ->)|[_ H]]; [|discriminate]. exists l1, e, l2. rewrite <- E.
    split; [apply found_in_order, wsdl_nz|]. split; [symmetry; exact H1|]. split; [|apply parse_message_reads].
    intros e' HI D. apply (H2 e' HI). symmetry. exact D.
  - intros (l1 & e & l2 & O & H1 & H2 & H3). left. exists l1, e, l2.
    split; [apply (in_order_det root (called wsdlNS "message")); [apply found_in_order, wsdl_nz|exact O]|]. split; [symmetry; exact H1|].
    split; [intros e' HI D; apply (H2 e' HI); symmetry; exact D|]. apply (reads_message_det tns e); [exact H3|apply parse_message_reads].
Qed.

(* operations *)
Lemma soap_action_acts b e : acts b e (soap_action b e).
Proof.
  set (els := search_func_elems (fun el => (xname_eqb (e_name el) (e_name e) && String.eqb (attr el "" "name") (attr e "" "name"))%bool) b).
  exists els, (map (found soapNS "operation") els).
  split; [apply in_order_search; intros x; rewrite andb_true_iff, xname_eqb_eq, String.eqb_eq; reflexivity|].
  split; [apply Forall2_map_r; intros a; apply found_in_order, soap_nz|].
  unfold soap_action. fold els. rewrite flat_map_concat_map. apply last_of_value.
Qed.
Lemma parse_operation_reads tns b e : reads_operation tns b e (parse_operation tns b e).
Proof.
  split; cbn [parse_operation op_doc op_name op_input op_output op_action].
  - apply documentation_documents.
  - reflexivity.
  - exists (found wsdlNS "input" e). split; [apply found_in_order, wsdl_nz|apply (last_of_value (fun i => resolved_attr i "message"))].
  - exists (found wsdlNS "output" e). split; [apply found_in_order, wsdl_nz|apply (last_of_value (fun i => resolved_attr i "message"))].
  - apply soap_action_acts.
Qed.
Definition offered tns root b := flat_map (fun t => map (parse_operation tns b) (found wsdlNS "operation" t)) (search_func_elems (names_it tns "portType" (resolved_attr b "type")) root).
Lemma offered_offers tns root b : offers tns root b (offered tns root b).
Proof.
  set (ts := search_func_elems (names_it tns "portType" (resolved_attr b "type")) root).
  exists ts, (map (fun t => map (parse_operation tns b) (found wsdlNS "operation" t)) ts).
  split; [apply in_order_search; intros x; apply names_it_defines|]. split; [|unfold offered; fold ts; apply flat_map_concat_map].
  apply Forall2_map_r. intros t. exists (found wsdlNS "operation" t). split; [apply found_in_order, wsdl_nz|]. apply Forall2_map_r. intros a. apply parse_operation_reads.
Qed.
Lemma verbs_first upper bs : method_of upper bs (match flat_map verbs bs with v :: _ => upper v | [] => "POST" end).
Proof.
  exists (map (found httpNS "binding") bs). split; [apply Forall2_map_r; intros a; apply found_in_order, http_nz|].
  rewrite <- flat_map_concat_map.
  assert (E : flat_map verbs bs = filter (fun v => negb (String.eqb v "")) (map (fun h => attr h "" "verb") (flat_map (found httpNS "binding") bs))).
  { induction bs as [|b bs IH]; [reflexivity|]. cbn [flat_map]. rewrite map_app, filter_app, IH. reflexivity. }
  rewrite E. clear E. induction (flat_map (found httpNS "binding") bs) as [|h l IH]; cbn [map filter].
  { right. split; [intros x []|reflexivity]. }
  destruct (String.eqb (attr h "" "verb") "") eqn:E; cbn [negb].
  - apply String.eqb_eq in E. destruct IH as [(l1 & x & l2 & -> & H1 & H2 & H3)|[H1 H2]].
    + left. exists (h :: l1), x, l2. split; [reflexivity|]. split; [|auto]. intros y [<-|HI]; auto.
    + right. split; [|exact H2]. intros x [<-|HI]; auto.
  - left. exists [], h, l. split; [reflexivity|]. split; [intros x []|]. split; [apply String.eqb_neq; exact E|reflexivity].
Qed.
Lemma address_addressed e : addressed e (last_of (fun a => attr a "" "location") (last_of (fun a => attr a "" "location") "" (found soapNS "address" e)) (found soap12NS "address" e)).
Proof.
  exists (found soap12NS "address" e), (found soapNS "address" e). split; [apply found_in_order, soap12_nz|]. split; [apply found_in_order, soap_nz|].
  destruct (found soap12NS "address" e) as [|x l] eqn:E; [exact (last_of_value (fun x => attr x "" "location") "" (found soapNS "address" e))|].
  set (z := last_of _ _ (found soapNS "address" e)). rewrite <- E. clearbody z.
  assert (G : forall l z z', l <> [] -> last_of (fun a => attr a "" "location") z l = last_of (fun a => attr a "" "location") z' l).
  { intros [|y l'] u v NZ; [congruence|]. reflexivity. }
  rewrite E, (G _ z ""), <- E by discriminate. apply last_of_value.
Qed.
Lemma parse_port_reads upper tns root e : reads_port upper tns root e (parse_port upper tns root e).
Proof.
  split; cbn [parse_port po_name po_address po_method po_ops]; [reflexivity|apply address_addressed|].
  exists (bindings tns root e), (map (offered tns root) (bindings tns root e)).
  split; [apply in_order_search; intros x; apply names_it_defines|]. split; [apply verbs_first|].
  split; [apply Forall2_map_r; intros b; apply offered_offers|]. unfold parse_operations. apply flat_map_concat_map.
Qed.
Lemma last_of_rev {A B} (f : A -> B) z l : last_of f z l = match rev l with [] => z | a :: _ => f a end.
Proof. induction l as [|a l _] using rev_ind; [reflexivity|]. unfold last_of. rewrite fold_left_app, rev_app_distr. reflexivity. Qed.
Theorem definition_spec upper root : reads_definition upper root (parse_definition upper root).
Proof.
  unfold parse_definition. rewrite last_of_rev.
  set (ss := found wsdlNS "service" root). assert (O : in_order root (called wsdlNS "service") ss) by apply found_in_order, wsdl_nz.
  destruct (rev ss) as [|s l] eqn:E; (split; [reflexivity|]); exists ss; (split; [exact O|]); rewrite E; cbn [df_doc df_ports df_tns]; [auto|].
  split; [apply documentation_documents|]. exists (found wsdlNS "port" s). split; [apply found_in_order, wsdl_nz|].
  apply Forall2_map_r. intros a. apply parse_port_reads.
Qed.

(* the usual case: one binding, one port type *)
Theorem one_binding upper tns root e p b t : reads_port upper tns root e p ->
  in_order root (defines tns "binding" (resolve (e_scope e) (attr e "" "binding"))) [b] ->
  in_order root (defines tns "portType" (resolve (e_scope b) (attr b "" "type"))) [t] ->
  exists es, in_order t (called wsdlNS "operation") es /\ Forall2 (reads_operation tns b) es (po_ops p).
Proof.
  intros R B T. destruct (rp_ops _ _ _ _ _ R) as (bs & ls & O & _ & F & E). rewrite (in_order_det _ _ _ _ O B) in F.
  inversion F as [|? o ? r OF F' E1 E2]; subst. inversion F'; subst. destruct OF as (ts & ms & OT & FT & ->). rewrite (in_order_det _ _ _ _ OT T) in FT.
  inversion FT as [|? l ? r (es & OE & FE) FT' E1 E2]; subst. inversion FT'; subst. exists es. split; [exact OE|].
  rewrite E. cbn [concat]. rewrite !app_nil_r. exact FE.
Qed.
Theorem no_binding upper tns root e p : reads_port upper tns root e p ->
  in_order root (defines tns "binding" (resolve (e_scope e) (attr e "" "binding"))) [] -> po_ops p = [] /\ po_method p = "POST".
Proof.
  intros R B. destruct (rp_ops _ _ _ _ _ R) as (bs & ls & O & M & F & E). rewrite (in_order_det _ _ _ _ O B) in F, M. inversion F; subst. split; [exact E|].
  destruct M as (hs & FH & [(l1 & h & l2 & EH & _)|[_ EM]]); [|exact EM]. inversion FH; subst. destruct l1; discriminate.
Qed.
Theorem one_action tns b e o x s : reads_operation tns b e o ->
  in_order b (fun y => e_name y = e_name e /\ attr y "" "name" = attr e "" "name") [x] -> in_order x (called soapNS "operation") [s] ->
  op_action o = attr s "" "soapAction".
Proof.
  intros R B X. destruct (ro_action _ _ _ _ R) as (els & sos & O & F & V). rewrite (in_order_det _ _ _ _ O B) in F.
  inversion F as [|? l ? r OX F' E1 E2]; subst. inversion F'; subst. rewrite (in_order_det _ _ _ _ OX X) in V. cbn [concat app] in V.
  apply (last_value_det _ _ _ _ _ V). apply (lv_last (fun s => attr s "" "soapAction") "" [] s).
Qed.
(* the reading is determined *)
Lemma documents_det e a b : documents e a -> documents e b -> a = b. Proof. unfold documents. congruence. Qed.
Lemma Forall2_det {A B} (R : A -> B -> Prop) l m m' : (forall a b b', R a b -> R a b' -> b = b') -> Forall2 R l m -> Forall2 R l m' -> m = m'.
Proof. intros D F. revert m'. induction F; intros m' G; inversion G; subst; [reflexivity|]. f_equal; [eapply D; eassumption|auto]. Qed.
Lemma message_of_det l e a b : message_of l e a -> message_of l e b -> a = b.
Proof. intros (x & O & V) (y & O' & V'). rewrite (in_order_det _ _ _ _ O O') in V. apply (last_value_det _ _ _ _ _ V V'). Qed.
Lemma acts_det b e x y : acts b e x -> acts b e y -> x = y.
Proof.
  intros (l & s & O & F & V) (l' & s' & O' & F' & V'). rewrite (in_order_det _ _ _ _ O O') in F.
  rewrite (Forall2_det _ _ _ _ (fun a b b' => in_order_det a _ b b') F F') in V. apply (last_value_det _ _ _ _ _ V V').
Qed.
Lemma reads_operation_det tns b e o o' : reads_operation tns b e o -> reads_operation tns b e o' -> o = o'.
Proof.
  intros [A1 A2 A3 A4 A5] [B1 B2 B3 B4 B5]. destruct o, o'. cbn in *.
  rewrite (documents_det _ _ _ A1 B1), (message_of_det _ _ _ _ A3 B3), (message_of_det _ _ _ _ A4 B4), (acts_det _ _ _ _ A5 B5). unfold declares in *. congruence.
Qed.
Lemma offers_det tns root b o o' : offers tns root b o -> offers tns root b o' -> o = o'.
Proof.
  intros (t & l & O & F & ->) (t' & l' & O' & F' & ->). rewrite (in_order_det _ _ _ _ O O') in F. f_equal.
  revert F F'. apply Forall2_det. intros a x y (es & OE & FE) (es' & OE' & FE'). rewrite (in_order_det _ _ _ _ OE OE') in FE.
  revert FE FE'. apply Forall2_det. intros. eapply reads_operation_det; eassumption.
Qed.
Lemma method_of_det upper bs m m' : method_of upper bs m -> method_of upper bs m' -> m = m'.
Proof.
  intros (h & F & D) (h' & F' & D'). rewrite (Forall2_det _ _ _ _ (fun a b b' => in_order_det a _ b b') F F') in D. clear F F'.
  revert D D'. generalize (concat h'). intros l.
  intros [(l1 & x & l2 & E & H1 & H2 & H3)|[H1 H2]] [(k1 & y & k2 & E' & G1 & G2 & G3)|[G1 G2]]; subst; auto.
  - assert (l1 = k1 /\ x = y) as [_ ->]; [|reflexivity]. revert k1 E' G1. induction l1 as [|a l1 IH]; intros [|c k1] E' G1; cbn in E'; injection E' as E1 E2; subst.
    + auto.
    + exfalso. apply H2, G1. left. reflexivity.
    + exfalso. apply G2, H1. left. reflexivity.
    + destruct (IH (fun x0 HI => H1 x0 (or_intror HI)) k1 E2 (fun x0 HI => G1 x0 (or_intror HI))) as [-> ->]. auto.
  - exfalso. apply H2, G1, in_or_app. right. left. reflexivity.
  - exfalso. apply G2, H1, in_or_app. right. left. reflexivity.
Qed.
Lemma addressed_det e a b : addressed e a -> addressed e b -> a = b.
Proof.
  intros (x & y & O & P & M) (x' & y' & O' & P' & M'). rewrite (in_order_det _ _ _ _ O O'), (in_order_det _ _ _ _ P P') in M.
  destruct x'; apply (last_value_det _ _ _ _ _ M M').
Qed.
Lemma reads_port_det upper tns root e p p' : reads_port upper tns root e p -> reads_port upper tns root e p' -> p = p'.
Proof.
  intros [A1 A2 (bs & ls & A3 & A4 & A5 & A6)] [B1 B2 (bs' & ls' & B3 & B4 & B5 & B6)]. destruct p, p'. cbn in *. subst.
  rewrite (in_order_det _ _ _ _ A3 B3) in A4, A5. rewrite (addressed_det _ _ _ A2 B2), (method_of_det _ _ _ _ A4 B4). f_equal. f_equal.
  revert A5 B5. apply Forall2_det. intros. eapply offers_det; eassumption.
Qed.
Theorem definition_det upper root d : reads_definition upper root d -> df_doc d = df_doc (parse_definition upper root) /\ df_ports d = df_ports (parse_definition upper root).
Proof.
  destruct (definition_spec upper root) as (T & ss & O & M). intros (T' & ss' & O' & M'). rewrite (in_order_det _ _ _ _ O' O) in M'. rewrite T' in M'. rewrite T in M.
  destruct (rev ss) as [|s r]; [destruct M, M'; split; congruence|]. destruct M as (D & ps & OP & F), M' as (D' & ps' & OP' & F').
  split; [apply (documents_det s); auto|]. rewrite (in_order_det _ _ _ _ OP' OP) in F'. revert F' F. apply Forall2_det. intros. eapply reads_port_det; eassumption.
Qed.
