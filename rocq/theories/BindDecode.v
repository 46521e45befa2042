(* Reading a document into a struct, field by field. *)
From Verif Require Import Base ScopeModel TreeModel EqualModel BuiltinModel XsdModel XsdProofs TypesModel TypesProofs GenModel SgModel SgStruct SgProofs SgNames SgTags BindModel BindSpec BindProofs BindGen BindGenSpec BindStruct.
Local Open Scope string_scope.

Section Updates.
  Variable V : Type.
  Definition upd (vs : list V) (u : nat * (V -> option V)) : option (list V) :=
    match nth_error vs (fst u) with Some w => match snd u w with Some w' => Some (set_nth (fst u) w' vs) | None => None end | None => None end.
  Definition own (j : nat) (ups : list (nat * (V -> option V))) : list (V -> option V) := map snd (filter (fun u => Nat.eqb (fst u) j) ups).
  Lemma updates ups : forall vs new, Forall (fun u => fst u < List.length vs) ups ->
    (foldo upd vs ups = Some new <-> List.length new = List.length vs /\ forall j w, nth_error vs j = Some w -> exists w', nth_error new j = Some w' /\ foldo (fun w f => f w) w (own j ups) = Some w').
  Proof.
    induction ups as [|[j0 f] ups IH]; intros vs new B.
    - cbn. split; [intros [= <-]; split; [reflexivity|]; intros j w H; exists w; auto|]. intros [L H]. f_equal. apply nth_ext_eq. intros j. destruct (nth_error vs j) as [w|] eqn:E; [destruct (H j w E) as (w' & -> & [= <-]); reflexivity|]. symmetry. apply nth_error_None. apply nth_error_None in E. lia.
    - inversion B as [|? ? B1 B2]; subst. cbn [fst] in B1. cbn [foldo]. unfold upd at 1. cbn [fst snd]. destruct (nth_error vs j0) as [w0|] eqn:E0; [|apply nth_error_None in E0; lia].
      assert (Oj : own j0 ((j0, f) :: ups) = f :: own j0 ups) by (unfold own; cbn [filter fst]; rewrite Nat.eqb_refl; reflexivity).
      assert (Ok : forall k, k <> j0 -> own k ((j0, f) :: ups) = own k ups). { intros k N. unfold own. cbn [filter fst]. destruct (Nat.eqb_spec j0 k); [congruence|reflexivity]. }
      destruct (f w0) as [w1|] eqn:F.
      + rewrite (IH (set_nth j0 w1 vs) new); [|rewrite set_nth_length; exact B2]. rewrite set_nth_length. split; intros [L H]; (split; [exact L|]); intros k w Hk.
        * destruct (Nat.eq_dec k j0) as [->|N].
          -- assert (w = w0) as -> by congruence. destruct (H j0 w1) as (w' & H1 & H2); [rewrite nth_error_set_nth, Nat.eqb_refl by exact B1; reflexivity|]. exists w'. split; [exact H1|]. rewrite Oj. cbn [foldo]. rewrite F. exact H2.
          -- destruct (H k w) as (w' & H1 & H2); [rewrite nth_error_set_nth by exact B1; destruct (Nat.eqb_spec k j0); [congruence|exact Hk]|]. exists w'. rewrite Ok by exact N. auto.
        * rewrite nth_error_set_nth in Hk by exact B1. destruct (Nat.eqb_spec k j0) as [->|N].
          -- injection Hk as <-. destruct (H j0 w0 E0) as (w' & H1 & H2). exists w'. split; [exact H1|]. rewrite Oj in H2. cbn [foldo] in H2. rewrite F in H2. exact H2.
          -- destruct (H k w Hk) as (w' & H1 & H2). exists w'. rewrite Ok in H2 by exact N. auto.
      + split; [discriminate|]. intros [_ H]. destruct (H j0 w0 E0) as (w' & _ & H2). rewrite Oj in H2. cbn [foldo] in H2. rewrite F in H2. discriminate.
  Qed.
  Lemma own_app j l m : own j (l ++ m) = (own j l ++ own j m)%list.
  Proof. unfold own. rewrite filter_app, map_app. reflexivity. Qed.
  Lemma own_flat {A} j (g : A -> list (nat * (V -> option V))) l : own j (flat_map g l) = flat_map (fun a => own j (g a)) l.
  Proof. induction l as [|a l IH]; [reflexivity|]. cbn [flat_map]. rewrite own_app, IH. reflexivity. Qed.
  Lemma own_none j l : (forall u, In u l -> fst u <> j) -> own j l = [].
  Proof. intros H. unfold own. rewrite filter_none; [reflexivity|]. intros u U. apply Nat.eqb_neq. exact (H u U). Qed.
End Updates.
Lemma flat_filter {A B} (p : A -> bool) (g : A -> list B) (h : A -> B) l : (forall a, In a l -> g a = if p a then [h a] else []) -> flat_map g l = map h (filter p l).
Proof.
  induction l as [|a l IH]; intros H; [reflexivity|]. cbn [flat_map filter]. rewrite (H a (or_introl eq_refl)), IH by (intros; apply H; right; assumption). destruct (p a); reflexivity.
Qed.
Lemma foldo_map {A B C} (f : A -> B -> option A) (h : C -> B) l : forall a, foldo f a (map h l) = foldo (fun a c => f a (h c)) a l.
Proof. induction l as [|c l IH]; intros a; [reflexivity|]. cbn [map foldo]. destruct (f a (h c)); [apply IH|reflexivity]. Qed.

Section Decode.
  Variable exported : string -> bool.
  Variable structs : string -> option spec.
  Variable Leaf : Type.
  Variable read : string -> Leaf -> string -> option Leaf.
  Variable zero : gexpr -> val Leaf.
  Notation val := (val Leaf).
  Notation unmarshal := (unmarshal exported structs Leaf read zero).
  Notation attr_into := (attr_into structs Leaf read zero).
  Notation leaf_into := (leaf_into Leaf read).
  Notation step_attr := (step_attr structs Leaf read zero).
  Notation step_kid := (step_kid Leaf).
  Notation step_text := (step_text Leaf read).
  (* the three phases as one list of updates *)
  Definition attr_ups (us : list finfo) (attrs : list xattr) : list (nat * (val -> option val)) :=
    flat_map (fun a => map (fun i => (fi_idx i, attr_into (avalue a) (fi_type i))) (filter (fun i => (is_attr i && matches (aname a) i)%bool) us)) attrs.
  Definition kid_ups (us : list finfo) (kids : list node) : list (nat * (val -> option val)) :=
    flat_map (fun k => match k with NText _ => [] | NElem n _ _ => match target us n with Some i => [(fi_idx i, unmarshal k (fi_type i))] | None => [] end end) kids.
  Definition text_ups (us : list finfo) (data : string) : list (nat * (val -> option val)) :=
    match find is_text us with Some i => [(fi_idx i, fun w => leaf_into (fi_type i) w data)] | None => [] end.
  Lemma attrs_upd us attrs : forall vs, foldo (step_attr us) vs attrs = foldo (upd val) vs (attr_ups us attrs).
  Proof.
    induction attrs as [|a attrs IH]; intros vs; [reflexivity|]. unfold attr_ups. cbn [foldo flat_map]. rewrite foldo_app.
    assert (E : step_attr us vs a = foldo (upd val) vs (map (fun i => (fi_idx i, attr_into (avalue a) (fi_type i))) (filter (fun i => (is_attr i && matches (aname a) i)%bool) us))).
    { unfold BindModel.step_attr. rewrite foldo_map. rewrite (foldo_filter _ (fun i => (is_attr i && matches (aname a) i)%bool)); [|intros b x _ ->; reflexivity].
      clear IH. revert vs. induction us as [|i us IHu]; intros vs; [reflexivity|]. cbn [filter]. destruct (is_attr i && matches (aname a) i)%bool eqn:M; [|apply IHu]. cbn [foldo]. rewrite M. unfold update, upd at 1. cbn [fst snd].
      destruct (nth_error vs (fi_idx i)) as [w|]; [|reflexivity]. destruct (attr_into (avalue a) (fi_type i) w); [apply IHu|reflexivity]. }
    rewrite <- E. destruct (step_attr us vs a); [apply IH|reflexivity].
  Qed.
  Lemma kids_upd us kids : forall vs, foldo (step_kid us) vs (combine kids (map unmarshal kids)) = foldo (upd val) vs (kid_ups us kids).
  Proof.
    induction kids as [|k kids IH]; intros vs; [reflexivity|]. unfold kid_ups. cbn [map combine foldo flat_map]. rewrite foldo_app. unfold BindModel.step_kid at 1. cbn [fst snd]. destruct k as [s|n a ks]; [apply IH|].
    destruct (target us n) as [i|]; [|apply IH]. cbn [foldo]. change (update Leaf vs (fi_idx i) (unmarshal (NElem n a ks) (fi_type i))) with (upd val vs (fi_idx i, unmarshal (NElem n a ks) (fi_type i))). destruct (upd val vs (fi_idx i, unmarshal (NElem n a ks) (fi_type i))); [apply IH|reflexivity].
  Qed.
  Lemma text_upd us data vs : step_text us data vs = foldo (upd val) vs (text_ups us data).
  Proof.
    unfold BindModel.step_text, text_ups. destruct (find is_text us) as [i|]; [|reflexivity]. cbn [foldo]. unfold update, upd. cbn [fst snd]. destruct (nth_error vs (fi_idx i)) as [w|]; [|reflexivity]. destruct (leaf_into (fi_type i) w data); reflexivity.
  Qed.
  Lemma unmarshal_struct n s us m attrs kids vs : structs n = Some s -> unmarshal_info exported s = Some us ->
    unmarshal (NElem m attrs kids) (EId n) (VStruct _ vs) = option_map (VStruct _) (foldo (upd val) vs (attr_ups us attrs ++ kid_ups us kids ++ text_ups us (texts kids))).
  Proof.
    intros H U. cbn [BindModel.unmarshal]. rewrite (into_id structs Leaf zero). cbn [struct_of]. rewrite H, U, !foldo_app, attrs_upd. destruct (foldo (upd val) vs (attr_ups us attrs)) as [v1|]; [|reflexivity].
    rewrite kids_upd, foldo_app. destruct (foldo (upd val) v1 (kid_ups us kids)) as [v2|]; [|reflexivity]. rewrite text_upd. reflexivity.
  Qed.

  (* ---------- a generated struct ---------- *)
  Variable public : xname -> string.
  Variable fa : option (attribute -> bool).
  Variable fe : option (element -> bool).
  Variable helpers : list Z.
  Variable declares : xattr -> bool.
  Hypothesis Hfree : names_free public structs.
  Lemma named_matches i key n : fi_ns i = nspace key -> fi_name i = nlocal key -> matches n i = named key n.
  Proof. intros H1 H2. unfold matches, named. rewrite H1, H2. reflexivity. Qed.
  Lemma apart_match i j n : apart_names i j -> matches n i = true -> matches n j = true -> False.
  Proof.
    unfold apart_names, matches. rewrite !andb_true_iff, !Bool.orb_true_iff, !String.eqb_eq. intros [H|(H1 & H2 & H3)] [A1 A2] [B1 B2]; [congruence|]. destruct A2, B2; congruence.
  Qed.
  Definition slots (n : nat) (els : list element) (ats : list attribute) : list slot := (repeat SText n ++ map SElem els ++ map SAttr ats)%list.
  Theorem decoded n s st i c : structs n = Some s -> generated_from public exported structs declares fa fe helpers s st i c ->
    let (ats, els) := filter_fields fa fe (inherit st c) in
    (forall a b e e', nth_error els a = Some e -> nth_error els b = Some e' -> el_wild e = true -> el_wild e' = true -> a = b) ->
    exists fs t, sp_struct s = Some fs /\ List.length fs = t + List.length els + List.length ats /\ t <= 1 /\ (ct_mixed c = false -> t = 0) /\
    forall m attrs kids old v, List.length old = List.length fs ->
      (unmarshal (NElem m attrs kids) (EId n) (VStruct _ old) = Some v <->
       exists new, v = VStruct _ new /\ List.length new = List.length old /\
         forall j sl f w, nth_error (slots t els ats) j = Some sl -> nth_error fs j = Some f -> nth_error old j = Some w ->
           exists w', nth_error new j = Some w' /\ slot_value exported structs Leaf read zero els attrs kids (as_type s f) sl w = Some w').
  Proof.
    intros Hs (st' & G & C). destruct Hfree as (Hpub & Htime & Hhelp). pose proof (generated_parts public fa fe helpers Hpub exported structs declares Htime Hhelp st i c st' s G C) as P.
    destruct (filter_fields fa fe (inherit st c)) as [ats els]. intros Hwild. destruct P as (cs & es & fs' & fs & P1 & P2 & P3 & P4 & P5 & P50 & P51 & P6 & P7 & P8 & P9 & P10 & P11 & P12 & P13).
    assert (Lfs : List.length fs = List.length cs + List.length els + List.length ats) by (rewrite P1, !app_length; lia).
    exists fs, (List.length cs). split; [exact P2|]. split; [exact Lfs|]. split; [exact P3|]. split; [intros Hm; rewrite (P4 Hm); reflexivity|].
    destruct (infos_ok exported fs P6 P7 P8 (keys_differ fs P9) (sp_overrides s)) as (us & d & E1 & N1 & A1 & F1 & _).
    { intros o Ho. destruct (P10 o Ho) as (f & Q1 & Q2 & Q3 & _). exists f. auto. } { exact P11. }
    rewrite Forall_forall in F1. assert (Ui : unmarshal_info exported s = Some us) by (unfold unmarshal_info; rewrite P2; exact E1).
    (* what is known of an entry *)
    assert (En : forall u, In u us -> exists f x, nth_error fs (fi_idx u) = Some f /\ says f x /\ same_key u x /\ fi_type u = as_type s f).
    { intros u Hu. destruct (F1 u Hu) as (f & x & X1 & X2 & X3 & X4 & X5). exists f, x. split; [exact X1|]. split; [exact X2|]. split; [exact X3|]. unfold as_type. destruct X5 as [(_ & _ & Z2 & Z3)|(_ & _ & o & Z2 & Z3 & Z4)].
      - destruct (find (fun o => String.eqb (ov_field o) (sf_name f)) (sp_overrides s)) as [o|] eqn:Fo; [|exact Z2]. apply find_some in Fo as [Fo1 Fo2]. apply String.eqb_eq in Fo2. destruct (Z3 o Fo1 Fo2).
      - rewrite (find_unique (fun o => String.eqb (ov_field o) (sf_name f)) (sp_overrides s) o Z2); [exact Z4|apply String.eqb_eq; exact Z3|]. intros w Hw Ew. apply String.eqb_eq in Ew. apply (map_nodup_inj ov_field (sp_overrides s)); auto. congruence. }
    assert (Inj : forall u w, In u us -> In w us -> fi_idx u = fi_idx w -> u = w) by (intros u w; apply map_nodup_inj; exact N1).
    (* kinds of entries *)
    assert (Kind : forall u, In u us -> (fi_idx u < List.length cs /\ fi_mode u = MText) \/
      (List.length cs <= fi_idx u < List.length cs + List.length els /\ is_elem u = true /\ exists e, nth_error els (fi_idx u - List.length cs) = Some e /\ is_any u = el_wild e /\ forall m, matches m u = named (el_key e) m) \/
      (List.length cs + List.length els <= fi_idx u /\ fi_mode u = MAttr /\ exists a, nth_error ats (fi_idx u - List.length cs - List.length els) = Some a /\ forall m, matches m u = named (at_key a) m)).
    { intros u Hu. destruct (En u Hu) as (f & x & X1 & X2 & (X3 & X31 & X32) & _). destruct (P51 (fi_idx u) f x X1 X2) as [(Y1 & Y2 & _)|[(Y0 & Y1 & Y2 & e & Y3 & Y4 & _ & Y6 & Y7)|(Y1 & Y2 & a & Y3 & Y4 & Y5 & _)]].
      - left. split; [exact Y1|congruence].
      - right. left. split; [lia|]. split; [unfold is_elem in *; rewrite X3; exact Y2|]. exists e. split; [exact Y3|]. split; [unfold is_any in *; rewrite X3; exact Y4|]. intros m. apply named_matches; congruence.
      - right. right. split; [lia|]. split; [congruence|]. exists a. split; [rewrite P5 in Y3; exact Y3|]. intros m. apply named_matches; congruence. }
    (* the entry of an element *)
    assert (Ent : forall j, j < List.length fs -> exists u, In u us /\ fi_idx u = j) by (intros j Lj; destruct (nth_error fs j) as [f|] eqn:J; [exact (A1 j f J)|apply nth_error_None in J; lia]).
    assert (ElApart : forall u w m, In u us -> In w us -> is_elem u = true -> is_elem w = true -> matches m u = true -> matches m w = true -> u = w).
    { intros u w m Hu Hw Eu Ew Mu Mw. apply Inj; auto. destruct (Nat.eq_dec (fi_idx u) (fi_idx w)) as [E|N]; [exact E|exfalso].
      destruct (En u Hu) as (f & x & X1 & X2 & (X3 & X31 & X32) & _). destruct (En w Hw) as (g & y & Y1 & Y2 & (Y3 & Y31 & Y32) & _). destruct (P9 _ _ f g x y X1 Y1 X2 Y2 N) as (Q & _).
      apply (apart_match x y m); [apply Q; unfold is_elem in *; congruence| |]; unfold matches in *; congruence. }
    assert (Tg : forall u m, In u us -> is_elem u = true -> forall e, nth_error els (fi_idx u - List.length cs) = Some e -> is_any u = el_wild e -> (forall m, matches m u = named (el_key e) m) ->
      match target us m with Some w => if Nat.eqb (fi_idx w) (fi_idx u) then (named (el_key e) m || (el_wild e && negb (existsb (fun e' => named (el_key e') m) els)))%bool = true /\ w = u
                                       else (named (el_key e) m || (el_wild e && negb (existsb (fun e' => named (el_key e') m) els)))%bool = false
                         | None => (named (el_key e) m || (el_wild e && negb (existsb (fun e' => named (el_key e') m) els)))%bool = false end).
    { intros u m Hu Eu e Je Wu Mu. unfold target. destruct (find (fun i => (is_elem i && matches m i)%bool) us) as [w|] eqn:Fw.
      - apply find_some in Fw as [Hw Fw]. apply andb_true_iff in Fw as [Ew Mw]. destruct (Nat.eqb_spec (fi_idx w) (fi_idx u)) as [Ei|Ni].
        + apply Inj in Ei; auto. subst w. rewrite <- Mu, Mw. auto.
        + assert (Nm : named (el_key e) m = false). { rewrite <- Mu. apply Bool.not_true_iff_false. intros X. apply Ni. f_equal. exact (ElApart w u m Hw Hu Ew Eu Mw X). }
          rewrite Nm. cbn [orb]. destruct (Kind w Hw) as [(_ & K)|[(K0 & _ & e' & K1 & _ & K2)|(_ & K & _)]]; [unfold is_elem in Ew; rewrite K in Ew; discriminate| |unfold is_elem in Ew; rewrite K in Ew; discriminate].
          assert (Ex : existsb (fun e' => named (el_key e') m) els = true) by (apply existsb_exists; exists e'; split; [exact (nth_error_In _ _ K1)|rewrite <- K2; exact Mw]). rewrite Ex. apply Bool.andb_false_r.
      - assert (None_ : forall e', In e' els -> named (el_key e') m = false).
        { intros e' He'. apply In_nth_error in He' as [k K]. assert (k < List.length els) by (apply nth_error_Some; congruence). destruct (Ent (List.length cs + k)) as (w & Hw & Iw); [lia|].
          destruct (Kind w Hw) as [(K0 & _)|[(K0 & K3 & e2 & K1 & _ & K2)|(K0 & _)]]; [lia| |lia]. assert (e2 = e') as -> by (replace (fi_idx w - List.length cs) with k in K1 by lia; congruence).
          rewrite <- K2. pose proof (find_none _ _ Fw w Hw) as X. cbn beta in X. rewrite K3 in X. exact X. }
        rewrite (None_ e (nth_error_In _ _ Je)). assert (Ex : existsb (fun e' => named (el_key e') m) els = false). { apply Bool.not_true_iff_false. intros X. apply existsb_exists in X as (e' & X1 & X2). rewrite (None_ e' X1) in X2. discriminate. }
        rewrite Ex. cbn [orb negb]. rewrite Bool.andb_true_r. destruct (find is_any us) as [w|] eqn:Fa.
        + apply find_some in Fa as [Hw Fa]. destruct (Kind w Hw) as [(_ & K)|[(K0 & _ & e' & K1 & K2 & _)|(_ & K & _)]]; [unfold is_any in Fa; rewrite K in Fa; discriminate| |unfold is_any in Fa; rewrite K in Fa; discriminate].
          destruct (Nat.eqb_spec (fi_idx w) (fi_idx u)) as [Ei|Ni]; [apply Inj in Ei; auto; subst w; split; [congruence|reflexivity]|].
          destruct (el_wild e) eqn:We; [|reflexivity]. exfalso. apply Ni. assert (We' : el_wild e' = true) by congruence. pose proof (Hwild _ _ _ _ K1 Je We' We) as X.
          destruct (Kind u Hu) as [(_ & K)|[(K3 & _)|(_ & K & _)]]; [unfold is_elem in Eu; rewrite K in Eu; discriminate|lia|unfold is_elem in Eu; rewrite K in Eu; discriminate].
        + rewrite <- Wu. exact (find_none _ _ Fa u Hu). }
    intros m attrs kids old v Lo. rewrite (unmarshal_struct n s us m attrs kids old Hs Ui).
    set (ups := (attr_ups us attrs ++ kid_ups us kids ++ text_ups us (texts kids))%list).
    assert (Bd : Forall (fun u => fst u < List.length old) ups).
    { rewrite Lo. assert (B : forall u, In u us -> fi_idx u < List.length fs) by (intros u Hu; destruct (En u Hu) as (f & x & X1 & _); apply nth_error_Some; congruence).
      apply Forall_forall. intros [j g] Hu. cbn [fst]. unfold ups in Hu. rewrite !in_app_iff in Hu. destruct Hu as [Hu|[Hu|Hu]].
      - apply in_flat_map in Hu as (a & _ & Hu). apply in_map_iff in Hu as (u & [= <- _] & Hu). apply filter_In in Hu as [Hu _]. exact (B u Hu).
      - apply in_flat_map in Hu as (k & _ & Hu). destruct k as [|nm ka kk]; [destruct Hu|]. destruct (target us nm) as [w|] eqn:T; [|destruct Hu]. destruct Hu as [[= <- _]|[]]. apply B. unfold target in T. destruct (find (fun i => (is_elem i && matches nm i)%bool) us) eqn:Q; [injection T as ->; apply find_some in Q; apply Q|apply find_some in T; apply T].
      - unfold text_ups in Hu. destruct (find is_text us) as [w|] eqn:T; [|destruct Hu]. destruct Hu as [[= <- _]|[]]. apply find_some in T. apply B, T. }
    assert (Slot : forall j sl f w, nth_error (slots (List.length cs) els ats) j = Some sl -> nth_error fs j = Some f ->
      foldo (fun w f => f w) w (own val j ups) = slot_value exported structs Leaf read zero els attrs kids (as_type s f) sl w).
    { intros j sl f w Hsl Hf. destruct (A1 j f Hf) as (u & Hu & Iu). destruct (En u Hu) as (f' & x & X1 & X2 & X3 & X4). rewrite Iu in X1. assert (f' = f) as -> by congruence.
      unfold ups. rewrite !own_app. assert (Lc : List.length (repeat SText (List.length cs)) = List.length cs) by apply repeat_length.
      (* updates of other entries *)
      assert (Oa : is_attr u = false -> own val j (attr_ups us attrs) = []).
      { intros Na. apply own_none. intros z Hz. unfold attr_ups in Hz. apply in_flat_map in Hz as (a & _ & Hz). apply in_map_iff in Hz as (q & <- & Hz). apply filter_In in Hz as [Hq Mq]. apply andb_true_iff in Mq as [Mq _]. cbn [fst]. intros E. assert (q = u) by (apply Inj; auto; congruence). congruence. }
      assert (Ok : is_elem u = false -> own val j (kid_ups us kids) = []).
      { intros Na. apply own_none. intros z Hz. unfold kid_ups in Hz. apply in_flat_map in Hz as (k & _ & Hz). destruct k as [|nm ka kk]; [destruct Hz|]. destruct (target us nm) as [q|] eqn:T; [|destruct Hz]. destruct Hz as [<-|[]]. cbn [fst]. intros E.
        assert (Q : In q us /\ is_elem q = true). { unfold target in T. destruct (find (fun i => (is_elem i && matches nm i)%bool) us) as [r|] eqn:R; [injection T as ->; apply find_some in R as [R1 R2]; apply andb_true_iff in R2; split; [exact R1|apply R2]|apply find_some in T as [T1 T2]; split; [exact T1|unfold is_elem, is_any in *; rewrite T2; apply Bool.orb_true_r]]. }
        destruct Q as [Q1 Q2]. assert (q = u) by (apply Inj; auto; congruence). congruence. }
      assert (Ot : is_text u = false -> own val j (text_ups us (texts kids)) = []).
      { intros Na. apply own_none. intros z Hz. unfold text_ups in Hz. destruct (find is_text us) as [q|] eqn:T; [|destruct Hz]. destruct Hz as [<-|[]]. apply find_some in T as [T1 T2]. cbn [fst]. intros E. assert (q = u) by (apply Inj; auto; congruence). congruence. }
      destruct (Kind u Hu) as [(K1 & K2)|[(K1 & K2 & e & K3 & K4 & K5)|(K1 & K2 & a & K3 & K4)]]; rewrite Iu in K1.
      - unfold slots in Hsl. rewrite nth_error_app1 in Hsl by (rewrite Lc; exact K1). apply nth_error_In, repeat_spec in Hsl as ->.
        assert (Tu : is_text u = true) by (unfold is_text; rewrite K2; reflexivity). rewrite Oa, Ok by (unfold is_attr, is_elem; rewrite K2; reflexivity). cbn [app].
        unfold text_ups. rewrite (find_unique is_text us u Hu Tu). 2:{ intros q Hq Tq. destruct (Kind q Hq) as [(Q1 & _)|[(_ & Q1 & _)|(_ & Q1 & _)]]; [|unfold is_text, is_elem in *; destruct (fi_mode q); discriminate|unfold is_text in Tq; rewrite Q1 in Tq; discriminate]. apply Inj; auto. lia. }
        unfold own. cbn [filter fst map snd]. rewrite Iu, Nat.eqb_refl. cbn [map snd foldo slot_value]. rewrite X4. destruct (leaf_into (as_type s f) w (texts kids)); reflexivity.
      - unfold slots in Hsl. rewrite nth_error_app2, Lc, nth_error_app1 in Hsl by (rewrite ?Lc, ?map_length; lia). rewrite nth_error_map in Hsl. rewrite Iu in K3. rewrite K3 in Hsl. injection Hsl as <-.
        rewrite Oa by (unfold is_attr, is_elem in *; destruct (fi_mode u); try reflexivity; discriminate K2). rewrite Ot by (unfold is_text, is_elem in *; destruct (fi_mode u); try reflexivity; discriminate K2). cbn [app]. rewrite app_nil_r. cbn [slot_value].
        unfold kid_ups. rewrite own_flat. rewrite (flat_filter (belongs els e) _ (fun k => unmarshal k (as_type s f))); [apply foldo_map|]. intros k _. destruct k as [tx|nm ka kk]; [reflexivity|]. cbn [belongs].
        rewrite <- Iu in K3. pose proof (Tg u nm Hu K2 e K3 K4 K5) as T. destruct (target us nm) as [q|]; [|rewrite T; reflexivity]. unfold own. cbn [filter fst]. rewrite Iu in T. destruct (Nat.eqb (fi_idx q) j); [destruct T as [-> ->]; cbn [map snd]; rewrite X4; reflexivity|rewrite T; reflexivity].
      - unfold slots in Hsl. rewrite nth_error_app2, Lc, nth_error_app2, map_length in Hsl by (rewrite ?Lc, ?map_length; lia). rewrite nth_error_map in Hsl. rewrite Iu in K3. rewrite K3 in Hsl. injection Hsl as <-.
        rewrite Ok, Ot by (unfold is_text, is_elem; rewrite K2; reflexivity). rewrite app_nil_r. cbn [slot_value]. unfold attr_ups. rewrite own_flat. rewrite (flat_filter (fun x => named (at_key a) (aname x)) _ (fun x => attr_into (avalue x) (as_type s f))); [apply foldo_map|].
        intros y _. rewrite <- K4. assert (Au : is_attr u = true) by (unfold is_attr; rewrite K2; reflexivity).
        assert (Gen : forall l, (forall q, In q l -> In q us) -> NoDup (map fi_idx l) -> own val j (map (fun i0 => (fi_idx i0, attr_into (avalue y) (fi_type i0))) (filter (fun i0 => (is_attr i0 && matches (aname y) i0)%bool) l)) = if (existsb (fun q => Nat.eqb (fi_idx q) j) l && matches (aname y) u)%bool then [attr_into (avalue y) (as_type s f)] else []).
        { induction l as [|q l IH]; intros Hl Nl; [reflexivity|]. inversion Nl as [|? ? Nl1 Nl2]; subst. cbn [filter existsb]. destruct (Nat.eqb_spec (fi_idx q) (fi_idx u)) as [Eq|Nq].
          - assert (q = u) as -> by (apply Inj; auto; apply Hl; left; reflexivity). rewrite Au. cbn [andb orb].
            assert (Rest : own val (fi_idx u) (map (fun i0 => (fi_idx i0, attr_into (avalue y) (fi_type i0))) (filter (fun i0 => (is_attr i0 && matches (aname y) i0)%bool) l)) = []).
            { apply own_none. intros z Hz. apply in_map_iff in Hz as (q & <- & Hz). apply filter_In in Hz as [Hz _]. cbn [fst]. intros E. apply Nl1. rewrite <- E. apply in_map. exact Hz. }
            destruct (matches (aname y) u); [|exact Rest]. cbn [map]. unfold own in *. cbn [filter fst]. rewrite Nat.eqb_refl. cbn [map snd]. rewrite Rest, X4. reflexivity.
          - cbn [orb]. rewrite <- IH by (auto; intros; apply Hl; right; assumption). destruct (is_attr q && matches (aname y) q)%bool; [|reflexivity]. cbn [map]. unfold own. cbn [filter fst]. destruct (Nat.eqb_spec (fi_idx q) (fi_idx u)); [congruence|reflexivity]. }
        rewrite (Gen us (fun q H => H) N1). assert (Ex : existsb (fun q => Nat.eqb (fi_idx q) j) us = true) by (apply existsb_exists; exists u; split; [exact Hu|apply Nat.eqb_eq; exact Iu]). rewrite Ex. reflexivity. }
    split.
    - destruct (foldo (upd val) old ups) as [new|] eqn:E; [|discriminate]. intros [= <-]. apply updates in E as [E1' E2]; [|exact Bd]. exists new. split; [reflexivity|]. split; [exact E1'|]. intros j sl f w H1 H2 H3. destruct (E2 j w H3) as (w' & W1 & W2). exists w'. split; [exact W1|]. rewrite <- (Slot j sl f w H1 H2). exact W2.
    - intros (new & -> & L1 & H). assert (E : foldo (upd val) old ups = Some new).
      { apply updates; [exact Bd|]. split; [exact L1|]. intros j w Hw. assert (Lj : j < List.length fs) by (rewrite <- Lo; apply nth_error_Some; congruence). destruct (nth_error fs j) as [f|] eqn:Hf; [|apply nth_error_None in Hf; lia].
        destruct (nth_error (slots (List.length cs) els ats) j) as [sl|] eqn:Hsl; [|apply nth_error_None in Hsl; unfold slots in Hsl; rewrite !app_length, repeat_length, !map_length in Hsl; lia].
        destruct (H j sl f w Hsl Hf Hw) as (w' & W1 & W2). exists w'. split; [exact W1|]. rewrite (Slot j sl f w Hsl Hf). exact W2. }
      rewrite E. reflexivity.
  Qed.
End Decode.
