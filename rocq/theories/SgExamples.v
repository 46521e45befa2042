(* Cases for the theorems in PropsSg.v, and field names as a whole. *)
From Verif Require Import Base SortLib ScopeModel TreeModel EqualModel Utf8 Decimal BuiltinModel CodecModel XsdModel TypesModel TypesProofs GraphModel GenModel SgModel SgStruct SgProofs SgNames SgTags SgDecl.
Local Open Scope string_scope.

(* ---------- the names of all fields, when no wildcard is among them ---------- *)
Fixpoint allot_end (public : xname -> string) (taken : list string) (rs : list request) : list string :=
  match rs with [] => taken | r :: rs' => allot_end public (fst (allot public taken r)) rs' end.
Lemma allot_all_app public rs : forall taken rs', allot_all public taken (rs ++ rs') = (allot_all public taken rs ++ allot_all public (allot_end public taken rs) rs')%list.
Proof.
  induction rs as [|r rs IH]; intros taken rs'; [reflexivity|]. cbn [app allot_all allot_end]. destruct (allot public taken r) as [t n]. cbn [fst]. rewrite IH. reflexivity.
Qed.
Section Whole.
  Variable public : xname -> string.
  Variable fa : option (attribute -> bool).
  Variable fe : option (element -> bool).
  Variable helpers : list Z.
  Definition for_element (e : element) : request := (false, el_name e).
  Definition for_attribute (a : attribute) : request := (true, at_name a).
  Lemma elements_allotted st els : Forall (fun e => el_wild e = false) els -> forall g g', foldr (element_field public helpers st) g els = Ret g' ->
    map sf_name (g_fields g') = (map sf_name (g_fields g) ++ allot_all public (g_taken g) (map for_element els))%list /\
    g_taken g' = allot_end public (g_taken g) (map for_element els).
  Proof.
    induction 1 as [|e els Hw _ IH]; intros g g'; cbn [foldr map allot_all allot_end]; [intros [= <-]; rewrite app_nil_r; auto|].
    destruct (element_field public helpers st g e) as [x| | |] eqn:E; cbn [andthen]; try discriminate. intros H. apply IH in H as [H1 H2].
    unfold element_field in E. destruct (expr_of public st (el_type e)) as [y| | |]; cbn [andthen] in E; try discriminate. rewrite Hw in E. cbn [andb] in E.
    change (allot public (g_taken g) (for_element e)) with (element_name public (g_taken g) (el_name e)).
    destruct (element_name public (g_taken g) (el_name e)) as [taken name].
    destruct (override_for public helpers st (el_type e) (el_default e) name _) as [oh| | |]; cbn [andthen] in E; try discriminate. injection E as <-.
    cbn [g_fields g_taken fst] in *. rewrite H1, map_app, <- app_assoc. auto.
  Qed.
  Lemma attributes_allotted st ats : forall g g', foldr (attribute_field public helpers st) g ats = Ret g' ->
    map sf_name (g_fields g') = (map sf_name (g_fields g) ++ allot_all public (g_taken g) (map for_attribute ats))%list.
  Proof.
    induction ats as [|a ats IH]; intros g g'; cbn [foldr map allot_all]; [intros [= <-]; rewrite app_nil_r; auto|].
    destruct (attribute_field public helpers st g a) as [x| | |] eqn:E; cbn [andthen]; try discriminate. intros H. apply IH in H as H1.
    unfold attribute_field in E. destruct (expr_of public st (at_type a)) as [y| | |]; cbn [andthen] in E; try discriminate.
    change (allot public (g_taken g) (for_attribute a)) with (attribute_name public (g_taken g) (at_name a)).
    destruct (attribute_name public (g_taken g) (at_name a)) as [taken name].
    destruct (override_for public helpers st (at_type a) (at_default a) name _) as [oh| | |]; cbn [andthen] in E; try discriminate. injection E as <-.
    cbn [g_fields g_taken fst] in *. rewrite H1, map_app, <- app_assoc. reflexivity.
  Qed.
  Lemma gen_complex_allotted st i c st' sps : gen_complex public fa fe helpers st i c = Ret (st', sps) -> ct_mixed c = false ->
    let (ats, els) := filter_fields fa fe (inherit st c) in Forall (fun e => el_wild e = false) els ->
    exists sp fs, sps = [sp] /\ sp_struct sp = Some fs /\ map sf_name fs = allot_all public [] (map for_element els ++ map for_attribute ats)%list.
  Proof.
    unfold gen_complex, chardata. intros H Hm. rewrite Hm in H. cbn [andthen] in H. destruct (filter_fields fa fe (inherit st c)) as [ats els]. intros Hw.
    destruct (foldr (element_field public helpers _) _ els) as [g1| | |] eqn:E1; cbn [andthen] in H; try discriminate.
    destruct (foldr (attribute_field public helpers _) g1 ats) as [g2| | |] eqn:E2; cbn [andthen] in H; try discriminate. injection H as <- <-.
    eexists. eexists. split; [reflexivity|]. split; [reflexivity|]. apply (elements_allotted _ _ Hw) in E1 as [E1 T1]. apply attributes_allotted in E2.
    rewrite E2, E1, T1, allot_all_app. reflexivity.
  Qed.
  Lemma gen_complex_distinct st i c st' sps : gen_complex public fa fe helpers st i c = Ret (st', sps) -> ct_mixed c = false ->
    let (ats, els) := filter_fields fa fe (inherit st c) in Forall (fun e => el_wild e = false) els -> List.length els + List.length ats <= S max_dup ->
    exists sp fs, sps = [sp] /\ sp_struct sp = Some fs /\ NoDup (map sf_name fs).
  Proof.
    intros H Hm. pose proof (gen_complex_allotted _ _ _ _ _ H Hm) as X. destruct (filter_fields fa fe (inherit st c)) as [ats els]. intros Hw Hl.
    destruct (X Hw) as [sp [fs [H1 [H2 H3]]]]. exists sp, fs. split; [exact H1|]. split; [exact H2|]. rewrite H3.
    apply allot_distinct. rewrite app_length, !map_length. cbn [List.length]. lia.
  Qed.
End Whole.

(* ---------- cases ---------- *)
Definition pub (n : xname) : string := nlocal n.
Definition el_of (local : string) (t : ty) : element := mkElement "" (mkName "urn:a" local) false t false false false false "" [] [].
Definition many (e : element) : element := mkElement (el_doc e) (el_name e) (el_wild e) (el_type e) (el_abstract e) true (el_optional e) (el_nillable e) (el_default e) (el_attr e) (el_scope e).
Definition any_el (plural : bool) : element := mkElement "" (mkName "" "") true (TB 0) false plural false false "" [] [].
Definition at_of (local : string) (t : ty) : attribute := mkAttribute (mkName "urn:a" local) "" t "" true [] [].
Definition ct_of (local : string) (base : ty) (els : list element) (ats : list attribute) (mixed : bool) : complexT :=
  mkComplex "" (mkName "urn:a" local) base false els ats false false mixed.
Definition simple_of (local : string) (base : ty) : sdef := mkSdef (mkName "urn:a" local) base [] false false "" [] None 0 0 0 "".
Definition names_of (r : run (store * list spec)) : option (list string) :=
  match r with Ret (_, [sp]) => option_map (map sf_name) (sp_struct sp) | _ => None end.

(* an element and an attribute of the same name: the attribute steps aside *)
Definition clash := ct_of "T" (TB 0) [el_of "Id" (TB 38); many (el_of "Items" (TB 38))] [at_of "Id" (TB 38); at_of "Items" (TB 38); at_of "Id" (TB 38)] false.
Lemma clash_names : names_of (gen_complex pub None None [] [DC clash] 0 clash) = Some ["Id"; "Items"; "IdAttr"; "ItemsAttr"; "IdAttr0"].
Proof. vm_compute. reflexivity. Qed.
Lemma clash_runs : exists r, gen_complex pub None None [] [DC clash] 0 clash = Ret r /\ ct_mixed clash = false /\
  Forall (fun e => el_wild e = false) (snd (filter_fields None None (inherit [DC clash] clash))) /\
  List.length (snd (filter_fields None None (inherit [DC clash] clash))) + List.length (fst (filter_fields None None (inherit [DC clash] clash))) <= S max_dup.
Proof.
  eexists. split; [vm_compute; reflexivity|]. split; [reflexivity|]. split; [repeat constructor|]. rewrite filter_fields_none. cbn [fst snd inherit clash ct_of ct_base ct_elems ct_attrs List.length].
  unfold max_dup. lia.
Qed.
(* the field of a wildcard does not ask for a name *)
Definition wild := ct_of "T" (TB 0) [el_of "Items" (TB 38); any_el true] [] false.
Lemma wild_names : names_of (gen_complex pub None None [] [DC wild] 0 wild) = Some ["Items"; "Items"].
Proof. vm_compute. reflexivity. Qed.
(* nor does the text of a type with a simple base type *)
Definition text_of := ct_of "T" (TPtr 1) [el_of "Foo" (TB 38)] [] true.
Lemma text_names : names_of (gen_complex pub None None [] [DC text_of; DS (simple_of "Foo" (TB 38))] 0 text_of) = Some ["Foo"; "Foo"].
Proof. vm_compute. reflexivity. Qed.
(* and after a thousand tries the plain name is handed out again *)
Definition crowd := ct_of "T" (TB 0) (repeat (el_of "x" (TB 38)) (max_dup + 2)) [] false.
Lemma map_repeat {A B} (f : A -> B) a n : map f (repeat a n) = repeat (f a) n.
Proof. induction n as [|n IH]; [reflexivity|]. cbn [repeat map]. rewrite IH. reflexivity. Qed.
Lemma crowd_runs st n : forall g, exists g', foldr (element_field pub [] st) g (repeat (el_of "x" (TB 38)) n) = Ret g'.
Proof.
  induction n as [|n IH]; intros g; cbn [repeat foldr]; [eexists; reflexivity|]. unfold element_field at 1.
  assert (E : exists y, expr_of pub st (el_type (el_of "x" (TB 38))) = Ret y) by (eexists; vm_compute; reflexivity). destruct E as [y E]. rewrite E. cbn [andthen].
  destruct (element_name pub (g_taken g) (el_name (el_of "x" (TB 38)))) as [taken name].
  match goal with |- context [override_for pub [] st ?t ?d ?m ?tg] => assert (O : override_for pub [] st t d m tg = Ret ([], [])) by (vm_compute; reflexivity); rewrite O end.
  cbn [andthen]. apply IH.
Qed.
Lemma crowd_twice : exists st' sp fs, gen_complex pub None None [] [DC crowd] 0 crowd = Ret (st', [sp]) /\ sp_struct sp = Some fs /\ ~ NoDup (map sf_name fs).
Proof.
  assert (R : exists st' sps, gen_complex pub None None [] [DC crowd] 0 crowd = Ret (st', sps)).
  { unfold gen_complex. change (chardata pub [] [DC crowd] crowd) with (@Ret gstate (mkG [] [] [] [])). cbn [andthen]. change (inherit [DC crowd] crowd) with crowd.
    rewrite filter_fields_none. change (ct_elems crowd) with (repeat (el_of "x" (TB 38)) (max_dup + 2)). change (ct_attrs crowd) with (@nil attribute).
    destruct (crowd_runs (put_c [DC crowd] 0 crowd) (max_dup + 2) (mkG [] [] [] [])) as [g' ->]. cbn [andthen foldr]. eexists. eexists. reflexivity. }
  destruct R as [st' [sps R]]. pose proof (gen_complex_allotted pub None None [] _ _ _ _ _ R eq_refl) as X. change (inherit [DC crowd] crowd) with crowd in X. rewrite filter_fields_none in X.
  destruct X as [sp [fs [-> [Hs Hn]]]].
  { change (ct_elems crowd) with (repeat (el_of "x" (TB 38)) (max_dup + 2)). apply Forall_forall. intros e He. apply repeat_spec in He as ->. reflexivity. }
  exists st', sp, fs. split; [exact R|]. split; [exact Hs|]. rewrite Hn. change (ct_elems crowd) with (repeat (el_of "x" (TB 38)) (max_dup + 2)). change (ct_attrs crowd) with (@nil attribute).
  rewrite app_nil_r, map_repeat. change (for_element (el_of "x" (TB 38))) with (false, mkName "urn:a" "x"). rewrite allot_exhausted.
  intros D. apply NoDup_cons_iff in D as [D _]. apply D. apply in_or_app. right. left. reflexivity.
Qed.

(* ---------- overlays ---------- *)
(* a list of dates: the field is a slice of time.Time, converted to one xsdDate *)
Definition dates := ct_of "T" (TB 0) [many (el_of "Day" (TB 16))] [] false.
Lemma dates_converted : exists st' sp f o, gen_complex pub None None [16%Z] [DC dates] 0 dates = Ret (st', [sp]) /\ sp_struct sp = Some [f] /\ sp_overrides sp = [o] /\
  sf_name f = ov_field o /\ expr_text (sf_expr f) = "[]time.Time" /\ ov_from o = "time.Time" /\ ov_to o = "xsdDate".
Proof. do 4 eexists. split; [vm_compute; reflexivity|]. split; [reflexivity|]. split; [reflexivity|]. repeat split. Qed.
Definition one_date := ct_of "T" (TB 0) [el_of "Day" (TB 16)] [at_of "At" (TB 17)] false.
Lemma one_date_runs : exists r, gen_complex pub None None [16%Z; 17%Z] [DC one_date] 0 one_date = Ret r /\ List.length (flat_map sp_overrides (snd r)) = 2 /\
  forall e, In e (snd (filter_fields None None (inherit [DC one_date] one_date))) -> el_plural e = false /\ el_wild e = false.
Proof. eexists. split; [vm_compute; reflexivity|]. split; [reflexivity|]. intros e [<-|[]]. split; reflexivity. Qed.

(* ---------- declarations and namespaces ---------- *)
Definition two_names : list (string * nat) := [("B", 1); ("A", 2)].
Lemma sort_exists : sorts_strings (isort_by id).
Proof. intros l. split; [apply isort_by_perm|]. exact (isort_by_sorted id l). Qed.
Lemma collision : gen_ast (isort_by id) (declare [] [("A", 1); ("A", 2)]) <> gen_ast (isort_by id) (declare [] [("A", 2); ("A", 1)]).
Proof. vm_compute. discriminate. Qed.
Lemma masked : exists ns deps p, NoDup ns /\ check_namespaces ns deps = inr p /\ exists n, In n ns /\ ~ In n deps.
Proof.
  exists ["urn:a"; "urn:b"], ["urn:a"; "urn:a"], ["urn:a"; "urn:a"]. split; [constructor; [intros [H|[]]; discriminate|constructor; [intros []|constructor]]|].
  split; [reflexivity|]. exists "urn:b". split; [right; left; reflexivity|]. intros [H|[H|[]]]; discriminate.
Qed.
Lemma dedup_from_nothing st l r : dedup st [] l = Ret r ->
  subseq r l /\
  (forall v, In v l -> exists n w, type_name st v = Some n /\ In w r /\ type_name st w = Some n) /\
  (forall r1 v r2 n, r = (r1 ++ v :: r2)%list -> type_name st v = Some n -> forall w, In w r1 -> type_name st w <> Some n) /\
  (forall v n, In v r -> type_name st v = Some n -> exists l1 l2, l = (l1 ++ v :: l2)%list /\ forall w, In w l1 -> type_name st w <> Some n).
Proof.
  intros H. destruct (dedup_spec st l [] r H) as [H1 [H2 [_ [H4 H5]]]]. split; [exact H1|]. split; [|split; [exact H4|exact H5]].
  intros v Hv. destruct (H2 v Hv) as [n [Hn [[]|[w [Hw Hk]]]]]. exists n, w. auto.
Qed.
Lemma inherited_fields st c : let c' := inherit st c in
  ct_name c' = ct_name c /\ ct_base c' = ct_base c /\ ct_mixed c' = ct_mixed c /\
  match ct_base c with
  | TPtr j => match get_c st j with
              | Some b => ct_attrs c' = merge_attributes (ct_attrs c) (ct_attrs b) /\
                          ct_elems c' = (ct_elems c ++ (if existsb el_wild (ct_elems c) then [] else firstn 1 (filter el_wild (ct_elems b))))%list
              | None => ct_attrs c' = ct_attrs c /\ ct_elems c' = ct_elems c
              end
  | _ => ct_attrs c' = ct_attrs c /\ ct_elems c' = ct_elems c
  end.
Proof.
  cbn zeta. assert (F : forall l, firstn 1 (filter el_wild l) = match find el_wild l with Some e => [e] | None => [] end).
  { induction l as [|e l IH]; cbn [filter find]; [reflexivity|]. destruct (el_wild e); [reflexivity|exact IH]. }
  unfold inherit. destruct (ct_base c) as [|z|n|j] eqn:E; try (rewrite ?E; auto; fail). destruct (get_c st j) as [b|]; [|rewrite ?E; auto].
  rewrite F. cbn [set_fields ct_name ct_base ct_mixed ct_attrs ct_elems]. split; [auto|]. split; [auto|]. split; [auto|]. split; [auto|].
  destruct (existsb el_wild (ct_elems c)); [rewrite app_nil_r; auto|]. destruct (find el_wild (ct_elems b)); [auto|rewrite app_nil_r; auto].
Qed.
Lemma simple_declared public helpers st i s sps : gen_simple public helpers st i s = Ret sps ->
  exists sp e, sps = [sp] /\ sp_name sp = public (sd_name s) /\ sp_doc sp = sd_doc s /\ sp_type sp = TPtr i /\ sp_struct sp = None /\ sp_expr sp = Some e /\ sp_overrides sp = [] /\
    (sd_union s <> [] -> expr_text e = "string" /\ sp_helpers sp = []) /\
    (sd_union s = [] -> expr_of public st (sd_base s) = Ret e /\ sp_helpers sp = helper_of (sd_base s) /\ forall b, In b (sp_helpers sp) -> In b helpers).
Proof.
  unfold gen_simple. destruct (sd_union s) as [|u us].
  - destruct (expr_of public st (sd_base s)) as [e| | |] eqn:E; cbn [andthen]; try discriminate. intros H.
    destruct (sd_base s) as [|b|n|j]; try (injection H as <-; eexists; exists e; split; [reflexivity|]; cbn; do 6 (split; [reflexivity|]); split; [congruence|]; intros _; split; [auto|]; split; [auto|intros b []]; fail).
    unfold helper_of. destruct (non_trivial b).
    + destruct (memb b helpers) eqn:M; [|discriminate]. injection H as <-. eexists; exists e; split; [reflexivity|]; cbn. do 6 (split; [reflexivity|]); split; [congruence|]. intros _; split; [auto|]; split; [auto|].
      intros b' [<- |[]]. unfold memb in M. apply existsb_exists in M. destruct M as (x & Hx & Ex). apply Z.eqb_eq in Ex. subst. auto.
    + injection H as <-. eexists; exists e; split; [reflexivity|]; cbn. do 6 (split; [reflexivity|]); split; [congruence|]. intros _; split; [auto|]; split; [auto|intros b' []].
  - intros H. injection H as <-. eexists; exists (EId "string"); split; [reflexivity|]; cbn. do 6 (split; [reflexivity|]). split; [auto|discriminate].
Qed.
