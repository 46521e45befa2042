(* The Go names of the fields of a struct. *)
From Verif Require Import Base SortLib ScopeModel TreeModel EqualModel Utf8 Decimal BuiltinModel CodecModel XsdModel TypesModel GraphModel GenModel SgModel SgStruct SgProofs SgNames.
Local Open Scope string_scope.

Section FieldNames.
  Variable public : xname -> string.
  Variable fa : option (attribute -> bool).
  Variable fe : option (element -> bool).
  Variable helpers : list Z.
  Definition wild_name (e : element) : string := if el_plural e then "Items" else "Item".
  Lemma elements_wild st els : forall g g', foldr (element_field public helpers st) g els = Ret g' ->
    exists fs, g_fields g' = (g_fields g ++ fs)%list /\ Forall2 (fun e f => el_wild e = true -> sf_name f = wild_name e) els fs /\
      (NoDup (map (fun e => public (el_name e)) els) -> (forall x, In x (map (fun e => public (el_name e)) els) -> ~ In x (g_taken g)) ->
       Forall2 (fun e f => el_wild e = false -> sf_name f = public (el_name e)) els fs /\
       forall x, In x (g_taken g') <-> In x (map (fun e => public (el_name e)) els) \/ In x (g_taken g)).
  Proof.
    induction els as [|e els IH]; intros g g'; cbn [foldr]; [intros [= <-]; exists []; rewrite app_nil_r; split; [reflexivity|split; [constructor|intros _ _; split; [constructor|intros x; cbn; tauto]]]|].
    destruct (element_field public helpers st g e) as [x| | |] eqn:E; cbn [andthen]; try discriminate. intros H.
    destruct (IH _ _ H) as (fs & Hf & W & F). clear IH H. unfold element_field in E.
    destruct (expr_of public st (el_type e)) as [y| | |]; cbn [andthen] in E; try discriminate.
    destruct (element_name public (g_taken g) (el_name e)) as [taken name] eqn:En. cbv zeta in E.
    destruct (override_for public helpers st (el_type e) (el_default e) _ _) as [oh| | |]; cbn [andthen] in E; try discriminate. injection E as <-.
    cbn [g_fields g_taken] in *. eexists (_ :: fs). split; [rewrite Hf, <- app_assoc; reflexivity|]. split.
    - constructor; [|exact W]. intros Ew. cbn [sf_name]. rewrite Ew. reflexivity.
    - intros N D. cbn [map] in N, D. apply NoDup_cons_iff in N as [Ne N].
      assert (X : taken = public (el_name e) :: g_taken g /\ name = public (el_name e)).
      { assert (M : mem_str (public (el_name e)) (g_taken g) = false) by (apply mem_str_out, D; left; reflexivity).
        unfold element_name in En. cbv zeta in En. rewrite M in En. injection En as <- <-. auto. }
      destruct X as [-> ->]. destruct (F N) as [F1 F2].
      { intros x Hx [<-|Hi]; [exact (Ne Hx)|exact (D x (or_intror Hx) Hi)]. }
      split.
      + constructor; [|exact F1]. intros Ew. cbn [sf_name]. rewrite Ew. reflexivity.
      + intros x. rewrite F2. cbn [map In]. tauto.
  Qed.
  Lemma attributes_named st ats : forall g g', foldr (attribute_field public helpers st) g ats = Ret g' ->
    exists fs, g_fields g' = (g_fields g ++ fs)%list /\ List.length fs = List.length ats /\
      (NoDup (map (fun a => public (at_name a)) ats) -> (forall x, In x (map (fun a => public (at_name a)) ats) -> ~ In x (g_taken g)) ->
       Forall2 (fun a f => sf_name f = public (at_name a)) ats fs).
  Proof.
    induction ats as [|e ats IH]; intros g g'; cbn [foldr]; [intros [= <-]; exists []; rewrite app_nil_r; split; [reflexivity|split; [reflexivity|intros _ _; constructor]]|].
    destruct (attribute_field public helpers st g e) as [x| | |] eqn:E; cbn [andthen]; try discriminate. intros H.
    destruct (IH _ _ H) as (fs & Hf & W & F). clear IH H. unfold attribute_field in E.
    destruct (expr_of public st (at_type e)) as [y| | |]; cbn [andthen] in E; try discriminate.
    destruct (attribute_name public (g_taken g) (at_name e)) as [taken name] eqn:En. cbv zeta in E.
    destruct (override_for public helpers st (at_type e) (at_default e) _ _) as [oh| | |]; cbn [andthen] in E; try discriminate. injection E as <-.
    cbn [g_fields g_taken] in *. eexists (_ :: fs). split; [rewrite Hf, <- app_assoc; reflexivity|]. split; [cbn [List.length]; rewrite W; reflexivity|].
    intros N D. cbn [map] in N, D. apply NoDup_cons_iff in N as [Ne N].
    assert (X : taken = public (at_name e) :: g_taken g /\ name = public (at_name e)).
    { assert (M : mem_str (public (at_name e)) (g_taken g) = false) by (apply mem_str_out, D; left; reflexivity).
      unfold attribute_name in En. cbv zeta in En. rewrite M in En. injection En as <- <-. auto. }
    destruct X as [-> ->]. constructor; [reflexivity|]. apply (F N). intros x Hx [<-|Hi]; [exact (Ne Hx)|exact (D x (or_intror Hx) Hi)].
  Qed.
  Lemma chardata_taken st c g : chardata public helpers st c = Ret g -> List.length (g_fields g) <= 1 /\ Forall (fun f => sf_tag f = quoted ",chardata") (g_fields g) /\
    (g_taken g = [] \/ g_taken g = ["Value"] /\ map sf_name (g_fields g) = ["Value"]).
  Proof.
    unfold chardata. destruct (ct_mixed c); [|intros [= <-]; cbn; repeat split; auto].
    destruct (drill _ st (ct_base c)) as [b| | |]; cbn [andthen]; try discriminate.
    destruct (expr_of public st b) as [e| | |]; cbn [andthen]; try discriminate.
    destruct b as [|z|n|i].
    - cbn [is_simple]. discriminate.
    - destruct (z =? 0)%Z; [intros [= <-]; cbn; repeat split; auto|]. destruct (if non_trivial z then _ else _) as [oh| | |]; cbn [andthen]; try discriminate.
      intros [= <-]. cbn. repeat split; auto.
    - discriminate.
    - destruct (is_simple st (TPtr i)); [|discriminate]. intros [= <-]. cbn. repeat split; auto.
  Qed.
  Lemma field_names st i c st' sps : gen_complex public fa fe helpers st i c = Ret (st', sps) ->
    let (ats, els) := filter_fields fa fe (inherit st c) in
    let names := (map (fun e => public (el_name e)) els ++ map (fun a => public (at_name a)) ats)%list in
    exists sp cs es fs, sps = [sp] /\ sp_struct sp = Some (cs ++ es ++ fs)%list /\ List.length cs <= 1 /\ List.length fs = List.length ats /\
      Forall2 (fun e f => el_wild e = true -> sf_name f = if el_plural e then "Items" else "Item") els es /\
      (NoDup names -> (forall f, In f cs -> ~ In (sf_name f) names) ->
       Forall2 (fun e f => el_wild e = false -> sf_name f = public (el_name e)) els es /\ Forall2 (fun a f => sf_name f = public (at_name a)) ats fs).
  Proof.
    unfold gen_complex. destruct (chardata public helpers st c) as [g| | |] eqn:C; cbn [andthen]; try discriminate.
    destruct (filter_fields fa fe (inherit st c)) as [ats els]. intros H. cbv zeta.
    destruct (foldr (element_field public helpers _) g els) as [g1| | |] eqn:E1; cbn [andthen] in H; try discriminate.
    destruct (foldr (attribute_field public helpers _) g1 ats) as [g2| | |] eqn:E2; cbn [andthen] in H; try discriminate. injection H as <- <-.
    destruct (chardata_taken _ _ _ C) as (L & _ & T). apply elements_wild in E1 as (es & He & W & F). apply attributes_named in E2 as (fs & Hf & Lf & G).
    eexists. exists (g_fields g), es, fs. split; [reflexivity|]. cbn [sp_struct]. split; [rewrite Hf, He, app_assoc; reflexivity|]. split; [exact L|]. split; [exact Lf|]. split; [exact W|].
    intros N D. assert (D' : forall x, In x (g_taken g) -> ~ In x (map (fun e => public (el_name e)) els ++ map (fun a => public (at_name a)) ats)%list).
    { intros x Hx. destruct T as [T|[T M]]; rewrite T in Hx; [destruct Hx|]. destruct Hx as [<-|[]]. destruct (g_fields g) as [|f [|]] eqn:Eg; try discriminate M. injection M as M. rewrite <- M. apply D. left. reflexivity. }
    assert (N1 : NoDup (map (fun e => public (el_name e)) els)) by (clear - N; induction (map (fun e => public (el_name e)) els) as [|x l IH]; [constructor|apply NoDup_cons_iff in N as [X N]; constructor; [intros Hi; apply X, in_or_app; left; exact Hi|exact (IH N)]]).
    assert (N2 : NoDup (map (fun a => public (at_name a)) ats) /\ forall x, In x (map (fun a => public (at_name a)) ats) -> ~ In x (map (fun e => public (el_name e)) els)).
    { clear - N. induction (map (fun e => public (el_name e)) els) as [|x l IH]; [split; [exact N|intros ? _ []]|]. apply NoDup_cons_iff in N as [X N]. destruct (IH N) as [A B]. split; [exact A|].
      intros y Hy [<-|Hi]; [apply X, in_or_app; right; exact Hy|exact (B y Hy Hi)]. }
    destruct N2 as [N2 N3]. destruct (F N1) as [F1 F2]. { intros x Hx Hi. apply (D' x Hi), in_or_app. left. exact Hx. }
    split; [exact F1|]. apply (G N2). intros x Hx Hi. apply F2 in Hi as [Hi|Hi]; [exact (N3 x Hx Hi)|]. apply (D' x Hi), in_or_app. right. exact Hx.
  Qed.
End FieldNames.
(* an attribute called like an element *)
Lemma attribute_suffix public taken n : In (public n) taken -> ~ In (public n ++ "Attr") taken -> snd (allot public taken (true, n)) = public n ++ "Attr".
Proof.
  intros H H'. apply mem_str_out in H'. unfold allot, attribute_name. cbn [fst snd]. cbv zeta. 
  destruct (mem_str (public n) taken) eqn:M; [|apply mem_str_out in M; destruct (M H)]. unfold unique. rewrite H'. reflexivity.
Qed.
