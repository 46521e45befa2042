(* Documents code is generated from: deciding the hypotheses, cases and counterexamples. *)
From Coq Require Import Permutation.
From Verif Require Import Base SortLib ScopeModel TreeModel EqualModel BuiltinModel CodecModel XsdModel XsdProofs TypesModel TypesSpec TypesProofs TypesMixed TypesParse TypesFinal TypesOrder TypesExamples GenModel SgModel SgStruct SgDecl SgExamples SgFlat SgFlatSpec SgFlatten SgExpandSpec SgExpandExamples SliceModel SgGen SgGenSpec SgGenExamples BindProofs PipeModel PipeSpec PipeProofs PipeParse.
Local Open Scope string_scope.

Lemma nodup_part {A} (a b c : list A) : NoDup (a ++ b ++ c)%list -> NoDup b.
Proof.
  induction a as [|x a IH]; cbn [app]; [|intros H; inversion H; auto]. induction b as [|x b IH]; intros H; [constructor|]. cbn [app] in H. inversion H as [|? ? N H']. constructor; [|apply IH; exact H']. intros Hx. apply N, in_or_app. left. exact Hx.
Qed.
Section Decide.
  Variable h : xname -> nat.
  Variable l : list rd.
  Let ds := decls l.
  Fixpoint nodupb {A} (eqb : A -> A -> bool) (l : list A) : bool := match l with [] => true | a :: l => (negb (existsb (eqb a) l) && nodupb eqb l)%bool end.
  Lemma nodupb_ok {A} (eqb : A -> A -> bool) (He : forall a b, a = b -> eqb a b = true) m : nodupb eqb m = true -> NoDup m.
  Proof.
    induction m as [|a m IH]; intros H; constructor; apply andb_prop in H as [H1 H2]; [|exact (IH H2)]. intros Ha. apply negb_true_iff in H1. assert (X : existsb (eqb a) m = true) by (apply existsb_exists; exists a; auto). congruence.
  Qed.
  Definition declb (n : xname) : bool := existsb (fun p => xname_eqb (fst p) n) ds.
  Lemma declb_ok n : declb n = true -> exists e, declares l n e.
  Proof. unfold declb. intros H. apply existsb_exists in H as ([m e] & Hm & Em). cbn [fst] in Em. apply xname_eqb_eq in Em. subst m. exists e. apply declares_in. exact Hm. Qed.
  (* the Builtin a reference leads to *)
  Fixpoint root_of (fuel : nat) (t : ty) : option Z :=
    match t with
    | TB b => Some b
    | TLink n => match fuel with 0 => None | S f => match find (fun p => xname_eqb (fst p) n) ds with Some (_, d) => root_of f (def_base d) | None => None end end
    | _ => None
    end.
  Hypothesis once : NoDup (map fst ds).
  Lemma find_decl n d : declares l n d -> find (fun p => xname_eqb (fst p) n) ds = Some (n, d).
  Proof.
    intros H. apply declares_in in H. change (decls l) with ds in H. destruct (find _ ds) as [[m e]|] eqn:E.
    - apply find_some in E as [E1 E2]. cbn [fst] in E2. apply xname_eqb_eq in E2. subst m. f_equal. exact (map_nodup_inj fst ds _ _ once E1 H eq_refl).
    - exfalso. eapply find_none in E; [|exact H]. cbn [fst] in E. assert (X : xname_eqb n n = true) by (apply xname_eqb_eq; reflexivity). congruence.
  Qed.
  Lemma root_ok t b : leads l t b -> forall fuel z, root_of fuel t = Some z -> z = b.
  Proof.
    induction 1 as [b|n d b Dn L IH]; intros fuel z H; [destruct fuel; cbn [root_of] in H; congruence|]. destruct fuel as [|f]; cbn [root_of] in H; [discriminate|]. rewrite (find_decl n d Dn) in H. exact (IH f z H).
  Qed.
  Definition documentsb (fuel : nat) : bool :=
    (nodupb String.eqb (map rd_tns l) &&
     forallb (fun r => negb (String.eqb (rd_tns r) schemaNS) && negb (String.eqb (rd_tns r) "http://www.w3.org/2009/01/xml.xsd") &&
       forallb (fun a => match parse_builtin (snd a) with Some b => translatedb b | None => declb (snd a) end) (rd_aliases r) &&
       forallb (fun p => xname_eqb (def_name (snd p)) (fst p) && String.eqb (nspace (fst p)) (rd_tns r)) (rd_types r))%bool l &&
     forallb (fun p =>
       forallb (fun t => match t with TPtr _ => false | TLink m => declb m | _ => true end) (refs (snd p)) &&
       forallb (fun t => match t with TNil => false | TLink m => Nat.ltb (h m) (h (fst p)) | TB b => translatedb b | TPtr _ => false end) (uses (snd p)) &&
       match snd p with
       | DS s => if sd_list s then match root_of fuel (sd_base s) with Some b => match list_codec b with Some c => body_parses c | None => false end | None => false end else true
       | DC c => if ct_mixed c then match ct_base c with TLink m => match find (fun p => xname_eqb (fst p) m) ds with Some (_, DC b) => ct_mixed b | _ => true end | _ => true end else true
       end)%bool ds)%bool.
  Lemma documentsb_ok fuel : documentsb fuel = true -> documents h l.
  Proof.
    intros H. unfold documentsb in H. apply andb_prop in H as [H H3]. apply andb_prop in H as [H1 H2]. rewrite forallb_forall in H2, H3.
    assert (P : forall n d, declares l n d -> In (n, d) ds) by (intros n d X; apply declares_in; exact X).
    assert (R : forall r n d, In r l -> In (n, d) (rd_types r) -> In (n, d) ds) by (intros r n d X Y; apply P; exists r; auto).
    assert (F2 : forall r, In r l -> (rd_tns r <> schemaNS /\ rd_tns r <> "http://www.w3.org/2009/01/xml.xsd") /\ (forall a, In a (rd_aliases r) -> match parse_builtin (snd a) with Some b => translatedb b | None => declb (snd a) end = true) /\
              forall n d, In (n, d) (rd_types r) -> def_name d = n /\ nspace n = rd_tns r).
    { intros r Hr. specialize (H2 r Hr). apply andb_prop in H2 as [H2 K4]. apply andb_prop in H2 as [H2 K3]. apply andb_prop in H2 as [K1 K2]. apply negb_true_iff, String.eqb_neq in K1. apply negb_true_iff, String.eqb_neq in K2. rewrite forallb_forall in K3, K4. split; [auto|]. split; [exact K3|].
      intros n d Hd. specialize (K4 _ Hd). cbn [fst snd] in K4. apply andb_prop in K4 as [K4 K5]. apply xname_eqb_eq in K4. apply String.eqb_eq in K5. auto. }
    assert (F3 : forall n d, declares l n d -> (forall t, In t (refs d) -> match t with TPtr _ => false | TLink m => declb m | _ => true end = true) /\
              (forall t, In t (uses d) -> match t with TNil => false | TLink m => Nat.ltb (h m) (h n) | TB b => translatedb b | TPtr _ => false end = true) /\
              match d with
              | DS s => if sd_list s then match root_of fuel (sd_base s) with Some b => match list_codec b with Some c => body_parses c | None => false end | None => false end else true
              | DC c => if ct_mixed c then match ct_base c with TLink m => match find (fun p => xname_eqb (fst p) m) ds with Some (_, DC b) => ct_mixed b | _ => true end | _ => true end else true
              end = true).
    { intros n d Hd. specialize (H3 _ (P n d Hd)). cbn [fst snd] in H3. apply andb_prop in H3 as [H3 K3]. apply andb_prop in H3 as [K1 K2]. rewrite forallb_forall in K1, K2. auto. }
    split.
    - intros r n d Hr Hd i Hi. destruct (F3 n d) as (K & _); [exists r; auto|]. discriminate (K _ Hi).
    - intros r n d Hr Hd. exact (proj2 (proj2 (F2 r Hr)) n d Hd).
    - exact (nodupb_ok String.eqb (fun a b X => proj2 (String.eqb_eq a b) X) _ H1).
    - intros r Hr. destruct (in_split _ _ Hr) as (l1 & l2 & El). pose proof once as O. unfold ds, decls in O. rewrite El, flat_map_app in O. cbn [flat_map] in O. rewrite !map_app in O. exact (nodup_part _ _ _ O).
    - intros r Hr. exact (proj1 (F2 r Hr)).
    - intros n d Hd X. destruct (F3 n d Hd) as (_ & K & _). discriminate (K _ X).
    - intros n d m Hd X. destruct (F3 n d Hd) as (K & _). exact (declb_ok m (K _ X)).
    - intros r a Hr Ha. pose proof (proj1 (proj2 (F2 r Hr)) a Ha) as K. destruct (parse_builtin (snd a)) as [b|]; [left; exists b; split; [reflexivity|exact (translatedb_ok b K)]|right; exact (declb_ok _ K)].
    - intros n d m Hd X. destruct (F3 n d Hd) as (_ & K & _). apply Nat.ltb_lt. exact (K _ X).
    - intros n d b Hd X. destruct (F3 n d Hd) as (_ & K & _). exact (translatedb_ok b (K _ X)).
    - intros n s b Hd Ls Lb. destruct (F3 n _ Hd) as (_ & _ & K). rewrite Ls in K. destruct (root_of fuel (sd_base s)) as [z|] eqn:E; [|discriminate]. rewrite (root_ok _ _ Lb fuel z E) in K. destruct (list_codec b) as [c|]; [|discriminate]. exists c. auto.
    - intros n c m b Hd Mc Eb Hm. destruct (F3 n _ Hd) as (_ & _ & K). rewrite Mc, Eb, (find_decl m _ Hm) in K. exact K.
  Qed.
  Definition at_handb (l1 : list rd) (n : xname) : bool :=
    (existsb (fun p => xname_eqb (fst p) n) (flat_map rd_types l1) || existsb (fun p => xname_eqb (fst p) n && match def_base (snd p) with TB _ => true | _ => false end) ds)%bool.
  Lemma at_handb_ok l1 n : at_handb l1 n = true -> at_hand l1 l n.
  Proof.
    unfold at_handb. intros H. apply orb_prop in H as [H|H]; apply existsb_exists in H as ([m e] & Hm & Em); cbn [fst snd] in Em; exists e.
    - apply xname_eqb_eq in Em. subst m. left. apply in_flat_map in Hm. exact Hm.
    - apply andb_prop in Em as [Em Eb]. apply xname_eqb_eq in Em. subst m. right. split; [apply declares_in; exact Hm|]. destruct (def_base e); try discriminate. eauto.
  Qed.
  Definition imports_firstb : bool :=
    forallb (fun k => match nth_error l k with
      | Some r => (forallb (fun p => match def_base (snd p) with TLink m => at_handb (firstn (S k) l) m | _ => true end) (rd_types r) &&
           forallb (fun a => match parse_builtin (snd a) with Some _ => true | None => at_handb (firstn (S k) l) (snd a) end) (rd_aliases r))%bool
      | None => true end) (seq 0 (List.length l)).
  Lemma imports_firstb_ok : imports_firstb = true -> imports_first l.
  Proof.
    intros H l1 r l2 El. unfold imports_firstb in H. rewrite forallb_forall in H. specialize (H (List.length l1)). rewrite El in H at 2.
    rewrite nth_error_app2, Nat.sub_diag in H by lia. cbn [nth_error] in H. replace (firstn (S (List.length l1)) l) with (l1 ++ [r])%list in H by (rewrite El, firstn_app, firstn_all2 by lia; replace (S _ - _) with 1 by lia; reflexivity).
    assert (Q : In (List.length l1) (seq 0 (List.length l))) by (apply in_seq; rewrite El, app_length; cbn [List.length]; lia). apply H, andb_prop in Q as [Q1 Q2]. rewrite forallb_forall in Q1, Q2. split.
    - intros n d m Hd Eb. specialize (Q1 _ Hd). cbn [snd] in Q1. rewrite Eb in Q1. exact (at_handb_ok _ _ Q1).
    - intros a Ha Pb. specialize (Q2 _ Ha). rewrite Pb in Q2. exact (at_handb_ok _ _ Q2).
  Qed.
  Variables (public : xname -> string) (fa : option (attribute -> bool)) (ft : option (xname -> bool)) (allow : option (list xname)) (ns : list string).
  Definition lessb (c : complexT) : bool := forallb (filtered fa) (ct_attrs c).
  Definition textualb (t : ty) : bool := match t with TB b => negb (Z.eqb b 0) | TLink n => match find (fun p => xname_eqb (fst p) n) ds with Some (_, DS _) => true | _ => false end | _ => false end.
  Definition orderlyb (fuel : nat) : bool :=
    (forallb (fun p => match snd p with
       | DS s => match sd_base s with TLink m => match find (fun p => xname_eqb (fst p) m) ds with Some (_, DC _) => false | _ => true end | _ => true end &&
                 match root_of fuel (sd_base s) with Some b => negb (Z.eqb b 0) | None => false end
       | DC c => forallb (fun e => Bool.eqb (el_wild e) (xname_eqb (el_name e) (mkName "" ""))) (ct_elems c) &&
                 match ct_base c with TLink m => match find (fun p => xname_eqb (fst p) m) ds with Some (_, DC b) => negb (lessb c && lessb b && textualb (ct_base b)) | _ => true end | _ => true end
       end)%bool ds &&
     forallb (fun p => forallb (fun t => match t with TLink m => negb (String.eqb (nlocal m) "_self") | _ => true end) (uses (snd p))) ds &&
     forallb (fun p => forallb (fun q => implb (String.eqb (public (fst p)) (public (fst q))) (xname_eqb (fst p) (fst q) || String.eqb (nlocal (fst p)) "_self" || String.eqb (nlocal (fst q)) "_self")) ds) ds)%bool.
  Lemma orderlyb_ok fuel : orderlyb fuel = true -> orderly public fa ft allow ns l.
  Proof.
    intros H. unfold orderlyb in H. apply andb_prop in H as [H H2]. apply andb_prop in H as [H1 H3]. rewrite forallb_forall in H1, H2, H3. assert (P : forall n d, declares l n d -> In (n, d) ds) by (intros n d X; apply declares_in; exact X).
    assert (G : forall n, generated ft allow ns l n -> nlocal n <> "_self").
    { induction 1 as [r n d _ _ _ Pn|r a _ _ _ Pn|n d m _ _ Hd Hm]; [exact (proj1 Pn)|exact (proj1 Pn)|]. specialize (H3 _ (P _ _ Hd)). rewrite forallb_forall in H3. specialize (H3 _ Hm). cbn beta iota in H3. apply String.eqb_neq, negb_true_iff. exact H3. }
    split.
    - intros n s m d Hn Eb Hm. specialize (H1 _ (P _ _ Hn)). cbn [snd] in H1. apply andb_prop in H1 as [H1 _]. rewrite Eb, (find_decl m d Hm) in H1. destruct d as [c|s']; [discriminate|eauto].
    - intros n s Hn _ L. specialize (H1 _ (P _ _ Hn)). cbn [snd] in H1. apply andb_prop in H1 as [_ H1]. destruct (root_of fuel (sd_base s)) as [z|] eqn:E; [|discriminate]. rewrite (root_ok _ _ L fuel z E) in H1. discriminate.
    - intros n c m b Hn Nc Eb Hm Nb T. specialize (H1 _ (P _ _ Hn)). cbn [snd] in H1. apply andb_prop in H1 as [_ H1]. rewrite Eb, (find_decl m _ Hm) in H1. assert (lessb c = true) as X1 by (apply forallb_forall; exact Nc). assert (lessb b = true) as X2 by (apply forallb_forall; exact Nb).
      assert (textualb (ct_base b) = true) as X3. { unfold textual in T. unfold textualb. destruct (ct_base b) as [|z|q|q]; try contradiction; [apply negb_true_iff, Z.eqb_neq; exact T|]. destruct T as (s & Hs). rewrite (find_decl q _ Hs). reflexivity. } rewrite X1, X2, X3 in H1. discriminate.
    - intros n c e Hn He. specialize (H1 _ (P _ _ Hn)). cbn [snd] in H1. apply andb_prop in H1 as [H1 _]. rewrite forallb_forall in H1. specialize (H1 e He). apply Bool.eqb_prop in H1. rewrite H1. apply xname_eqb_eq.
    - intros n m d e Gn Gm Hn Hm E. specialize (H2 _ (P _ _ Hn)). rewrite forallb_forall in H2. specialize (H2 _ (P _ _ Hm)). cbn [fst] in H2. apply G, String.eqb_neq in Gn. apply G, String.eqb_neq in Gm. rewrite E, String.eqb_refl, Gn, Gm in H2. cbn [implb] in H2. rewrite !orb_false_r in H2. apply xname_eqb_eq. exact H2.
  Qed.
End Decide.

(* ---------- two documents ---------- *)
Definition simple_ (n : string) (kids : list elem) := x_ "simpleType" [at_ "name" n] kids.
Definition element_ (n t : string) := x_ "element" [at_ "name" n; at_ "type" t] [].
Definition attribute_ (n t : string) := x_ "attribute" [at_ "name" n; at_ "type" t] [].
Definition base_doc := schema_ "urn:b"
  [simple_ "Color" [x_ "restriction" [at_ "base" "xs:string"] [x_ "enumeration" [at_ "value" "red"] []; x_ "enumeration" [at_ "value" "blue"] []]];
   simple_ "Sizes" [x_ "list" [at_ "itemType" "xs:int"] []];
   restricts_ "Item" "xs:anyType" [x_ "sequence" [] [element_ "made" "xs:date"; element_ "color" "b:Color"]; attribute_ "id" "xs:int"]].
Definition main_doc := schema_ "urn:a"
  [simple_ "Alias" [x_ "restriction" [at_ "base" "xs:string"] []];
   extends_ "Car" "b:Item" [x_ "sequence" [] [element_ "name" "a:Alias"; element_ "sizes" "b:Sizes"]];
   element_ "car" "a:Car"; element_ "paint" "b:Color"].
Definition rd_base := Eval vm_compute in get (rd_of base_doc) (mkRd "" [] []).
Definition rd_main := Eval vm_compute in get (rd_of main_doc) (mkRd "" [] []).
Lemma docs_read : rd_of base_doc = Some rd_base /\ rd_of main_doc = Some rd_main.
Proof. vm_compute. split; reflexivity. Qed.
Definition car_docs := [rd_base; rd_main].
Definition car_height (n : xname) : nat := match nlocal n with "Item" => 1 | "Car" => 2 | "_self" => 3 | _ => 0 end.
Lemma car_documents : documents car_height car_docs /\ (forall n, car_height n <= N.to_nat 1000) /\ imports_first car_docs.
Proof.
  assert (N : NoDup (map fst (decls car_docs))) by (apply (nodupb_ok xname_eqb (fun a b X => proj2 (xname_eqb_eq a b) X)); vm_compute; reflexivity).
  split; [apply (documentsb_ok _ _ N 6); vm_compute; reflexivity|]. split; [|apply imports_firstb_ok; vm_compute; reflexivity].
  intros n. apply Nat.le_trans with 3; [|lia]. unfold car_height. repeat (match goal with |- context [match ?x with _ => _ end] => destruct x end; try lia).
Qed.
Lemma car_orderly : orderly pub None None None ["urn:a"; "urn:b"] car_docs.
Proof.
  assert (N : NoDup (map fst (decls car_docs))) by (apply (nodupb_ok xname_eqb (fun a b X => proj2 (xname_eqb_eq a b) X)); vm_compute; reflexivity).
  apply (orderlyb_ok _ N _ _ _ _ _ 6). vm_compute. reflexivity.
Qed.
Definition in_order (s : string) (l : list (xname * ty)) := l.
Definition in_reverse (s : string) (l : list (xname * ty)) := rev l.
Lemma in_reverse_order s m : Permutation m (in_reverse s m).
Proof. apply Permutation_rev. Qed.
Definition code_names (r : run coded) : list (string * list string) := match r with Ret (Coded c) => map (fun p => (fst p, spec_ids (snd p))) (co_decls c) | _ => [] end.
Lemma car_code : code_names (gen_code pub None None None None all_helpers false as_is in_order [] ["urn:a"; "urn:b"] car_docs) =
    [("Color", ["string"]); ("Item", ["time.Time"; "Color"; "int"]); ("Sizes", ["int"]); ("Car", ["time.Time"; "Color"; "string"; "Sizes"; "int"]); ("xsdDate", ["time.Time"])] /\
  code_names (gen_code pub None None None None all_helpers false backwards in_reverse ["urn:a"] ["urn:a"] car_docs) =
    [("Color", ["string"]); ("Sizes", ["int"]); ("Car", ["time.Time"; "Color"; "string"; "Sizes"; "int"]); ("xsdDate", ["time.Time"])].
Proof. vm_compute. split; reflexivity. Qed.
Lemma car_same : match gen_code pub None None None None all_helpers false as_is in_order [] ["urn:a"; "urn:b"] car_docs, gen_code pub None None None None all_helpers false backwards in_reverse [] ["urn:a"; "urn:b"] car_docs with
  | Ret (Coded c), Ret (Coded c') => (map fst (co_decls c), map fst (co_decls c'), map fst (gen_ast (isort_by id) (co_decls c'))) | _, _ => ([], [], []) end =
  (["Color"; "Item"; "Sizes"; "Car"; "xsdDate"], ["Sizes"; "Color"; "Item"; "Car"; "xsdDate"], ["Car"; "Color"; "Item"; "Sizes"; "xsdDate"]).
Proof. vm_compute. reflexivity. Qed.
Lemma car_own : In (mkName "urn:b" "Sizes", snd (List.nth 2 (rd_types rd_base) (mkName "" "", DC (ct_of "" TNil [] [] false)))) (rd_types rd_base) /\ own_declaration None car_docs (snd (List.nth 2 (rd_types rd_base) (mkName "" "", DC (ct_of "" TNil [] [] false)))) /\ picked None None (mkName "urn:b" "Sizes").
Proof. split; [right; right; left; reflexivity|]. split; [left; reflexivity|]. split; [discriminate|]. split; intros; discriminate. Qed.
Lemma swapped_first : imports_first [rd_main; rd_base].
Proof. apply imports_firstb_ok. vm_compute. reflexivity. Qed.
(* a document before the one it imports; a namespace nobody defines *)
Definition far_base := Eval vm_compute in get (rd_of (schema_ "urn:b" [restricts_ "Thing" "xs:anyType" [attribute_ "id" "xs:int"]; extends_ "Item" "b:Thing" []])) (mkRd "" [] []).
Definition far_main := Eval vm_compute in get (rd_of (schema_ "urn:a" [extends_ "Car" "b:Item" []])) (mkRd "" [] []).
Definition far_height (n : xname) : nat := match nlocal n with "Item" => 1 | "Car" => 2 | "_self" => 3 | _ => 0 end.
Lemma far_documents : documents far_height [far_main; far_base] /\ orderly pub None None None ["urn:a"; "urn:b"] [far_main; far_base].
Proof.
  assert (N : NoDup (map fst (decls [far_main; far_base]))) by (apply (nodupb_ok xname_eqb (fun a b X => proj2 (xname_eqb_eq a b) X)); vm_compute; reflexivity).
  split; [apply (documentsb_ok _ _ N 6); vm_compute; reflexivity|]. apply (orderlyb_ok _ N _ _ _ _ _ 6). vm_compute. reflexivity.
Qed.
Lemma far_panics : gen_code pub None None None None all_helpers false as_is in_order [] ["urn:a"; "urn:b"] [far_main; far_base] = Panic.
Proof. vm_compute. reflexivity. Qed.
Lemma far_other : documents far_height [far_base; far_main] /\ imports_first [far_base; far_main] /\ code_names (gen_code pub None None None None all_helpers false as_is in_order [] ["urn:a"; "urn:b"] [far_base; far_main]) = [("Thing", ["int"]); ("Item", ["int"]); ("Car", ["int"])].
Proof.
  assert (N : NoDup (map fst (decls [far_base; far_main]))) by (apply (nodupb_ok xname_eqb (fun a b X => proj2 (xname_eqb_eq a b) X)); vm_compute; reflexivity).
  split; [apply (documentsb_ok _ _ N 6); vm_compute; reflexivity|]. split; [apply imports_firstb_ok; vm_compute; reflexivity|]. vm_compute. reflexivity.
Qed.
Lemma nowhere_missing : gen_code pub None None None None all_helpers false as_is in_order ["urn:a"; "urn:c"] [] car_docs = Ret (Missing ["urn:c"]).
Proof. vm_compute. reflexivity. Qed.
