(* Values of all generated types: a case and counterexamples. *)
From Verif Require Import Base SortLib ScopeModel TreeModel EqualModel EqualProofs BuiltinModel XsdModel XsdProofs TypesModel TypesSpec TypesProofs GraphModel GenModel SgModel SgStruct SgProofs SgTags SgExamples SgFlatSpec SgFlatten SgFlatExamples SgExpandSpec SgExpand SgExpandFields SgGen SgGenSpec SgGenProofs SgGenExamples SgOrderSpec OrderExamples SgShapeSpec SgShape ShapeExamples BindModel BindSpec BindProofs BindGen BindGenSpec BindStruct BindDecode BindExamples BindDecodeEx WholeSpec WholeProofs.
Local Open Scope string_scope.

(* ---------- deciding clear_code for a given store ---------- *)
Fixpoint all_of (fuel : nat) (st : store) (i : nat) : option (list element * list attribute) :=
  match nth_error st i with
  | Some (DC c) =>
      match ct_base c with
      | TPtr j => match nth_error st j with
                  | Some (DC _) => match fuel with
                                   | 0 => None
                                   | S f => option_map (fun r => (others el_name (ct_elems c) (fst r) ++ ct_elems c, ct_attrs c ++ others at_name (ct_attrs c) (snd r))%list) (all_of f st j)
                                   end
                  | _ => Some (ct_elems c, ct_attrs c)
                  end
      | _ => Some (ct_elems c, ct_attrs c)
      end
  | _ => None
  end.
Lemma all_of_ok st i es ats : inherits st i es ats -> forall fuel r, all_of fuel st i = Some r -> r = (es, ats).
Proof.
  induction 1 as [i c E N|i j c es ats E D J IH]; intros fuel r H.
  - assert (X : all_of fuel st i = Some (ct_elems c, ct_attrs c)); [|congruence]. destruct fuel; cbn [all_of]; rewrite E; (destruct (ct_base c) as [|b|n|j] eqn:B; try reflexivity); (destruct (nth_error st j) as [[cj|s]|] eqn:Ej; try reflexivity); exfalso; apply (N j); exists c; (split; [exact E|]); (split; [exact B|exists cj; exact Ej]).
  - destruct D as (c' & E' & B & (b & Ej)). assert (c' = c) as -> by congruence. destruct fuel as [|f]; cbn [all_of] in H; rewrite E, B, Ej in H; [discriminate|]. destruct (all_of f st j) as [r'|] eqn:R; [|discriminate]. cbn [option_map] in H. injection H as <-. rewrite (IH f r' R). reflexivity.
Qed.
Fixpoint chain (fuel : nat) (st : store) (t : ty) : list ty := t :: match fuel with 0 => [] | S f => match base_of st t with TNil => [] | b => chain f st b end end.
Lemma chain_ok st : forall fuel t b u, leads fuel st t = Some b -> ancestor st t u -> In u (chain fuel st t).
Proof.
  induction fuel as [|f IH]; intros t b u H A; (inversion A as [|t' u' Hn Ha]; subst; [left; reflexivity|]).
  - destruct t; cbn [leads] in H; try discriminate. exfalso. apply Hn. reflexivity.
  - destruct t as [|x|n|i]; cbn [leads] in H; try discriminate; [exfalso; apply Hn; reflexivity|]. cbn [chain]. right. pose proof (IH _ _ _ H Ha) as Q. destruct (base_of st (TPtr i)); [congruence|exact Q|exact Q|exact Q].
Qed.
Section Decide.
  Variable public : xname -> string.
  Variable exported : string -> bool.
  Variable fuel : nat.
  Variable st : store.
  Variable declares : xattr -> bool.
  (* the local names of attributes that declare prefixes *)
  Variable locals : list string.
  Hypothesis Hd : forall x, declares x = true -> mem_str (nlocal (aname x)) locals = true.
  Definition usableb (x : string) : bool := (exported x && negb (String.eqb x "XMLName"))%bool.
  Definition tag_okb (n : xname) : bool := (negb (String.eqb (nlocal n) "") && negb (unquotable (nspace n)) && negb (unquotable (nlocal n)) && negb (s_in " " (nspace n)) && negb (s_in " " (nlocal n)) && negb (s_in "," (nlocal n)) && negb (s_in ">" (nlocal n)))%bool.
  Definition bytesb (t : ty) : bool := match leads fuel st t with Some b => match builtin_expr b with Returns (Some (GArray g)) => String.eqb g "byte" | _ => true end | None => false end.
  Definition text_names (i : nat) : list string :=
    ((match leads fuel st (TPtr i) with Some b => if (b =? 0)%Z then [] else ["Value"] | None => ["Value"] end) ++
     flat_map (fun t => match t with TPtr k => match nth_error st k with Some (DS s) => [public (sd_name s)] | _ => [] end | _ => [] end) (chain fuel st (TPtr i)))%list.
  Definition clear_typeb (i : nat) (c : complexT) (es : list element) (ats : list attribute) : bool :=
    let g := given public es ats in
    (all_apart_b (map (mkName "") g) &&
     forallb (fun e => if el_wild e then usableb (item_name e) && negb (mem_str (item_name e) g) else usableb (public (el_name e))) es &&
     forallb (fun a => usableb (public (at_name a))) ats &&
     (negb (ct_mixed c) || match leads fuel st (TPtr i) with Some _ => true | None => false end && forallb (fun x => usableb x && negb (mem_str x g) && forallb (fun e => negb (el_wild e && String.eqb x (item_name e))) es) (text_names i)) &&
     forallb (fun e => el_wild e || tag_okb (el_name e)) es && forallb (fun a => tag_okb (at_name a)) ats && all_apart_b (map el_key es) && all_apart_b (map at_key ats) &&
     forallb (fun e => negb (el_plural e || el_wild e) || String.eqb (el_default e) "" && match leads fuel st (el_type e) with Some b => negb (non_trivial b) | None => false end) es &&
     forallb (fun e => negb (el_plural e) || bytesb (el_type e)) es &&
     forallb (fun a => negb (is_complex st (at_type a))) ats &&
     (negb (ct_mixed c) || bytesb (TPtr i)) &&
     forallb (fun a => negb (mem_str (nlocal (at_name a)) locals)) ats)%bool.
  Lemma usableb_ok x : usableb x = true -> usable exported x.
  Proof. intros H. apply andb_true_iff in H as [H1 H2]. split; [exact H1|]. apply negb_true_iff, String.eqb_neq in H2. exact H2. Qed.
  Lemma tag_okb_ok n : tag_okb n = true -> tag_ok n.
  Proof. unfold tag_okb, tag_ok. rewrite !andb_true_iff, !negb_true_iff, String.eqb_neq. tauto. Qed.
  Lemma bytesb_ok t b g : bytesb t = true -> ancestor st t (TB b) -> builtin_expr b = Returns (Some (GArray g)) -> g = "byte".
  Proof. unfold bytesb. destruct (leads fuel st t) as [z|] eqn:E; [|discriminate]. intros H A B. rewrite (root_unique st t z b (leads_ok _ _ _ _ E) A), B in H. apply String.eqb_eq. exact H. Qed.
  Lemma apart_map l : all_apart_b (map (mkName "") l) = true -> NoDup l.
  Proof. intros H. apply all_apart_ok, apart_nodup in H. exact (NoDup_map_inv _ _ H). Qed.
  Lemma clear_typeb_ok i c es ats : clear_typeb i c es ats = true -> clear_type public exported declares None st i c es ats.
  Proof.
    unfold clear_typeb. cbv zeta. rewrite !andb_true_iff. intros ((((((((((((H1 & H2) & H3) & H4) & H5) & H6) & H7) & H8) & H9) & H10) & H11) & H12) & H13).
    rewrite forallb_forall in H2, H3, H5, H6, H9, H10, H11, H13. constructor.
    - exact (apart_map _ H1).
    - intros e He. specialize (H2 e He). cbv beta in H2. destruct (el_wild e); [|exact (usableb_ok _ H2)]. apply andb_true_iff in H2 as [Q1 Q2]. split; [exact (usableb_ok _ Q1)|]. apply mem_str_out. apply negb_true_iff. exact Q2.
    - intros a Ha. exact (usableb_ok _ (H3 a Ha)).
    - intros M x Tn. rewrite M in H4. cbn [negb orb] in H4. apply andb_true_iff in H4 as [L0 H4]. destruct (leads fuel st (TPtr i)) as [b|] eqn:L; [|discriminate]. rewrite forallb_forall in H4.
      assert (Hx : In x (text_names i)).
      { unfold text_names. apply in_or_app. destruct Tn as [(-> & z & A & Nz)|(k & s & A & Ek & ->)]; [left|right].
        - rewrite L. rewrite (root_unique st _ z b A (leads_ok _ _ _ _ L)) in Nz. apply Z.eqb_neq in Nz. rewrite Nz. left. reflexivity.
        - apply in_flat_map. exists (TPtr k). split; [exact (chain_ok st fuel _ b _ L A)|]. rewrite Ek. left. reflexivity. }
      specialize (H4 x Hx). cbv beta in H4. rewrite !andb_true_iff in H4. destruct H4 as ((Q1 & Q2) & Q3). split; [exact (usableb_ok _ Q1)|]. split; [apply mem_str_out, negb_true_iff; exact Q2|]. intros e He We. rewrite forallb_forall in Q3. specialize (Q3 e He). cbv beta in Q3. rewrite We in Q3. cbn [andb] in Q3. apply negb_true_iff, String.eqb_neq in Q3. exact Q3.
    - intros e He We. specialize (H5 e He). cbv beta in H5. rewrite We in H5. exact (tag_okb_ok _ H5).
    - intros a Ha. exact (tag_okb_ok _ (H6 a Ha)).
    - exact (all_apart_ok _ H7).
    - exact (all_apart_ok _ H8).
    - intros e He Q. specialize (H9 e He). cbv beta in H9. destruct (el_plural e || el_wild e)%bool eqn:P; [|apply Bool.orb_false_iff in P; exact P]. exfalso. cbn [negb orb] in H9. apply andb_true_iff in H9 as [Q1 Q2]. apply String.eqb_eq in Q1. destruct Q as [Q|(b & Q & Nb)]; [contradiction|].
      destruct (leads fuel st (el_type e)) as [z|] eqn:L; [|discriminate]. rewrite (root_unique st _ z b (leads_ok _ _ _ _ L) (kept_ancestor _ _ _ _ Q)), Nb in Q2. discriminate.
    - intros e b g He P Q. specialize (H10 e He). cbv beta in H10. rewrite P in H10. exact (bytesb_ok _ b g H10 (kept_ancestor _ _ _ _ Q)).
    - intros a Ha. apply negb_true_iff. exact (H11 a Ha).
    - intros M b g. rewrite M in H12. exact (bytesb_ok _ b g H12).
    - intros a x Ha Dx Ex. exfalso. specialize (H13 a Ha). cbv beta in H13. apply Hd in Dx. rewrite Ex in Dx. rewrite Dx in H13. discriminate.
  Qed.
  Definition clear_codeb (decls : list (string * spec)) : bool :=
    forallb (fun p => match sp_struct (snd p), sp_type (snd p) with
      | Some _, TPtr i => match nth_error st i with
          | Some (DC c) => forallb (fun d => match d with DS s => negb (String.eqb (public (ct_name c)) (public (sd_name s))) | DC _ => true end) st &&
                           match all_of fuel st i with Some (es, ats) => clear_typeb i c es ats | None => false end
          | _ => true end
      | _, _ => true end)%bool decls.
  Lemma filter_all {A} (l : list A) : filter (fun _ => negb false) l = l.
  Proof. induction l as [|a l IH]; [reflexivity|]. cbn. f_equal. exact IH. Qed.
  Lemma clear_codeb_ok decls : clear_codeb decls = true -> clear_code public exported declares None None st decls.
  Proof.
    unfold clear_codeb. rewrite forallb_forall. intros H.
    assert (X : forall i c, struct_for_type decls i -> nth_error st i = Some (DC c) -> forallb (fun d => match d with DS s => negb (String.eqb (public (ct_name c)) (public (sd_name s))) | DC _ => true end) st = true /\ match all_of fuel st i with Some (es, ats) => clear_typeb i c es ats | None => false end = true).
    { intros i c (n & s & E & Et) Ei. unfold structs_of in E. destruct (sget n decls) as [s'|] eqn:Es; [|discriminate]. destruct (sp_struct s') as [l|] eqn:El; [|discriminate]. injection E as ->. apply sget_in in Es. specialize (H _ Es). cbn [snd] in H. rewrite El, Et, Ei in H. apply andb_true_iff in H. exact H. }
    split.
    - intros i j c s Hi Ei Ej. destruct (X i c Hi Ei) as [Q _]. rewrite forallb_forall in Q. specialize (Q _ (nth_error_In _ _ Ej)). cbv beta iota in Q. apply negb_true_iff, String.eqb_neq in Q. exact Q.
    - intros i c es ats Hi Ei J. destruct (X i c Hi Ei) as [_ Q]. destruct (all_of fuel st i) as [r|] eqn:R; [|discriminate]. rewrite (all_of_ok st i es ats J fuel r R) in Q. cbn [filtered]. rewrite !filter_all. exact (clear_typeb_ok i c es ats Q).
  Qed.
End Decide.
Lemma xmlns_local x : xmlns x = true -> mem_str (nlocal (aname x)) ["xmlns"] = true.
Proof. unfold xmlns. intros H. apply andb_true_iff in H as [_ H]. apply String.eqb_eq in H. rewrite H. reflexivity. Qed.

(* ---------- a schema with text, lists, inheritance, dates, repeated elements and a wildcard ---------- *)
Definition capital (c : Ascii.ascii) : Ascii.ascii := let n := Ascii.nat_of_ascii c in if (Nat.leb 97 n && Nat.leb n 122)%bool then Ascii.ascii_of_nat (n - 32) else if (Nat.leb 65 n && Nat.leb n 90)%bool then c else "X"%char.
Definition go_pub (n : xname) : string := match nlocal n with String c s => String (capital c) s | "" => "X" end.
Lemma capital_upper c s : upper (String (capital c) s) = true.
Proof. destruct c as [[] [] [] [] [] [] [] []]; reflexivity. Qed.
Lemma go_pub_upper n : upper (go_pub n) = true.
Proof. unfold go_pub. destruct (nlocal n) as [|c s]; [reflexivity|apply capital_upper]. Qed.
Lemma upper_free x : upper x = true -> String.prefix "[]" x = false /\ ~ In x go_types /\ forall b, non_trivial b = true -> x <> helper_name b.
Proof.
  intros H. split; [|split].
  - destruct x as [|c s]; [reflexivity|]. cbn [String.prefix]. destruct (Ascii.ascii_dec "[" c) as [<-|]; [discriminate H|reflexivity].
  - intros I. assert (Q : forallb (fun x => negb (upper x)) go_types = true) by (vm_compute; reflexivity). rewrite forallb_forall in Q. specialize (Q x I). rewrite H in Q. discriminate.
  - intros b Nb ->. unfold non_trivial in Nb. apply existsb_exists in Nb as (z & I & E). apply Z.eqb_eq in E as <-. repeat (destruct I as [<-|I]; [vm_compute in H; discriminate H|]). destruct I.
Qed.
Lemma go_pub_names : go_names go_pub.
Proof. intros n. apply upper_free, go_pub_upper. Qed.
Definition fleet : store := (shop ++ [DC (ct_of "Fleet" (TB 0) [many (el_of "truck" (TPtr 4)); el_of "label" (TPtr 8); any_el true] [at_of "owner" (TPtr 1)] false)])%list.
Definition fleet_types : list (list ty) := [[TPtr 9]; [TPtr 6]].
Definition fleet_rank (i : nat) : nat := match i with 9 => 5 | _ => shop_rank i end.
Definition fleet_decls : list (string * spec) := Eval vm_compute in match gen go_pub None None None None all_helpers false fleet fleet_types with Ret (inr c) => co_decls c | _ => [] end.
Lemma fleet_ok : generable fleet_rank fleet /\ wild_named fleet /\ firm None fleet /\ (forall i, fleet_rank i <= N.to_nat 1000) /\ (forall types t, In types fleet_types -> In t types -> known fleet t) /\
  clear_code go_pub upper xmlns None None fleet fleet_decls.
Proof.
  split; [apply (generableb_ok 6); vm_compute; reflexivity|]. split; [apply wildb_ok; vm_compute; reflexivity|]. split; [apply firmb_ok; vm_compute; reflexivity|].
  split; [intros i; do 10 (destruct i as [|i]; [cbn [fleet_rank shop_rank car_rank]; lia|]); cbn [fleet_rank shop_rank car_rank]; lia|].
  split; [intros types t H1 H2; apply knownb_ok; revert t H2; apply forallb_forall; revert types H1; apply forallb_forall; vm_compute; reflexivity|].
  apply (clear_codeb_ok go_pub upper 6 _ xmlns ["xmlns"] xmlns_local). vm_compute. reflexivity.
Qed.
Definition fleet_structs : string -> option spec := structs_of fleet_decls.
(* zero values: a struct of zero values *)
Fixpoint zero_at (structs : string -> option spec) (fuel : nat) (e : gexpr) : val string :=
  if leaf structs e then VLeaf _ "" else
  match e, fuel with
  | EArr _, _ => VSlice _ []
  | EId n, S f => match structs n with Some s => match sp_struct s with Some fs => VStruct _ (map (fun x => zero_at structs f (sf_expr x)) fs) | None => VLeaf _ "" end | None => VLeaf _ "" end
  | EId _, 0 => VLeaf _ ""
  end.
Definition fleet_zero : gexpr -> val string := zero_at fleet_structs 3.
Lemma structs_in decls n s : structs_of decls n = Some s -> In (n, s) decls.
Proof. unfold structs_of. destruct (sget n decls) as [s'|] eqn:E; [|discriminate]. destruct (sp_struct s'); [|discriminate]. intros [= <-]. apply sget_in. exact E. Qed.
Ltac zeros f := split; [intros e H; unfold f; cbn [zero_at]; rewrite H; reflexivity|split; [intros e H; unfold f; cbn [zero_at]; rewrite H; reflexivity|intros n s fs E; apply structs_in in E; intros F; repeat (destruct E as [E|E]; [injection E as <- <-; first [discriminate F|injection F as <-; vm_compute; reflexivity]|]); destruct E]].
Lemma fleet_zero_ok : zero_ok fleet_structs string nothing fleet_zero.
Proof. zeros fleet_zero. Qed.
Definition a_car (i : string) : val string := VStruct _ [L "red"; L "Kim"; L "old"; L i].
Definition a_truck : val string := VStruct _ [L "blue"; L "Lee"; L ""; a_car "7"; L ""].
Definition a_fleet : val string := VStruct _ [VSlice _ [a_truck; a_truck]; VStruct _ [L "red"; L "en"]; VSlice _ [L "x"; L "y"]; L "Kim"].
Definition leaf_doc (l t : string) : node := NElem (q l) [] [NText t].
Definition truck_doc (no_text : list node) : node := NElem (q "truck") [] [leaf_doc "color" "blue"; leaf_doc "owner" "Lee"; NElem (q "note") [] no_text; NElem (q "trailer") [mkAttr (mkName "" "id") "7"] [leaf_doc "color" "red"; leaf_doc "owner" "Kim"; leaf_doc "note" "old"]].
Definition fleet_doc (extra : list xattr) (space : string) (no_text : list node) : node := NElem (q "Fleet") (extra ++ [mkAttr (mkName "" "owner") "Kim"])
  [truck_doc no_text; truck_doc no_text; NElem (q "label") [mkAttr (mkName "" "lang") "en"] [NText "red"]; NElem (mkName space "Items") [] [NText "x"]; NElem (mkName space "Items") [] [NText "y"]].
Lemma fleet_typed : has_type fleet_structs string any_text (EId "Fleet") a_fleet.
Proof. typed. Qed.
Lemma fleet_marshals : marshal upper fleet_structs string txt no_text a_fleet (q "Fleet") (EId "Fleet") = [fleet_doc [] "" [NText ""]].
Proof. vm_compute. reflexivity. Qed.
(* with a declaration on the root element, whose name space is that of the elements without one, and no text where it is empty *)
Lemma fleet_reads_back : reads_back xmlns id "" (fleet_doc [] "" [NText ""]) (fleet_doc [mkAttr (mkName "" "xmlns") "urn:a"] "urn:a" []).
Proof. unfold fleet_doc, truck_doc, leaf_doc. back. Qed.
Lemma fleet_unmarshals : unmarshal upper fleet_structs string untxt fleet_zero (fleet_doc [mkAttr (mkName "" "xmlns") "urn:a"] "urn:a" []) (EId "Fleet") (fleet_zero (EId "Fleet")) = Some a_fleet.
Proof. vm_compute. reflexivity. Qed.

(* ---------- a struct with the Go name of a simple type ---------- *)
(* an attribute of type foo is declared with the type Foo, a struct *)
Definition kin : store := [DC (ct_of "Foo" (TB 0) [el_of "a" (TB 38)] [] false); DS (enum_of "foo" (TB 38) ["x"]); DC (ct_of "Holder" (TB 0) [el_of "b" (TPtr 0)] [at_of "k" (TPtr 1)] false)].
Definition kin_types : list (list ty) := [[TPtr 1; TPtr 0; TPtr 2]].
Definition kin_code : code := Eval vm_compute in match gen go_pub None None None None all_helpers false kin kin_types with Ret (inr c) => c | _ => mkCode [] [] [] end.
Definition kin_zero : gexpr -> val string := zero_at (structs_of (co_decls kin_code)) 3.
Definition a_holder : val string := VStruct _ [VStruct _ [L "1"]; VStruct _ [L "2"]].
Lemma kin_lost : generable (fun i => i) kin /\ wild_named kin /\ firm None kin /\ (forall types t, In types kin_types -> In t types -> known kin t) /\
  gen go_pub None None None None all_helpers false kin kin_types = Ret (inr kin_code) /\
  (forall i c es ats, nth_error kin i = Some (DC c) -> inherits kin i es ats -> clear_type go_pub upper xmlns None kin i c es ats) /\
  zero_ok (structs_of (co_decls kin_code)) string nothing kin_zero /\ has_type (structs_of (co_decls kin_code)) string any_text (EId "Holder") a_holder /\
  exists y, marshal upper (structs_of (co_decls kin_code)) string txt no_text a_holder (q "Holder") (EId "Holder") = [y] /\ reads_back xmlns id "" y y /\
    unmarshal upper (structs_of (co_decls kin_code)) string untxt kin_zero y (EId "Holder") (kin_zero (EId "Holder")) <> Some a_holder.
Proof.
  split; [apply (generableb_ok 6); vm_compute; reflexivity|]. split; [apply wildb_ok; vm_compute; reflexivity|]. split; [apply firmb_ok; vm_compute; reflexivity|].
  split; [intros types t H1 H2; apply knownb_ok; revert t H2; apply forallb_forall; revert types H1; apply forallb_forall; vm_compute; reflexivity|].
  split; [vm_compute; reflexivity|]. split.
  { intros i c es ats E J. apply (clear_typeb_ok go_pub upper 6 _ xmlns ["xmlns"] xmlns_local). destruct (all_of 6 kin i) as [r|] eqn:R; [pose proof (all_of_ok _ _ _ _ J 6 r R) as Q|]; do 3 (destruct i as [|i]; [try discriminate E; vm_compute in R; first [discriminate R|injection R as <-; injection Q as <- <-; injection E as <-; vm_compute; reflexivity]|]); destruct i; discriminate E. }
  split; [zeros kin_zero|]. split; [typed|]. eexists. split; [vm_compute; reflexivity|]. split; [back|]. vm_compute. discriminate.
Qed.
