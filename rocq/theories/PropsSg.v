(* C43, C45, C46, C47, C50, C51, C72, C73: the structs and declarations of generated code. *)
From Coq Require Import Sorted.
From Verif Require Import Base SortLib ScopeModel TreeModel EqualModel Utf8 Decimal BuiltinModel CodecModel XsdModel TypesModel TypesProofs GraphModel GenModel SgModel SgStruct SgProofs SgNames SgFieldNames SgTags SgDecl SgExamples.
Local Open Scope string_scope.

(* C43. Names of fields are distinct, for every way of making Go names out of XML names: the name
   generator on up to 1001 requests, then the whole struct. *)
Theorem C43_generator public rs : List.length rs <= 1 + N.to_nat 1000 -> NoDup (allot_all public [] rs).
Proof. exact (fun H => proj1 (allot_distinct public rs [] H)). Qed.
Print Assumptions C43_generator.
Theorem C43_first_comer_keeps_its_name public taken r : ~ In (public (snd r)) taken -> snd (allot public taken r) = public (snd r).
Proof. exact (allot_plain public taken r). Qed.
Print Assumptions C43_first_comer_keeps_its_name.
Theorem C43_struct public fa fe helpers st i c st' sps : gen_complex public fa fe helpers st i c = Ret (st', sps) -> ct_mixed c = false ->
  let (ats, els) := filter_fields fa fe (inherit st c) in Forall (fun e => el_wild e = false) els -> List.length els + List.length ats <= 1 + N.to_nat 1000 ->
  exists sp fs, sps = [sp] /\ sp_struct sp = Some fs /\ NoDup (map sf_name fs).
Proof. exact (gen_complex_distinct public fa fe helpers st i c st' sps). Qed.
Print Assumptions C43_struct.
(* with wildcards and text: the other fields are still told apart *)
Theorem C43_plain_fields public fa fe helpers st i c st' sps : gen_complex public fa fe helpers st i c = Ret (st', sps) ->
  let (ats, els) := filter_fields fa fe (inherit st c) in List.length ats + List.length els <= N.to_nat 1000 ->
  exists sp fs, sps = [sp] /\ sp_struct sp = Some fs /\ NoDup (map sf_name (filter plain fs)).
Proof. exact (gen_complex_names public fa fe helpers st i c st' sps). Qed.
Print Assumptions C43_plain_fields.
(* the names are those of the elements and attributes, if these differ; wildcards are called Item or Items *)
Theorem C43_field_names public fa fe helpers st i c st' sps : gen_complex public fa fe helpers st i c = Ret (st', sps) ->
  let (ats, els) := filter_fields fa fe (inherit st c) in
  let names := (map (fun e => public (el_name e)) els ++ map (fun a => public (at_name a)) ats)%list in
  exists sp cs es fs, sps = [sp] /\ sp_struct sp = Some (cs ++ es ++ fs)%list /\ List.length cs <= 1 /\ List.length fs = List.length ats /\
    Forall2 (fun e f => el_wild e = true -> sf_name f = if el_plural e then "Items" else "Item") els es /\
    (NoDup names -> (forall f, In f cs -> ~ In (sf_name f) names) ->
     Forall2 (fun e f => el_wild e = false -> sf_name f = public (el_name e)) els es /\ Forall2 (fun a f => sf_name f = public (at_name a)) ats fs).
Proof. exact (field_names public fa fe helpers st i c st' sps). Qed.
Print Assumptions C43_field_names.
(* an attribute called like an element gets a suffix *)
Theorem C43_attribute_suffix public taken n : In (public n) taken -> ~ In (public n ++ "Attr") taken -> snd (allot public taken (true, n)) = public n ++ "Attr".
Proof. exact (attribute_suffix public taken n). Qed.
Print Assumptions C43_attribute_suffix.
Definition apart := ct_of "T" (TB 0) [el_of "Id" (TB 38); any_el false; many (el_of "Name" (TB 38))] [at_of "Lang" (TB 38)] false.
Example C43_case_names : names_of (gen_complex pub None None [] [DC apart] 0 apart) = Some ["Id"; "Item"; "Name"; "Lang"] /\
  NoDup (map (fun e => pub (el_name e)) (ct_elems apart) ++ map (fun a => pub (at_name a)) (ct_attrs apart)).
Proof. split; [vm_compute; reflexivity|]. vm_compute. repeat constructor; intros H; repeat destruct H as [H|H]; try discriminate H; destruct H. Qed.
Theorem C43_wildcard_refuted : exists c, names_of (gen_complex pub None None [] [DC c] 0 c) = Some ["Items"; "Items"].
Proof. exact (ex_intro _ wild wild_names). Qed.
Print Assumptions C43_wildcard_refuted.
Theorem C43_text_refuted : exists c s, names_of (gen_complex pub None None [] [DC c; DS s] 0 c) = Some ["Foo"; "Foo"].
Proof. exact (ex_intro _ text_of (ex_intro _ (simple_of "Foo" (TB 38)) text_names)). Qed.
Print Assumptions C43_text_refuted.
Theorem C43_thousand_refuted : exists c st' sp fs, gen_complex pub None None [] [DC c] 0 c = Ret (st', [sp]) /\ sp_struct sp = Some fs /\ ~ NoDup (map sf_name fs).
Proof. exact (ex_intro _ crowd crowd_twice). Qed.
Print Assumptions C43_thousand_refuted.
Example C43_case : names_of (gen_complex pub None None [] [DC clash] 0 clash) = Some ["Id"; "Items"; "IdAttr"; "ItemsAttr"; "IdAttr0"].
Proof. exact clash_names. Qed.
Example C43_hypotheses : exists r, gen_complex pub None None [] [DC clash] 0 clash = Ret r /\ ct_mixed clash = false /\
  Forall (fun e => el_wild e = false) (snd (filter_fields None None (inherit [DC clash] clash))) /\
  List.length (snd (filter_fields None None (inherit [DC clash] clash))) + List.length (fst (filter_fields None None (inherit [DC clash] clash))) <= S max_dup.
Proof. exact clash_runs. Qed.

(* C45. Inherited attributes: own ones first, then those of the base whose name is new. *)
Theorem C45_merge src base : exists ext, merge_attributes src base = (src ++ ext)%list /\ subseq ext base /\ NoDup (map at_name ext) /\
  (forall a, In a ext -> ~ has_name (at_name a) src) /\
  (forall l1 a l2, base = (l1 ++ a :: l2)%list -> ~ has_name (at_name a) src -> ~ has_name (at_name a) l1 -> In a ext) /\
  (forall a, In a base -> has_name (at_name a) (src ++ ext)).
Proof. exact (merge_spec base src). Qed.
Print Assumptions C45_merge.
(* the same in one line, when no attribute of the base has a namesake *)
Theorem C45_distinct src base : NoDup (map at_name base) ->
  merge_attributes src base = (src ++ filter (fun b => negb (mem_name (at_name b) (map at_name src))) base)%list.
Proof. exact (merge_distinct src base). Qed.
Print Assumptions C45_distinct.
Example C45_case : map (fun a => nlocal (at_name a)) (merge_attributes [at_of "b" (TB 38); at_of "c" (TB 38)] [at_of "a" (TB 38); at_of "b" (TB 38); at_of "d" (TB 38); at_of "a" (TB 38)])
  = ["b"; "c"; "a"; "d"].
Proof. reflexivity. Qed.

(* C46. Ignored attributes and elements, by local name; everything else stays, in order. *)
Theorem C46_names an en c :
  filter_fields (Some (ignore_attributes an)) (Some (ignore_elements en)) c =
  (filter (fun a => negb (named_in an (nlocal (at_name a)))) (ct_attrs c), filter (fun e => negb (named_in en (nlocal (el_name e)))) (ct_elems c)).
Proof. exact (filter_fields_names an en c). Qed.
Print Assumptions C46_names.
Theorem C46_no_filter c : filter_fields None None c = (ct_attrs c, ct_elems c).
Proof. exact (filter_fields_none c). Qed.
Print Assumptions C46_no_filter.
Example C46_case : let c := ct_of "T" (TB 0) [el_of "a" (TB 38); el_of "b" (TB 38)] [at_of "a" (TB 38); at_of "b" (TB 38); at_of "c" (TB 38)] false in
  filter_fields (Some (ignore_attributes ["b"; "x"])) (Some (ignore_elements ["a"])) c = ([at_of "a" (TB 38); at_of "c" (TB 38)], [el_of "b" (TB 38)]).
Proof. reflexivity. Qed.

(* C47. The first type of each name. *)
Theorem C47_dedup st l r : dedup st [] l = Ret r ->
  subseq r l /\
  (forall v, In v l -> exists n w, type_name st v = Some n /\ In w r /\ type_name st w = Some n) /\
  (forall r1 v r2 n, r = (r1 ++ v :: r2)%list -> type_name st v = Some n -> forall w, In w r1 -> type_name st w <> Some n) /\
  (forall v n, In v r -> type_name st v = Some n -> exists l1 l2, l = (l1 ++ v :: l2)%list /\ forall w, In w l1 -> type_name st w <> Some n).
Proof. exact (dedup_from_nothing st l r). Qed.
Print Assumptions C47_dedup.
Theorem C47_named_types st l : (forall v, In v l -> type_name st v <> None) -> exists r, dedup st [] l = Ret r.
Proof. exact (dedup_ok st l []). Qed.
Print Assumptions C47_named_types.
Example C47_case : dedup [DS (simple_of "a" (TB 38)); DS (simple_of "b" (TB 38)); DS (simple_of "a" (TB 16))] [] [TPtr 0; TB 38; TPtr 1; TPtr 2; TB 38; TPtr 0] = Ret [TPtr 0; TB 38; TPtr 1].
Proof. reflexivity. Qed.

(* C50. Requested namespaces: with distinct names on both sides a success means that every one
   was found; an error lists exactly the missing ones. *)
Theorem C50_found ns deps p : NoDup ns -> NoDup deps -> check_namespaces ns deps = inr p ->
  p = filter (fun d => named_in ns d) deps /\ forall n, In n ns -> In n deps.
Proof. exact (fun N D H => conj (found_primaries ns deps p H) (found_all ns deps D p H N)). Qed.
Print Assumptions C50_found.
Theorem C50_missing ns deps m : NoDup ns -> check_namespaces ns deps = inl m -> m <> [] /\ forall n, In n m <-> In n ns /\ ~ In n deps.
Proof. exact (fun N H => missing_reported ns deps m H N). Qed.
Print Assumptions C50_missing.
(* two schemas of one namespace hide that another is missing *)
Theorem C50_masked_refuted : exists ns deps p, NoDup ns /\ check_namespaces ns deps = inr p /\ exists n, In n ns /\ ~ In n deps.
Proof. exact masked. Qed.
Print Assumptions C50_masked_refuted.
(* a namespace asked for twice is an error that names no namespace *)
Theorem C50_asked_twice_refuted : check_namespaces ["urn:a"; "urn:a"] ["urn:a"] = inl [].
Proof. exact eq_refl. Qed.
Print Assumptions C50_asked_twice_refuted.
Example C50_case : check_namespaces ["urn:a"; "urn:b"] ["urn:c"; "urn:b"] = inl ["urn:a"] /\ check_namespaces ["urn:a"; "urn:b"] ["urn:c"; "urn:b"; "urn:a"] = inr ["urn:b"; "urn:a"].
Proof. split; reflexivity. Qed.

(* C51. The declarations of the file: each name once, in order; of several specs of one name the
   last one added. *)
Theorem C51_sorted_once sort (l : list (string * spec)) : sorts_strings sort ->
  NoDup (map fst (gen_ast sort (declare [] l))) /\ Sorted le_str (map fst (gen_ast sort (declare [] l))) /\
  (forall n, In n (map fst (gen_ast sort (declare [] l))) <-> In n (map fst l)) /\
  (forall n s, In (n, s) (gen_ast sort (declare [] l)) <-> exists l1 l2, l = (l1 ++ (n, s) :: l2)%list /\ ~ In n (map fst l2)).
Proof. exact (declared_ast sort l). Qed.
Print Assumptions C51_sorted_once.
Theorem C51_any_order sort sort' (l l' : list (string * spec)) : sorts_strings sort -> sorts_strings sort' -> NoDup (map fst l) -> Permutation l l' ->
  gen_ast sort (declare [] l) = gen_ast sort' (declare [] l').
Proof. exact (declared_order sort sort' l l'). Qed.
Print Assumptions C51_any_order.
Theorem C51_collision_refuted : exists l l' : list (string * nat), Permutation l l' /\ gen_ast (isort_by id) (declare [] l) <> gen_ast (isort_by id) (declare [] l').
Proof. exact (ex_intro _ [("A", 1); ("A", 2)] (ex_intro _ [("A", 2); ("A", 1)] (conj (perm_swap _ _ []) collision))). Qed.
Print Assumptions C51_collision_refuted.
Example C51_case : sorts_strings (isort_by id) /\ gen_ast (isort_by id) (declare [] [("b", 1); ("a", 2); ("b", 3); ("B", 4)]) = [("B", 4); ("a", 2); ("b", 3)].
Proof. exact (conj sort_exists eq_refl). Qed.

(* C72. One field per element and attribute, in order, with its type, and a tag that encoding/xml
   reads as the name of the element or attribute. *)
Theorem C72_fields public fa fe helpers st i c st' sps : gen_complex public fa fe helpers st i c = Ret (st', sps) ->
  let c' := inherit st c in let (ats, els) := filter_fields fa fe c' in
  st' = put_c st i c' /\
  exists sp cs es fs, sps = [sp] /\ sp_name sp = public (ct_name c) /\ sp_doc sp = ct_doc c /\ sp_type sp = TPtr i /\ sp_struct sp = Some (cs ++ es ++ fs)%list /\
    Forall (fun f => sf_tag f = quoted ",chardata") cs /\ List.length cs <= 1 /\ (ct_mixed c = false -> cs = []) /\
    Forall2 (fun e f => sf_tag f = (if el_wild e then quoted ",any" else element_tag e) /\ element_expr public st' e (sf_expr f)) els es /\
    Forall2 (fun a f => sf_tag f = attribute_tag a /\ expr_of public st' (at_type a) = Ret (sf_expr f)) ats fs.
Proof. exact (gen_complex_fields public fa fe helpers st i c st' sps). Qed.
Print Assumptions C72_fields.
(* what a type has besides its own: the attributes of a complex base, and its first wildcard if there is none *)
Theorem C72_inherited st c : let c' := inherit st c in
  ct_name c' = ct_name c /\ ct_base c' = ct_base c /\ ct_mixed c' = ct_mixed c /\
  match ct_base c with
  | TPtr j => match get_c st j with
              | Some b => ct_attrs c' = merge_attributes (ct_attrs c) (ct_attrs b) /\
                          ct_elems c' = (ct_elems c ++ (if existsb el_wild (ct_elems c) then [] else firstn 1 (filter el_wild (ct_elems b))))%list
              | None => ct_attrs c' = ct_attrs c /\ ct_elems c' = ct_elems c
              end
  | _ => ct_attrs c' = ct_attrs c /\ ct_elems c' = ct_elems c
  end.
Proof. exact (inherited_fields st c). Qed.
Print Assumptions C72_inherited.
(* a simple type is declared as its base, a union as a string *)
Theorem C72_simple public helpers st i s sps : gen_simple public helpers st i s = Ret sps ->
  exists sp e, sps = [sp] /\ sp_name sp = public (sd_name s) /\ sp_doc sp = sd_doc s /\ sp_type sp = TPtr i /\ sp_struct sp = None /\ sp_expr sp = Some e /\ sp_overrides sp = [] /\
    (sd_union s <> [] -> expr_text e = "string" /\ sp_helpers sp = []) /\
    (sd_union s = [] -> expr_of public st (sd_base s) = Ret e /\ sp_helpers sp = helper_of (sd_base s) /\ forall b, In b (sp_helpers sp) -> In b helpers).
Proof. exact (simple_declared public helpers st i s sps). Qed.
Print Assumptions C72_simple.
Example C72_simple_case : exists sp, gen_simple pub [16%Z] [] 0 (simple_of "Foo" (TB 16)) = Ret [sp] /\ sp_helpers sp = [16%Z].
Proof. eexists. split; reflexivity. Qed.
Theorem C72_element_tag e : tag_name (el_name e) ->
  binds (element_tag e) (nspace (el_name e)) (nlocal (el_name e)) (omit (el_nillable e || el_optional e)).
Proof. exact (element_binds e). Qed.
Print Assumptions C72_element_tag.
Theorem C72_attribute_tag a : tag_name (at_name a) -> s_in " " (nlocal (at_name a)) = false ->
  binds (attribute_tag a) (if qualified a then nspace (at_name a) else "") (nlocal (at_name a)) ("attr" :: omit (at_optional a)).
Proof. exact (attribute_binds a). Qed.
Print Assumptions C72_attribute_tag.
Example C72_case : tag_name (mkName "urn:a" "b") /\ element_tag (el_of "b" (TB 38)) = "xml:""urn:a b""" /\ attribute_tag (at_of "b" (TB 38)) = "xml:""b,attr,omitempty""".
Proof. repeat split. Qed.

(* C73. The fields replaced while marshaling: each names a field of the struct, with its tag; if no
   such element is repeated, the conversion is between the type of that field and the helper type. *)
Theorem C73_overlays public fa fe helpers st i c st' sps : gen_complex public fa fe helpers st i c = Ret (st', sps) ->
  exists sp fs, sps = [sp] /\ sp_struct sp = Some fs /\ (forall o, In o (sp_overrides sp) -> overlays fs o) /\
    ((forall e, In e (snd (filter_fields fa fe (inherit st c))) -> el_plural e = false /\ el_wild e = false) -> forall o, In o (sp_overrides sp) -> converts fs o).
Proof. exact (gen_complex_overlays public fa fe helpers st i c st' sps). Qed.
Print Assumptions C73_overlays.
(* and there is one for every field with a default value or a date, time or binary type, together with
   the helper types that are needed *)
Theorem C73_complete public fa fe helpers st i c st' sps : gen_complex public fa fe helpers st i c = Ret (st', sps) -> ct_mixed c = false ->
  let (ats, els) := filter_fields fa fe (inherit st c) in
  exists sp, sps = [sp] /\
    map ov_key (sp_overrides sp) = (map (fun e => (if el_wild e then quoted ",any" else element_tag e, el_type e, el_default e)) (filter (fun e => needs (el_type e) (el_default e)) els) ++
      map (fun a => (attribute_tag a, at_type a, at_default a)) (filter (fun a => needs (at_type a) (at_default a)) ats))%list /\
    sp_helpers sp = (flat_map (fun e => helper_of (el_type e)) els ++ flat_map (fun a => helper_of (at_type a)) ats)%list.
Proof. exact (gen_complex_overlaid public fa fe helpers st i c st' sps). Qed.
Print Assumptions C73_complete.
Theorem C73_repeated_refuted : exists c st' sp f o, gen_complex pub None None [16%Z] [DC c] 0 c = Ret (st', [sp]) /\ sp_struct sp = Some [f] /\ sp_overrides sp = [o] /\
  sf_name f = ov_field o /\ expr_text (sf_expr f) = "[]time.Time" /\ ov_from o = "time.Time" /\ ov_to o = "xsdDate".
Proof. exact (ex_intro _ dates dates_converted). Qed.
Print Assumptions C73_repeated_refuted.
Example C73_case : exists r, gen_complex pub None None [16%Z; 17%Z] [DC one_date] 0 one_date = Ret r /\ List.length (flat_map sp_overrides (snd r)) = 2 /\
  forall e, In e (snd (filter_fields None None (inherit [DC one_date] one_date))) -> el_plural e = false /\ el_wild e = false.
Proof. exact one_date_runs. Qed.
