(* C25, C52, C53, C68: the built-in types. *)
From Verif Require Import Base BuiltinModel BuiltinSpec BuiltinProofs.
Local Open Scope string_scope.

(* C25: ParseBuiltin accepts exactly the names of the fifty built-ins *)
Theorem C25_parse_builtin (q : xname) (b : Z) : parse_builtin q = Some b <-> (0 <= b < 50)%Z /\ b_name b = q.
Proof. exact (parse_builtin_spec q b). Qed.
Print Assumptions C25_parse_builtin.
Theorem C25_names_distinct (a b : Z) : (0 <= a < 50)%Z -> (0 <= b < 50)%Z -> b_name a = b_name b -> a = b.
Proof. exact (names_distinct a b). Qed.
Print Assumptions C25_names_distinct.
(* in the schema namespace these are the names of XML Schema Part 2, no more and no fewer *)
Theorem C25_w3c_names (n : string) : (exists b, parse_builtin (mkName schemaNS n) = Some b) <-> In n w3c.
Proof. exact (conj (only_w3c n) (w3c_known n)). Qed.
Print Assumptions C25_w3c_names.
(* the attributes of the XML namespace are not found under their names *)
Theorem C25_xml_attributes_refuted (s : string) : parse_builtin (mkName "http://www.w3.org/XML/1998/namespace" s) = None.
Proof. exact (xml_lang_unknown s). Qed.
Print Assumptions C25_xml_attributes_refuted.
Theorem C25_builtin_schema (q : xname) (b : Z) : In (q, b) builtin_schema <-> (0 <= b < 44)%Z /\ q = b_name b.
Proof. exact (schema_entries q b). Qed.
Print Assumptions C25_builtin_schema.
Theorem C25_builtin_schema_complete_refuted : exists n, In n w3c /\ forall b, ~ In (mkName schemaNS n, b) builtin_schema.
Proof. exact schema_omits. Qed.
Print Assumptions C25_builtin_schema_complete_refuted.
Example c25_ex : parse_builtin (mkName schemaNS "gMonthDay") = Some 24%Z /\ parse_builtin (mkName schemaNS "GMonthDay") = None /\
  b_name 45 = mkName "http://www.w3.org/2009/01/xml.xsd" "xMLLang".
Proof. vm_compute. auto. Qed.

(* C52 *)
Theorem C52_total (b : Z) : (0 <= b < 50)%Z -> ((exists t, builtin_expr b = Returns (Some t)) <-> ~ (45 <= b <= 48)%Z).
Proof. exact (expr_total b). Qed.
Print Assumptions C52_total.
Theorem C52_panics (b : Z) : builtin_expr b = Panics <-> b = 50%Z.
Proof. exact (expr_panics b). Qed.
Print Assumptions C52_panics.
Theorem C52_go_types (b : Z) : (0 <= b < 50)%Z -> nlocal (b_name b) <> "byte" -> nlocal (b_name b) <> "NOTATION" ->
  builtin_expr b = Returns (go_type (nlocal (b_name b))).
Proof. exact (go_types b). Qed.
Print Assumptions C52_go_types.
Theorem C52_notation_refuted : exists b, nlocal (b_name b) = "NOTATION" /\ ~ In "NOTATION" token_lists /\
  builtin_expr b = Returns (Some (GArray "string")).
Proof. exact notation_list. Qed.
Print Assumptions C52_notation_refuted.
Example c52_ex : builtin_expr 17 = Returns (Some (GIdent "time.Time")) /\ builtin_expr (-1) = Returns None /\ builtin_expr 51 = Returns None.
Proof. vm_compute. auto. Qed.

(* C68: the bounded integers fit their Go types, except byte *)
Theorem C68_ranges (b lo hi : Z) : (0 <= b < 50)%Z -> xsd_range (nlocal (b_name b)) = Some (lo, hi) -> nlocal (b_name b) <> "byte" ->
  exists t lo' hi', builtin_expr b = Returns (Some t) /\ go_range t = Some (lo', hi') /\ (lo' <= lo)%Z /\ (hi <= hi')%Z.
Proof. exact (ranges b lo hi). Qed.
Print Assumptions C68_ranges.
Theorem C68_byte_refuted : exists b t lo hi lo' hi', (0 <= b < 50)%Z /\ builtin_expr b = Returns (Some t) /\
  xsd_range (nlocal (b_name b)) = Some (lo, hi) /\ go_range t = Some (lo', hi') /\ (lo < lo')%Z.
Proof. exact byte_unsigned. Qed.
Print Assumptions C68_byte_refuted.
Example c68_ex : xsd_range (nlocal (b_name 42)) = Some (0, 4294967295)%Z /\ builtin_expr 42 = Returns (Some (GIdent "uint")).
Proof. vm_compute. auto. Qed.

(* C53: genSimpleListSpec for an item type whose bases end in the built-in b *)
Theorem C53_lists (i : item) (b : Z) : derives i b -> (0 <= b < 50)%Z ->
  gen_list (Some i) = match i, family (nlocal (b_name b)) with
    | IBuiltin _, Some c => if existsb (String.eqb (nlocal (b_name b))) xml_attrs then LErr else LOk c
    | _, Some c => LOk c
    | _, None => LErr end.
Proof. exact (gen_list_spec i b). Qed.
Print Assumptions C53_lists.
(* it panics exactly on chains that end elsewhere *)
Theorem C53_panic (i : item) : (forall b, derives i b -> (0 <= b < 50)%Z) -> (gen_list (Some i) = LPanic <-> forall b, ~ derives i b).
Proof. exact (gen_list_panic i). Qed.
Print Assumptions C53_panic.
(* not every atomic built-in can be the item of a list *)
Theorem C53_every_atomic_refuted : exists n b, In n w3c /\ ~ In n token_lists /\ parse_builtin (mkName schemaNS n) = Some b /\
  gen_list (Some (IBuiltin b)) = LErr.
Proof. exact atomic_lists. Qed.
Print Assumptions C53_every_atomic_refuted.
Example c53_ex : derives (IType (Some (IType (Some (IBuiltin 29))))) 29 /\ gen_list (Some (IType (Some (IType (Some (IBuiltin 29)))))) = LOk CInts /\
  gen_list (Some (IBuiltin 14)) = LErr /\ gen_list (Some (IType None)) = LPanic.
Proof. split; [repeat constructor|]. vm_compute. auto. Qed.
