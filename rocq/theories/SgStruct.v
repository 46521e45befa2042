(* Model of genComplexType, genSimpleType without its list case, genTypeSpec, and of gen and GenAST
   (xsdgen/xsdgen.go:134-260, 525-546, 592-796, 868-901; config.go:442-479; cli.go:20-52). *)
From Verif Require Import Base ScopeModel TreeModel EqualModel Utf8 Decimal BuiltinModel CodecModel XsdModel TypesModel GraphModel GenModel SgModel.
Local Open Scope string_scope.

Inductive gexpr := EId (n : string) | EArr (e : gexpr).
Fixpoint expr_text (e : gexpr) : string := match e with EId n => n | EArr e => "[]" ++ expr_text e end.
Definition of_gotype (g : gotype) : gexpr := match g with GIdent n => EId n | GArray n => EArr (EId n) end.
Record sfield := mkField { sf_name : string; sf_expr : gexpr; sf_tag : string }.
(* xsdgen.go:548-554 *)
Record override := mkOverride { ov_field : string; ov_from : string; ov_to : string; ov_default : string; ov_type : ty; ov_tag : string }.
Record spec := mkSpec { sp_name : string; sp_doc : string; sp_struct : option (list sfield); sp_expr : option gexpr; sp_overrides : list override; sp_type : ty; sp_helpers : list Z }.

Section Struct.
  Variable public : xname -> string.
  Variable fa : option (attribute -> bool).
  Variable fe : option (element -> bool).
  (* the built-ins that have an entry in cfg.helperTypes *)
  Variable helpers : list Z.

  (* config.go:442-451; Fail is the error return *)
  Definition expr_of (st : store) (t : ty) : run gexpr :=
    match t with
    | TB b => match builtin_expr b with BuiltinModel.Panics => Panic | Returns None => Fail | Returns (Some g) => Ret (of_gotype g) end
    | _ => match type_name st t with Some n => Ret (EId (public n)) | None => Panic end
    end.
  (* config.go:453-467 *)
  Definition expr_string (st : store) (t : ty) : run string :=
    match expr_of st t with Ret e => Ret (expr_text e) | Fail => Ret "" | Panic => Panic | Loops => Loops end.
  (* config.go:617, 667, 692: the names of helper types *)
  Definition helper_name (b : Z) : string := "xsd" ++ b_string b.
  Definition quoted (s : string) : string := "xml:""" ++ s ++ """".

  (* xsdgen.go:604-610: past complex types, down to a simple or built-in type *)
  Fixpoint drill (fuel : nat) (st : store) (base : ty) : run ty :=
    match base_of st base with
    | TNil => match base with TNil => Panic | _ => Ret base end
    | b => if is_simple st base then Ret base else match fuel with 0 => Loops | S f => drill f st b end
    end.
  (* the override for a field of type t, with the helper type if there is one: 703-720, 749-766, 626-640 *)
  Definition override_for (st : store) (t : ty) (default name tag : string) : run (list override * list Z) :=
    if (negb (String.eqb default "") || non_trivial_ty t)%bool then
      andthen (expr_string st t) (fun from =>
        match t with
        | TB b => if non_trivial b then
                    if memb b helpers then Ret ([mkOverride name from (helper_name b) default t tag], [b]) else Fail
                  else Ret ([mkOverride name from from default t tag], [])
        | _ => Ret ([mkOverride name from from default t tag], [])
        end)
    else Ret ([], []).

  Record gstate := mkG { g_taken : list string; g_fields : list sfield; g_over : list override; g_help : list Z }.
  (* xsdgen.go:600-648 *)
  Definition chardata (st : store) (c : complexT) : run gstate :=
    if ct_mixed c then
      andthen (drill (S (List.length st)) st (ct_base c)) (fun base =>
      andthen (expr_of st base) (fun e =>
        match base with
        | TB b => if (b =? 0)%Z then Ret (mkG [] [] [] []) else
            andthen (if non_trivial b then override_for st base "" "Value" (quoted ",chardata") else Ret ([], [])) (fun oh =>
              let (taken, name) := unique [] "Value" in
              Ret (mkG taken [mkField name e (quoted ",chardata")] (fst oh) (snd oh)))
        | _ => if is_simple st base then Ret (mkG [] [mkField (expr_text e) e (quoted ",chardata")] [] []) else Panic
        end))
    else Ret (mkG [] [] [] []).
  (* xsdgen.go:650-673 *)
  Definition inherit (st : store) (c : complexT) : complexT :=
    match ct_base c with
    | TPtr j =>
        match get_c st j with
        | Some b =>
            let ats := merge_attributes (ct_attrs c) (ct_attrs b) in
            set_fields c (if existsb el_wild (ct_elems c) then ct_elems c
                          else match find el_wild (ct_elems b) with Some e => (ct_elems c ++ [e])%list | None => ct_elems c end) ats
        | None => c
        end
    | _ => c
    end.
  (* xsdgen.go:679-721 *)
  Definition element_tag (e : element) : string :=
    quoted (nspace (el_name e) ++ " " ++ nlocal (el_name e) ++ (if (el_nillable e || el_optional e)%bool then ",omitempty" else "")).
  Definition element_field (st : store) (g : gstate) (e : element) : run gstate :=
    andthen (expr_of st (el_type e)) (fun base =>
      let (taken, name) := element_name public (g_taken g) (el_name e) in
      let name := if el_wild e then if el_plural e then "Items" else "Item" else name in
      let tag := if el_wild e then quoted ",any" else element_tag e in
      let base := if (el_wild e && match el_type e with TB b => (b =? 0)%Z | _ => false end)%bool then EId "string" else base in
      let base := if el_plural e then EArr base else base in
      andthen (override_for st (el_type e) (el_default e) name tag) (fun oh =>
        Ret (mkG taken (g_fields g ++ [mkField name base tag]) (g_over g ++ fst oh) (g_help g ++ snd oh)%list))).
  (* xsdgen.go:722-767 *)
  Definition attribute_tag (a : attribute) : string :=
    let qualified := existsb (fun x => (xname_eqb (aname x) (mkName "" "form") && String.eqb (avalue x) "qualified")%bool) (at_attr a) in
    quoted ((if qualified then nspace (at_name a) ++ " " else "") ++ nlocal (at_name a) ++ ",attr" ++ (if at_optional a then ",omitempty" else "")).
  Definition attribute_field (st : store) (g : gstate) (a : attribute) : run gstate :=
    andthen (expr_of st (at_type a)) (fun base =>
      let (taken, name) := attribute_name public (g_taken g) (at_name a) in
      let tag := attribute_tag a in
      andthen (override_for st (at_type a) (at_default a) name tag) (fun oh =>
        Ret (mkG taken (g_fields g ++ [mkField name base tag]) (g_over g ++ fst oh) (g_help g ++ snd oh)%list))).
  (* xsdgen.go:592-796; i is where t is stored *)
  Definition gen_complex (st : store) (i : nat) (c : complexT) : run (store * list spec) :=
    andthen (chardata st c) (fun g =>
      let c := inherit st c in
      let st := put_c st i c in
      let (ats, els) := filter_fields fa fe c in
      andthen (foldr (element_field st) g els) (fun g =>
      andthen (foldr (attribute_field st) g ats) (fun g =>
        Ret (st, [mkSpec (public (ct_name c)) (ct_doc c) (Some (g_fields g)) None (g_over g) (TPtr i) (g_help g)])))).
  (* xsdgen.go:868-901, for lists see gen_list in BuiltinModel.v *)
  Definition gen_simple (st : store) (i : nat) (s : sdef) : run (list spec) :=
    match sd_union s with
    | _ :: _ => Ret [mkSpec (public (sd_name s)) (sd_doc s) None (Some (EId "string")) [] (TPtr i) []]
    | [] => andthen (expr_of st (sd_base s)) (fun base =>
        match sd_base s with
        | TB b => if non_trivial b then
                    if memb b helpers then Ret [mkSpec (public (sd_name s)) (sd_doc s) None (Some base) [] (TPtr i) [b]] else Fail
                  else Ret [mkSpec (public (sd_name s)) (sd_doc s) None (Some base) [] (TPtr i) []]
        | _ => Ret [mkSpec (public (sd_name s)) (sd_doc s) None (Some base) [] (TPtr i) []]
        end)
    end.
End Struct.

(* ---------- gen, GenAST: xsdgen.go:184-201, 229-260 ---------- *)
(* code.decls[s.name] = s over the specs in order *)
Definition declare {S} (decls : list (string * S)) (l : list (string * S)) : list (string * S) :=
  fold_left (fun m p => sset (fst p) (snd p) m) l decls.
(* the declarations in the file, for a sort that is any function that sorts *)
Definition gen_ast {S} (sort : list string -> list string) (decls : list (string * S)) : list (string * S) :=
  flat_map (fun n => match sget n decls with Some s => [(n, s)] | None => [] end) (sort (map fst decls)).

(* ---------- cli.go:20-52: the schemas to generate from, or the missing namespaces ---------- *)
Definition primaries (namespaces : list string) (deps : list string) : list string := filter (fun d => mem_str d namespaces) deps.
Definition check_namespaces (namespaces deps : list string) : sum (list string) (list string) :=
  let p := primaries namespaces deps in
  if Nat.ltb (List.length p) (List.length namespaces) then inl (filter (fun ns => negb (mem_str ns p)) namespaces) else inr p.
