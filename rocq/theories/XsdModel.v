(* Model of the reading half of the xsd package: xsd/walk.go, the parse functions of
   xsd/parse.go:612-1002, Imports (parse.go:47-76) and the types of xsd/xsd.go. They only read
   the normalised tree, so elements are values. [None] is stop(): a panic caught by
   catchParseError, after which Parse returns an error and nothing else. *)
From Verif Require Import Base ScopeModel TreeModel EqualModel Utf8 Decimal BuiltinModel CodecModel.
Local Open Scope string_scope.

(* ---------- xsd.go ---------- *)
(* Type: nil, a Builtin, a linkedType, or a pointer to a definition, here an index into the
   store of all definitions created by Parse *)
Inductive ty := TNil | TB (b : Z) | TLink (n : xname) | TPtr (id : nat).

(* xsd.go:42-69 *)
Record element := mkElement {
  el_doc : string; el_name : xname; el_wild : bool; el_type : ty; el_abstract : bool; el_plural : bool;
  el_optional : bool; el_nillable : bool; el_default : string; el_attr : list xattr; el_scope : scope }.
(* xsd.go:76-95; Plural is never set *)
Record attribute := mkAttribute {
  at_name : xname; at_doc : string; at_type : ty; at_default : string; at_optional : bool;
  at_attr : list xattr; at_scope : scope }.
(* xsd.go:153-175 *)
Record complexT := mkComplex {
  ct_doc : string; ct_name : xname; ct_base : ty; ct_anon : bool; ct_elems : list element; ct_attrs : list attribute;
  ct_abstract : bool; ct_extends : bool; ct_mixed : bool }.

(* ---------- helpers ---------- *)
Definition xs (l : string) : xname := mkName schemaNS l.
(* parse.go:178-184 *)
Definition parse_type (n : xname) : ty := match parse_builtin n with Some b => TB b | None => TLink n end.
(* parse.go:755-769 *)
Definition parse_int (s : string) : option Z :=
  let s := trim_space s in
  if String.eqb s "" then Some 0%Z else if String.eqb s "unbounded" then Some (-1)%Z else atoi s.
(* parse.go:784-793 *)
Definition parse_bool (s : string) : option bool :=
  if (String.eqb s "" || String.eqb s "0" || String.eqb s "false")%bool then Some false
  else if (String.eqb s "1" || String.eqb s "true")%bool then Some true else None.
(* parse.go:795-802 *)
Definition parse_plural (el : elem) : option bool :=
  match parse_int (attr el "" "minOccurs") with
  | None => None
  | Some min => if (1 <? min)%Z then Some true
                else match parse_int (attr el "" "maxOccurs") with
                     | None => None
                     | Some max => Some ((max <? 0) || (1 <? max))%Z
                     end
  end.
(* xsd.go:244-249 *)
Definition nl := s1 "010".
Definition doc_append (a extra : string) : string := (if String.eqb a "" then a else a ++ nl ++ nl) ++ extra.
(* walk.go:34-53: fn over the children in the schema namespace; fn updates an accumulator *)
Definition in_schema (e : elem) : bool := String.eqb (nspace (e_name e)) schemaNS.
Fixpoint foldo {A B} (f : A -> B -> option A) (a : A) (l : list B) : option A :=
  match l with [] => Some a | b :: l' => match f a b with Some a' => foldo f a' l' | None => None end end.
Definition walk {A} (root : elem) (f : A -> elem -> option A) (a : A) : option A :=
  foldo f a (filter in_schema (e_children root)).
(* the elements el.Search(schemaNS, local) points to *)
Definition find_all (local : string) (root : elem) : list elem :=
  search_func_elems (fun e => name_match schemaNS local (e_name e)) root.
Definition local_is (e : elem) (s : string) : bool := String.eqb (nlocal (e_name e)) s.
Fixpoint mapo {A B} (f : A -> option B) (l : list A) : option (list B) :=
  match l with
  | [] => Some []
  | a :: l' => match f a, mapo f l' with Some b, Some m => Some (b :: m) | _, _ => None end
  end.

(* ---------- Imports (parse.go:47-76), after xmltree.Parse ---------- *)
Record ref := mkRef { r_ns : string; r_loc : string }.
Definition schemas_of (root : elem) : list elem :=
  if xname_eqb (e_name root) (xs "schema") then [root] else find_all "schema" root.
Definition imports (root : elem) : list ref :=
  (map (fun v => mkRef (attr v "" "namespace") (attr v "" "schemaLocation")) (find_all "import" root) ++
   flat_map (fun tree => map (fun v => mkRef (attr tree "" "targetNamespace") (attr v "" "schemaLocation")) (find_all "include" tree))
            (schemas_of root))%list.

Section Reading.
  (* parseAnnotation (parse.go:905-910): Unmarshal into annotation.UnmarshalXML, see DocModel.v *)
  Variable parse_annotation : elem -> option string.

  (* the walks of parseElement and parseAttribute: only annotations matter *)
  Definition docs (el : elem) : option string :=
    walk el (fun d e => if local_is e "annotation" then
                          match parse_annotation e with Some x => Some (doc_append d x) | None => None end
                        else Some d) "".

  (* parse.go:804-815 *)
  Definition parse_any (el : elem) : option element :=
    match parse_plural el with
    | None => None
    | Some p => let a := attr el "" "type" in
        Some (mkElement "" (mkName "" "") true
                (if String.eqb a "" then TB 0 else parse_type (resolve (e_scope el) a)) false p false false "" [] [])
    end.

  (* parse.go:817-848 *)
  Definition parse_optional (el : elem) : option bool :=
    let x := attr el "" "minOccurs" in
    if String.eqb x "" then Some (negb (String.eqb (attr el "" "default") ""))
    else match parse_int x with
         | None => None
         | Some n => Some ((n =? 0)%Z || negb (String.eqb (attr el "" "default") ""))
         end.
  Definition parse_element (ns : string) (el : elem) : option element :=
    match parse_bool (attr el "" "abstract"), parse_bool (attr el "" "nillable"), parse_plural el, parse_optional el, docs el with
    | Some ab, Some ni, Some pl, Some op, Some doc =>
        let t := if String.eqb (attr el "" "type") "" then TB 0 else parse_type (resolve (e_scope el) (attr el "" "type")) in
        let n := resolve_default (e_scope el) (attr el "" "name") ns in
        let n := match t with TLink l => mkName (nspace l) (nlocal n) | _ => n end in
        Some (mkElement doc n false t ab pl op ni (attr el "" "default") (e_attrs el) (e_scope el))
    | _, _, _, _, _ => None
    end.

  (* parse.go:850-875 *)
  Definition parse_attribute (ns : string) (el : elem) : option attribute :=
    match docs el with
    | None => None
    | Some doc =>
        let name := attr el "" "name" in
        let local := if s_in colon name then nlocal (resolve (e_scope el) name) else name in
        Some (mkAttribute (mkName ns local) doc (parse_type (resolve (e_scope el) (attr el "" "type"))) (attr el "" "default")
                (negb (String.eqb (attr el "" "use") "required")) (e_attrs el) (e_scope el))
    end.

  (* parse.go:738-753 *)
  Definition join_elem (a b : element) : element :=
    mkElement ((if String.eqb (el_doc a) "" then "" else el_doc a ++ nl) ++ el_doc b) (el_name a) (el_wild a) (el_type a)
      (el_abstract a && el_abstract b) (el_plural a || el_plural b) (el_optional a || el_optional b) (el_nillable a || el_nillable b)
      (if String.eqb (el_default a) (el_default b) then el_default a else "") (el_attr a) (el_scope a).

  (* parse.go:716-726: usedElt maps names to positions in t.Elements *)
  Fixpoint lookup {V} (n : xname) (m : list (xname * V)) : option V :=
    match m with [] => None | (k, v) :: m' => if xname_eqb k n then Some v else lookup n m' end.
  Fixpoint set_nth {A} (i : nat) (x : A) (l : list A) : list A :=
    match l, i with [], _ => [] | _ :: l', 0 => x :: l' | y :: l', S i' => y :: set_nth i' x l' end.
  Definition merge_step (st : list element * list (xname * nat)) (e : element) : list element * list (xname * nat) :=
    let (els, used) := st in
    match lookup (el_name e) used with
    | None => ((els ++ [e])%list, (el_name e, List.length els) :: used)
    | Some i => match nth_error els i with
                | Some a => (set_nth i (join_elem a e) els, used)
                | None => st
                end
    end.
  Definition merge_elems (els : list element) (new : list element) : list element :=
    fst (fold_left merge_step new (els, [])).

  (* setters *)
  Definition set_doc t d := mkComplex d (ct_name t) (ct_base t) (ct_anon t) (ct_elems t) (ct_attrs t) (ct_abstract t) (ct_extends t) (ct_mixed t).
  Definition set_mixed t m := mkComplex (ct_doc t) (ct_name t) (ct_base t) (ct_anon t) (ct_elems t) (ct_attrs t) (ct_abstract t) (ct_extends t) m.
  Definition set_base t b := mkComplex (ct_doc t) (ct_name t) b (ct_anon t) (ct_elems t) (ct_attrs t) (ct_abstract t) (ct_extends t) (ct_mixed t).
  Definition set_extends t x := mkComplex (ct_doc t) (ct_name t) (ct_base t) (ct_anon t) (ct_elems t) (ct_attrs t) (ct_abstract t) x (ct_mixed t).
  Definition set_fields t es ats := mkComplex (ct_doc t) (ct_name t) (ct_base t) (ct_anon t) es ats (ct_abstract t) (ct_extends t) (ct_mixed t).

  (* parse.go:708-728: one extension or restriction child *)
  Definition parse_derivation (ns : string) (t : complexT) (el : elem) : option complexT :=
    let t := set_base t (parse_type (resolve (e_scope el) (attr el "" "base"))) in
    match match find_all "any" el with [] => Some (ct_elems t) | v :: _ => option_map (fun w => (ct_elems t ++ [w])%list) (parse_any v) end,
          mapo (parse_element ns) (find_all "element" el),
          mapo (parse_attribute ns) (find_all "attribute" el) with
    | Some es, Some new, Some ats => Some (set_fields t (merge_elems es new) (ct_attrs t ++ ats)%list)
    | _, _, _ => None
    end.
  (* parse.go:697-736; the accumulator is the type and the annotations seen *)
  Definition parse_complex_content (ns : string) (t : complexT) (root : elem) : option complexT :=
    let m := attr root "" "mixed" in
    match (if String.eqb m "" then Some (ct_mixed t) else parse_bool m) with
    | None => None
    | Some mixed =>
        match walk root (fun (st : complexT * string) el =>
            let (t, doc) := st in
            if local_is el "extension" then option_map (fun t => (t, doc)) (parse_derivation ns (set_extends t true) el)
            else if local_is el "restriction" then option_map (fun t => (t, doc)) (parse_derivation ns t el)
            else if local_is el "annotation" then option_map (fun d => (t, doc_append doc d)) (parse_annotation el)
            else None) (set_mixed t mixed, "") with
        | Some (t, doc) => Some (set_doc t (ct_doc t ++ doc))
        | None => None
        end
    end.
  (* parse.go:674-693; other children are ignored, and so are attributes of a restriction *)
  Definition parse_simple_content (ns : string) (t : complexT) (root : elem) : option complexT :=
    match walk root (fun (st : complexT * string) el =>
        let (t, doc) := st in
        if local_is el "annotation" then option_map (fun d => (t, doc_append doc d)) (parse_annotation el)
        else if local_is el "restriction" then Some (set_base t (parse_type (resolve (e_scope el) (attr el "" "base"))), doc)
        else if local_is el "extension" then
          option_map (fun ats => (set_fields (set_extends (set_base t (parse_type (resolve (e_scope el) (attr el "" "base")))) true)
                                    (ct_elems t) (ct_attrs t ++ ats)%list, doc))
            (mapo (parse_attribute ns) (find_all "attribute" el))
        else Some st) (set_mixed t true, "") with
    | Some (t, doc) => Some (set_doc t (ct_doc t ++ doc))
    | None => None
    end.
  (* parse.go:646-670 *)
  Definition parse_complex_type (tns : string) (root : elem) : option complexT :=
    match parse_bool (attr root "" "abstract"), parse_bool (attr root "" "mixed") with
    | Some ab, Some mi =>
        let t := mkComplex "" (resolve_default (e_scope root) (attr root "" "name") tns) TNil
                   (String.eqb (attr root "" "_isAnonymous") "true") [] [] ab false mi in
        match walk root (fun (st : complexT * string) el =>
            let (t, doc) := st in
            if local_is el "annotation" then option_map (fun d => (t, doc_append doc d)) (parse_annotation el)
            else if local_is el "simpleContent" then option_map (fun t => (t, doc)) (parse_simple_content tns t el)
            else if local_is el "complexContent" then option_map (fun t => (t, doc)) (parse_complex_content tns t el)
            else None) (t, "") with
        | Some (t, doc) => Some (set_doc t (ct_doc t ++ doc))
        | None => None
        end
    | _, _ => None
    end.

  (* ---------- simple types ---------- *)
  (* floats and times as the library returns them; time.Time's zero value and 0.0; the oracles
     are strconv.ParseFloat(s, 64), time.Parse of "2006-01-02" and of time.RFC3339, and
     regexp.Compile (a compiled expression is its source text, Regexp.String) *)
  Variables (F T : Type) (f0 : F) (t0 : T).
  Variables (parse_float : string -> option F) (parse_date parse_rfc3339 : string -> option T) (compiles : string -> bool).

  (* xsd.go:220-241 *)
  Record restriction := mkRestr {
    rs_prec : Z; rs_enum : list string; rs_min : F; rs_max : F; rs_len : Z; rs_minlen : Z; rs_maxlen : Z;
    rs_mindate : T; rs_maxdate : T; rs_pattern : option string; rs_total : Z; rs_doc : string }.
  Definition empty_restr := mkRestr 0 [] f0 f0 0 0 0 t0 t0 None 0 "".
  (* xsd.go:191-211 *)
  Record simpleT := mkSimple {
    st_anon : bool; st_list : bool; st_union : list ty; st_restr : restriction; st_name : xname; st_doc : string; st_base : ty }.

  (* parse.go:771-782 *)
  Definition parse_decimal (s : string) : option F :=
    let s := trim_space s in if String.eqb s "" then Some f0 else parse_float s.
  (* parse.go:967-1002. In the linkedType case the inner d, err shadow the outer ones, and
     date = d at the end assigns the outer d, the zero time *)
  Definition parse_min_max (el : elem) (base : ty) : option (T * F) :=
    let v := attr el "" "value" in
    match base with
    | TB b => if (b =? 16)%Z then option_map (fun d => (d, f0)) (parse_date v)
              else if (b =? 17)%Z then option_map (fun d => (d, f0)) (parse_rfc3339 v)
              else option_map (fun x => (t0, x)) (parse_decimal v)
    | TLink _ => match parse_date v with
                 | Some d => Some (d, f0)
                 | None => match parse_rfc3339 v with
                           | Some _ => Some (t0, f0)
                           | None => option_map (fun x => (t0, x)) (parse_decimal v)
                           end
                 end
    | _ => option_map (fun x => (t0, x)) (parse_decimal v)
    end.
  (* the message added to the documentation (parse.go:945), a function of the pattern *)
  Variable pattern_msg : string -> string.

  (* parse.go:912-964 *)
  Definition restr_step (base : ty) (st : restriction * string) (el : elem) : option (restriction * string) :=
    let (r, doc) := st in
    let 'mkRestr prec enum mn mx len minl maxl mnd mxd pat tot rd := r in
    let v := attr el "" "value" in
    if local_is el "enumeration" then Some (mkRestr prec (enum ++ [v])%list mn mx len minl maxl mnd mxd pat tot rd, doc)
    else if (local_is el "minExclusive" || local_is el "minInclusive")%bool then
      option_map (fun df => (mkRestr prec enum (snd df) mx len minl maxl (fst df) mxd pat tot rd, doc)) (parse_min_max el base)
    else if (local_is el "maxExclusive" || local_is el "maxInclusive")%bool then
      option_map (fun df => (mkRestr prec enum mn (snd df) len minl maxl mnd (fst df) pat tot rd, doc)) (parse_min_max el base)
    else if local_is el "length" then option_map (fun n => (mkRestr prec enum mn mx n minl maxl mnd mxd pat tot rd, doc)) (parse_int v)
    else if local_is el "maxLength" then option_map (fun n => (mkRestr prec enum mn mx len minl n mnd mxd pat tot rd, doc)) (parse_int v)
    else if local_is el "minLength" then option_map (fun n => (mkRestr prec enum mn mx len n maxl mnd mxd pat tot rd, doc)) (parse_int v)
    else if local_is el "pattern" then
      let p := match pat with Some q => q ++ "|" ++ v | None => v end in
      if compiles p then Some (mkRestr prec enum mn mx len minl maxl mnd mxd (Some p) tot rd, doc)
      else Some (mkRestr prec enum mn mx len minl maxl mnd mxd None tot rd, doc_append doc (pattern_msg p))
    else if local_is el "fractionDigits" then
      match parse_int v with
      | Some n => if (n <? 0)%Z then None else Some (mkRestr n enum mn mx len minl maxl mnd mxd pat tot rd, doc)
      | None => None
      end
    else if local_is el "annotation" then option_map (fun d => (r, doc_append doc d)) (parse_annotation el)
    else if local_is el "totalDigits" then option_map (fun n => (mkRestr prec enum mn mx len minl maxl mnd mxd pat n rd, doc)) (parse_int v)
    else Some st.
  Definition set_rdoc (r : restriction) d :=
    mkRestr (rs_prec r) (rs_enum r) (rs_min r) (rs_max r) (rs_len r) (rs_minlen r) (rs_maxlen r) (rs_mindate r) (rs_maxdate r) (rs_pattern r) (rs_total r) d.
  Definition parse_restriction (root : elem) (base : ty) : option restriction :=
    option_map (fun st => set_rdoc (fst st) (snd st)) (walk root (restr_step base) (empty_restr, "")).

  (* parse.go:877-903 *)
  Definition parse_simple_type (tns : string) (root : elem) : option simpleT :=
    let anon := String.eqb (attr root "" "_isAnonymous") "true" in
    let name := resolve_default (e_scope root) (attr root "" "name") tns in
    option_map (fun st => let '(lst, un, r, b, doc) := st in mkSimple anon lst un r name doc b)
      (walk root (fun (st : bool * list ty * restriction * ty * string) el =>
        let '(lst, un, r, b, doc) := st in
        if local_is el "restriction" then
          let b := parse_type (resolve (e_scope el) (attr el "" "base")) in
          option_map (fun r => (lst, un, r, b, doc)) (parse_restriction el b)
        else if local_is el "list" then Some (true, un, r, parse_type (resolve (e_scope el) (attr el "" "itemType")), doc)
        else if local_is el "union" then
          match map (fun n => parse_type (resolve (e_scope el) n)) (fields (attr el "" "memberTypes")) with
          | [] => Some st
          | ms => Some (lst, (un ++ ms)%list, r, TB 49, doc)
          end
        else if local_is el "annotation" then option_map (fun d => (lst, un, r, b, doc_append doc d)) (parse_annotation el)
        else Some st) (false, [], empty_restr, TNil, "")).
End Reading.
