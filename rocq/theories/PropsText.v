(* C102: from the texts of schemas to code. *)
From Coq Require Import Permutation.
From Verif Require Import Base SortLib ScopeModel ScopeSpec TreeModel TreeSpec EqualModel ParseModel DecodeModel ParseSpec ParseProofs MarshalModel IndentExamples GraphModel BuiltinModel CodecModel XsdModel NormModel NormMem NormOps NormSpec NormFixed NormAgain NormExamples NormDocs XsdparseModel XsdparseSpec XsdparseProofs StdSchema XsdparseExamples.
From Verif Require Import TypesModel TypesSpec TypesOrder TypesExamples GenModel SgModel SgStruct SgExamples SgFlatSpec SliceModel SgGen SgGenSpec SgGenExamples FilesModel PipeModel PipeSpec PipeProofs PipeExamples PipeWholeSpec TextModel TextSpec TextProofs TextFields TextExamples.
Local Open Scope string_scope.

(* What is written in a schema is declared by what it is parsed to. *)
Theorem C102_read (sortns : list xname -> list xname) (dec : string -> stream) (grow agrow : nat -> nat -> nat) (cap_of acap_of : nat -> nat) (standard : list string) (fuel : nat) (annot : elem -> option string)
    (F T : Type) (f0 : F) (t0 : T) (pf : string -> option F) (pd pr : string -> option T) (comp : string -> bool) (msg : string -> string) (texts : list string) (docs std : list elem) (l : list rd) :
  Forall2 (fun s e => parse_text sortns dec s = Some e) texts docs -> Forall2 (fun s e => parse_text sortns dec s = Some e) standard std -> workable fuel (docs ++ std) ->
  parse_texts sortns dec grow agrow cap_of acap_of standard fuel annot F T f0 t0 pf pd pr comp msg texts = Ret (Some l) ->
  forall e k, In e (flat_map schemas_of docs) -> NormAgain.plain e -> 3 * height e <= fuel -> namespace_of e <> "" -> In k (e_children e) -> s_in colon (attr k "" "name") = false ->
    let n := mkName (namespace_of e) (attr k "" "name") in
    (short k -> clean_scope (e_scope k) -> exists c, PipeSpec.declares l n (DC c) /\ ct_base c = TB 0 /\
       (forall el, member k el -> s_in colon (attr el "" "name") = false -> exists m, In m (ct_elems c) /\ nlocal (el_name m) = attr el "" "name" /\ el_wild m = false) /\
       forall a, attribute_of k a -> s_in colon (attr a "" "name") = false -> exists x, In x (ct_attrs c) /\ at_name x = mkName (namespace_of e) (attr a "" "name") /\ (at_optional x = false <-> attr a "" "use" = "required")) /\
    (e_name k = xs "simpleType" -> exists s, PipeSpec.declares l n (DS s) /\ (list_type k -> sd_list s = true) /\ (enumeration k -> sd_enum s <> [])).
Proof. exact (written_types sortns dec grow agrow cap_of acap_of standard fuel annot F T f0 t0 pf pd pr comp msg texts docs std l). Qed.
Print Assumptions C102_read.

(* Code for them, in the namespaces asked for or in those of the texts. *)
Theorem C102_code (sortns : list xname -> list xname) (dec : string -> stream) (grow agrow : nat -> nat -> nat) (cap_of acap_of : nat -> nat) (standard : list string) (fuel : nat) (annot : elem -> option string)
    (F T : Type) (f0 : F) (t0 : T) (pf : string -> option F) (pd pr : string -> option T) (comp : string -> bool) (msg : string -> string) (texts : list string) (docs std : list elem) (l : list rd) :
  Forall2 (fun s e => parse_text sortns dec s = Some e) texts docs -> Forall2 (fun s e => parse_text sortns dec s = Some e) standard std -> workable fuel (docs ++ std) ->
  parse_texts sortns dec grow agrow cap_of acap_of standard fuel annot F T f0 t0 pf pd pr comp msg texts = Ret (Some l) ->
  forall (public : xname -> string) (fa : option (attribute -> bool)) (fe : option (element -> bool)) (ft : option (xname -> bool)) (allow : option (list xname)) (helpers : list Z) (slices : bool) (h : xname -> nat) (namespaces ns : list string),
  (forall b, non_trivial b = true -> memb b helpers = true) -> (forall a t, filtered fa (retype_at a t) = filtered fa a) ->
  unnested docs -> documents h l -> (forall n, h n <= N.to_nat 1000) -> PipeSpec.imports_first l ->
  (namespaces = [] /\ ns = spaces_of docs \/ namespaces <> [] /\ ns = namespaces /\ forall s, In s ns -> In s (map namespace_of (flat_map schemas_of (docs ++ std)))) -> NoDup ns ->
  forall (ord : nat -> list (xname * ty) -> list (xname * ty)) (ord' : string -> list (xname * ty) -> list (xname * ty)), any_order ord -> (forall s m, Permutation m (ord' s m)) ->
  exists c, gen_texts sortns dec grow agrow cap_of acap_of standard fuel annot F T f0 t0 pf pd pr comp msg public fa fe ft allow helpers slices ord ord' namespaces texts = Ret (Coded c) /\ closed_code (co_decls c) /\
    forall e k, In e (flat_map schemas_of docs) -> NormAgain.plain e -> 3 * height e <= fuel -> namespace_of e <> "" -> In (namespace_of e) ns -> In k (e_children e) -> s_in colon (attr k "" "name") = false ->
      let n := mkName (namespace_of e) (attr k "" "name") in
      picked ft allow n -> short k /\ clean_scope (e_scope k) \/ list_type k \/ enumeration k -> In (public n) (map fst (co_decls c)).
Proof. exact (code_of_texts sortns dec grow agrow cap_of acap_of standard fuel annot F T f0 t0 pf pd pr comp msg texts docs std l). Qed.
Print Assumptions C102_code.

(* The fields of the structs among it. *)
Theorem C102_fields (sortns : list xname -> list xname) (dec : string -> stream) (grow agrow : nat -> nat -> nat) (cap_of acap_of : nat -> nat) (standard : list string) (fuel : nat) (annot : elem -> option string)
    (F T : Type) (f0 : F) (t0 : T) (pf : string -> option F) (pd pr : string -> option T) (comp : string -> bool) (msg : string -> string) (texts : list string) (docs std : list elem) (l : list rd)
    (public : xname -> string) (fa : option (attribute -> bool)) (fe : option (element -> bool)) (ft : option (xname -> bool)) (allow : option (list xname)) (helpers : list Z) (h : xname -> nat) (namespaces ns : list string) :
  Forall2 (fun s e => parse_text sortns dec s = Some e) texts docs -> Forall2 (fun s e => parse_text sortns dec s = Some e) standard std -> workable fuel (docs ++ std) ->
  parse_texts sortns dec grow agrow cap_of acap_of standard fuel annot F T f0 t0 pf pd pr comp msg texts = Ret (Some l) ->
  (forall b, non_trivial b = true -> memb b helpers = true) -> (forall a t, filtered fa (retype_at a t) = filtered fa a) -> (forall e t, filtered fe (retype_el e t) = filtered fe e) ->
  unnested docs -> documents h l -> (forall n, h n <= N.to_nat 1000) -> PipeSpec.imports_first l -> wild_declared l -> firm_declared fa l ->
  (namespaces = [] /\ ns = spaces_of docs \/ namespaces <> [] /\ ns = namespaces /\ forall s, In s ns -> In s (map namespace_of (flat_map schemas_of (docs ++ std)))) -> NoDup ns ->
  forall (ord : nat -> list (xname * ty) -> list (xname * ty)) (ord' : string -> list (xname * ty) -> list (xname * ty)), any_order ord -> (forall s m, Permutation m (ord' s m)) ->
  exists c, gen_texts sortns dec grow agrow cap_of acap_of standard fuel annot F T f0 t0 pf pd pr comp msg public fa fe ft allow helpers false ord ord' namespaces texts = Ret (Coded c) /\
    forall e k, In e (flat_map schemas_of docs) -> NormAgain.plain e -> 3 * height e <= fuel -> namespace_of e <> "" -> In (namespace_of e) ns -> In k (e_children e) -> s_in colon (attr k "" "name") = false ->
      let n := mkName (namespace_of e) (attr k "" "name") in
      picked ft allow n -> short k -> clean_scope (e_scope k) -> only_name public l n ->
      exists sp fs, In (public n, sp) (co_decls c) /\ sp_struct sp = Some fs /\
        (forall el, member k el -> s_in colon (attr el "" "name") = false -> (forall m, nlocal (el_name m) = attr el "" "name" -> filtered fe m = false) ->
           exists f space rest, In f fs /\ sf_tag f = quoted (space ++ " " ++ attr el "" "name" ++ rest) /\ (rest = "" \/ rest = ",omitempty")) /\
        forall a, attribute_of k a -> s_in colon (attr a "" "name") = false -> (forall x, at_name x = mkName (namespace_of e) (attr a "" "name") -> filtered fa x = false) ->
           exists f space rest, In f fs /\ sf_tag f = quoted (space ++ attr a "" "name" ++ ",attr" ++ rest) /\ (space = "" \/ space = namespace_of e ++ " ") /\ (rest = "" /\ attr a "" "use" = "required" \/ rest = ",omitempty" /\ attr a "" "use" <> "required").
Proof. exact (fields_of_texts sortns dec grow agrow cap_of acap_of standard fuel annot F T f0 t0 pf pd pr comp msg texts docs std l public fa fe ft allow helpers h namespaces ns). Qed.
Print Assumptions C102_fields.

(* A text that is no XML: an error, whatever the others are. *)
Theorem C102_malformed (sortns : list xname -> list xname) (dec : string -> stream) (grow agrow : nat -> nat -> nat) (cap_of acap_of : nat -> nat) (standard : list string) (fuel : nat) (annot : elem -> option string)
    (F T : Type) (f0 : F) (t0 : T) (pf : string -> option F) (pd pr : string -> option T) (comp : string -> bool) (msg : string -> string)
    (public : xname -> string) (fa : option (attribute -> bool)) (fe : option (element -> bool)) (ft : option (xname -> bool)) (allow : option (list xname)) (helpers : list Z) (slices : bool)
    (ord : nat -> list (xname * ty) -> list (xname * ty)) (ord' : string -> list (xname * ty) -> list (xname * ty)) (namespaces : list string) (texts : list string) (s : string) :
  In s texts -> parse_text sortns dec s = None -> gen_texts sortns dec grow agrow cap_of acap_of standard fuel annot F T f0 t0 pf pd pr comp msg public fa fe ft allow helpers slices ord ord' namespaces texts = Ret Unparsed.
Proof. exact (malformed sortns dec grow agrow cap_of acap_of standard fuel annot F T f0 t0 pf pd pr comp msg public fa fe ft allow helpers slices ord ord' namespaces texts s). Qed.
Print Assumptions C102_malformed.

(* two texts, beside the schemas that come with the package *)
Example C102_case : Forall2 (fun s e => parse_text isort_ns decode s = Some e) [paint_text; car_text] car_trees /\ Forall2 (fun s e => parse_text isort_ns decode s = Some e) standard_schema std_trees /\ workable 60 (car_trees ++ std_trees) /\
  parse_ [paint_text; car_text] = Ret (Some car_rds) /\ unnested car_trees /\ (documents (tall car_tall) car_rds /\ (forall n, tall car_tall n <= N.to_nat 1000) /\ imports_first car_rds) /\ (wild_declared car_rds /\ firm_declared None car_rds) /\ spaces_of car_trees = ["urn:b"; "urn:a"].
Proof. exact (conj car_told (conj std_told (conj car_workable (conj car_parsed (conj car_unnested (conj car_good (conj car_kept car_spaces))))))). Qed.
Example C102_case_types : NormAgain.plain (nth 1 car_trees car_type) /\ 3 * height (nth 1 car_trees car_type) <= 60 /\ In car_type (e_children (nth 1 car_trees car_type)) /\ short car_type /\ clean_scope (e_scope car_type) /\
  (exists el, member car_type el /\ attr el "" "name" = "color") /\ (exists a, attribute_of car_type a /\ attr a "" "name" = "built") /\ only_name pub car_rds (mkName "urn:a" "Car").
Proof. exact car_kinds. Qed.
Example C102_case_simple : NormAgain.plain (nth 0 car_trees car_type) /\ 3 * height (nth 0 car_trees car_type) <= 60 /\ map (fun k => attr k "" "name") paint_types = ["Color"; "Sizes"] /\
  enumeration (nth 0 paint_types car_type) /\ list_type (nth 1 paint_types car_type).
Proof. exact paint_kinds. Qed.
Example C102_case_code : code_names (gen_ [] [paint_text; car_text]) = [("Color", ["string"]); ("Sizes", ["int"]); ("Car", ["Color"; "Sizes"; "time.Time"]); ("xsdDate", ["time.Time"])] /\
  tags_of (gen_ [] [paint_text; car_text]) = [("Color", []); ("Sizes", []); ("Car", ["xml:""urn:b color"""; "xml:""urn:b sizes,omitempty"""; "xml:""built,attr,omitempty"""]); ("xsdDate", [])].
Proof. exact car_code_texts. Qed.
Example C102_case_standard : parse_ [] = Ret (Some std_rds) /\ documents (tall std_tall) std_rds /\ (forall n, tall std_tall n <= N.to_nat 1000) /\ imports_first std_rds.
Proof. exact (conj std_parsed std_good). Qed.
Example C102_case_malformed : parse_text isort_ns decode "<schema" = None /\ gen_ [] [paint_text; "<schema"] = Ret Unparsed.
Proof. exact (conj eq_refl broken_text). Qed.
