(* The methods and functions of a file: cases and counterexamples. *)
From Verif Require Import Base SortLib ScopeModel TreeModel EqualModel BuiltinModel CodecModel XsdModel TypesModel GraphModel GenModel SgModel SgStruct SgProofs SgNames SgTags SgDecl SgExamples SgFlat SgFlatExamples SgExpandExamples SliceModel SliceExamples SgGen SgGenSpec SgGenExamples MethodModel MethodSpec.
Local Open Scope string_scope.

Definition outline (r : run (list xname + code)) : list (string * list (option string * string)) :=
  match r with Ret (inr c) => map (fun b => (fst (fst b), map (fun g => (fn_recv g, fn_name g)) (snd b))) (file (isort_by id) c) | _ => [] end.
Definition laid (r : run (list xname + code)) : list (list string) :=
  match r with Ret (inr c) => map fn_overlay (filter (fun g => match fn_overlay g with [] => false | _ => true end) (funcs (file (isort_by id) c))) | _ => [] end.
Notation plain := (gen pub None None None None all_helpers).
Lemma shop_outline : outline (plain false shop shop_types) =
  [("Car", []); ("Color", []); ("Label", []); ("Name", []); ("Order", [(Some "Order", "MarshalXML"); (Some "Order", "UnmarshalXML")]);
   ("Sizes", [(Some "Sizes", "MarshalText"); (Some "Sizes", "UnmarshalText")]); ("Sub", []); ("Truck", []);
   ("xsdDate", [(Some "xsdDate", "UnmarshalText"); (Some "xsdDate", "MarshalText"); (Some "xsdDate", "MarshalXML"); (Some "xsdDate", "MarshalXMLAttr"); (None, "_unmarshalTime"); (None, "_marshalTime")]);
   ("xsdHexBinary", [(Some "xsdHexBinary", "UnmarshalText"); (Some "xsdHexBinary", "MarshalText")])] /\
  laid (plain false shop shop_types) = [["T"; "placed"; "key"]; ["T"; "placed"; "key"]].
Proof. split; vm_compute; reflexivity. Qed.
Definition birth : store := [DS (simple_of "Birthday" (TB 16)); DC (ct_of "Person" (TB 0) [el_of "born" (TPtr 0); el_of "seen" (TB 17)] [] false)].
Lemma birth_outline : outline (plain false birth [[TPtr 0; TPtr 1]]) =
  [("Birthday", [(Some "Birthday", "UnmarshalText"); (Some "Birthday", "MarshalText")]); ("Person", [(Some "Person", "MarshalXML"); (Some "Person", "UnmarshalXML")]);
   ("xsdDate", [(Some "xsdDate", "UnmarshalText"); (Some "xsdDate", "MarshalText"); (Some "xsdDate", "MarshalXML"); (Some "xsdDate", "MarshalXMLAttr"); (None, "_unmarshalTime"); (None, "_marshalTime")]);
   ("xsdDateTime", [(Some "xsdDateTime", "UnmarshalText"); (Some "xsdDateTime", "MarshalText"); (Some "xsdDateTime", "MarshalXML"); (Some "xsdDateTime", "MarshalXMLAttr")])].
Proof. vm_compute. reflexivity. Qed.

(* a type named T *)
Lemma named_t : exists c g, plain false [DC one_date] [[TPtr 0]] = Ret (inr c) /\ In g (funcs (file (isort_by id) c)) /\ fn_name g = "UnmarshalXML" /\ fn_alias g = Some "T" /\ ~ locals_ok g.
Proof. eexists. eexists. split; [vm_compute; reflexivity|]. split; [vm_compute; right; left; reflexivity|]. split; [reflexivity|]. split; [reflexivity|]. intros [H _]. exact (H "T" eq_refl eq_refl). Qed.
(* a date in an element named T *)
Definition trip : complexT := ct_of "Trip" (TB 0) [el_of "T" (TB 16)] [] false.
Lemma field_t : exists c g, plain false [DC trip] [[TPtr 0]] = Ret (inr c) /\ In g (funcs (file (isort_by id) c)) /\ fn_name g = "UnmarshalXML" /\ fn_overlay g = ["T"; "T"] /\ ~ locals_ok g.
Proof. eexists. eexists. split; [vm_compute; reflexivity|]. split; [vm_compute; right; left; reflexivity|]. split; [reflexivity|]. split; [reflexivity|]. intros [_ H]. inversion H as [|? ? X]. apply X. left. reflexivity. Qed.
(* an element with the name of a method *)
Definition odd : complexT := ct_of "Odd" (TB 0) [el_of "UnmarshalXML" (TB 38); el_of "Day" (TB 16)] [] false.
Lemma field_method : exists c, plain false [DC odd] [[TPtr 0]] = Ret (inr c) /\ ~ fields_apart (file (isort_by id) c).
Proof.
  assert (X : exists c s fs ff g fd, plain false [DC odd] [[TPtr 0]] = Ret (inr c) /\ In ("Odd", s, fs) (file (isort_by id) c) /\ sp_struct s = Some ff /\ In g fs /\ fn_recv g = Some "Odd" /\ In fd ff /\ sf_name fd = fn_name g).
  { do 6 eexists. split; [vm_compute; reflexivity|]. split; [vm_compute; left; reflexivity|]. split; [reflexivity|]. split; [right; left; reflexivity|]. split; [reflexivity|]. split; [left; reflexivity|reflexivity]. }
  destruct X as (c & s & fs & ff & g & fd & E & H1 & H2 & H3 & H4 & H5 & H6). exists c. split; [exact E|]. intros A. exact (A _ _ _ _ _ _ H1 H2 H3 H4 H5 H6).
Qed.
(* a slice of dates *)
Lemma twice : exists c, plain true [DC dates_c] [[TPtr 0]] = Ret (inr c) /\ ~ distinct_funcs (file (isort_by id) c).
Proof.
  assert (X : exists c, plain true [DC dates_c] [[TPtr 0]] = Ret (inr c) /\ exists a b x, map (fun g => (fn_recv g, fn_name g)) (funcs (file (isort_by id) c)) = (a :: b :: a :: b :: x)%list).
  { eexists. split; [vm_compute; reflexivity|]. do 3 eexists. vm_compute. reflexivity. }
  destruct X as (c & E & a & b & x & X). exists c. split; [exact E|]. unfold distinct_funcs. rewrite X. intros N. inversion N as [|? ? Y]. apply Y. right. left. reflexivity.
Qed.
