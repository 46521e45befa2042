(* C88: what the generated declarations look like. *)
From Verif Require Import Base SortLib ScopeModel TreeModel EqualModel BuiltinModel CodecModel XsdModel TypesModel TypesSpec GraphModel GenModel SgModel SgStruct SgDecl SgExamples SgFlatSpec SgFlatExamples SgExpandSpec SliceModel SgGen SgGenSpec SgGenExamples SgOrderSpec OrderExamples SgShapeSpec SgShape ShapeExamples.
Local Open Scope string_scope.

(* every declaration is that of a helper type, or has the shape that the types as they were at first call for *)
Theorem C88_shape (public : xname -> string) (fa : option (attribute -> bool)) (fe : option (element -> bool)) (ft : option (xname -> bool)) (allow : option (list xname)) (helpers : list Z) (h : nat -> nat) (st : store) (schemas : list (list ty)) :
  (forall b, non_trivial b = true -> memb b helpers = true) ->
  (forall a t, filtered fa (retype_at a t) = filtered fa a) -> (forall e t, filtered fe (retype_el e t) = filtered fe e) ->
  generable h st -> wild_named st -> firm fa st -> (forall i, h i <= N.to_nat 1000) ->
  (forall types t, In types schemas -> In t types -> known st t) ->
  exists c, gen public fa fe ft allow helpers false st schemas = Ret (inr c) /\
    forall x sp, In (x, sp) (co_decls c) -> (exists i, shape public fa fe st i sp /\ x = sp_name sp) \/ exists b, non_trivial b = true /\ x = helper_name b /\ sp = helper_spec b.
Proof. exact (gen_shape public fa fe ft allow helpers h st schemas). Qed.
Print Assumptions C88_shape.
Theorem C88_firm_refuted : (generable (fun i => Nat.min i 9) bulky /\ wild_named bulky) /\ inherits bulky 1 [el_of "x" (TB 28)] [at_of "a" (TB 38)] /\
  struct_texts (ast_of bulky [[TPtr 1]]) = [("C", [("string", "xml:"",chardata"""); ("string", "xml:""a,attr,omitempty""")])].
Proof. exact bulky_code. Qed.
Print Assumptions C88_firm_refuted.
Example C88_case : (generable shop_rank shop /\ forall i, shop_rank i <= N.to_nat 1000) /\ (steady None shop /\ wild_named shop /\ names_apart pub None None shop shop_types) /\ (firm None shop /\ firm None heirs) /\
  (forall types t, In types shop_types -> In t types -> known shop t) /\ struct_texts (ast_of shop shop_types) =
  [("Car", [("Color", "xml:""urn:a color"""); ("string", "xml:""urn:a owner"""); ("string", "xml:""urn:a note"""); ("string", "xml:""id,attr,omitempty""")]);
   ("Color", [("string", "")]);
   ("Label", [("Color", "xml:"",chardata"""); ("string", "xml:""lang,attr,omitempty""")]);
   ("Name", [("string", "")]);
   ("Order", [("time.Time", "xml:""urn:a placed"""); ("Sizes", "xml:""urn:a sizes"""); ("Truck", "xml:""urn:a car"""); ("[]byte", "xml:""key,attr,omitempty""")]);
   ("Sizes", [("[]int", "")]);
   ("Sub", [("Color", "xml:"",chardata"""); ("string", "xml:""lang,attr,omitempty""")]);
   ("Truck", [("Color", "xml:""urn:a color"""); ("string", "xml:""urn:a owner"""); ("string", "xml:""urn:a note"""); ("Car", "xml:""urn:a trailer"""); ("string", "xml:""id,attr,omitempty""")]);
   ("xsdDate", [("time.Time", "")]); ("xsdHexBinary", [("[]byte", "")])].
Proof. exact (conj shop_generable (conj shop_steady (conj shop_firm (conj shop_known shop_structs)))). Qed.
Example C88_case_inherits : exists es ats, inherits shop 4 es ats /\ map el_name es = [mkName "urn:a" "color"; mkName "urn:a" "owner"; mkName "urn:a" "note"; mkName "urn:a" "trailer"] /\ text_of shop 8 (TPtr 0) /\ text_of heirs 1 (TB 38).
Proof. exact shop_inherits. Qed.
