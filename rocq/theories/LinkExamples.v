(* A service that paints cars. *)
From Coq Require Import Permutation.
From Verif Require Import Base SortLib ScopeModel TreeModel TreeSpec EqualModel BuiltinModel CodecModel XsdModel XsdProofs OptModel WsdlModel WsdlSpec WsdlGen WsdlExamples TypesModel TypesSpec TypesProofs TypesOrder TypesExamples GenModel SgModel SgStruct SgDecl SgExamples SgFlatSpec SgExpandSpec SliceModel SgGen SgGenSpec SgGenExamples PipeModel PipeSpec PipeProofs PipeExamples PartModel PartSpec PartProofs PartExamples LinkModel LinkSpec.
Local Open Scope string_scope.

Definition w_ (l : string) := mkName "urn:w" l.
Definition none_ := mkName "" "".
Definition paint_def (elem : xname) : definition :=
  mkDefinition "" [mkPort "Shop" "http://localhost/shop" "POST" [mkOperation "Paint paints a car." "urn:w#Paint" (w_ "Paint") (w_ "PaintRequest") (w_ "PaintResponse")]]
    [(w_ "PaintRequest", mkMessage (w_ "PaintRequest") [mkPart "car" none_ elem; mkPart "color" (mkName "urn:b" "Color") none_]);
     (w_ "PaintResponse", mkMessage (w_ "PaintResponse") [mkPart "price" (xs "int") none_; mkPart "ready" (xs "date") none_])] "urn:w".
Lemma car_color : exists d, PipeSpec.declares car_docs (mkName "urn:b" "Color") d /\ picked None None (mkName "urn:b" "Color") /\ own_declaration None car_docs d.
Proof.
  exists (snd (List.nth 1 (rd_types rd_base) (mkName "" "", DC (ct_of "" TNil [] [] false)))). split; [exists rd_base; split; [left; reflexivity|right; left; reflexivity]|]. split; [split; [discriminate|split; intros; discriminate]|].
  right. right. left. vm_compute. discriminate.
Qed.
Lemma paint_fits p op : In p (df_ports (paint_def (mkName "urn:a" "car"))) -> In op (po_ops p) -> fit car_roots (usable None None None ["urn:a"; "urn:b"] car_docs) (paint_def (mkName "urn:a" "car")) op.
Proof.
  intros [<-|[]] [<-|[]] n [->| ->]; cbn [op_input op_output]; eexists; (split; [vm_compute; reflexivity|]); cbn [ms_parts].
  - intros q [<-|[<-|[]]].
    + exists (mkName "urn:a" "Car"). split.
      * apply xt_element with main_doc; [reflexivity|discriminate|right; left; reflexivity|vm_compute; reflexivity|exact (proj1 car_top)|right; reflexivity].
      * right. destruct car_declared as (d & H1 & H2 & H3). exists d. split; [left; reflexivity|]. auto.
    + exists (mkName "urn:b" "Color"). split; [apply (xt_type car_roots (mkPart "color" (mkName "urn:b" "Color") none_)); discriminate|]. right. destruct car_color as (d & H1 & H2 & H3). exists d. split; [right; left; reflexivity|]. auto.
  - intros q [<-|[<-|[]]].
    + exists (xs "int"). split; [apply (xt_type car_roots (mkPart "price" (xs "int") none_)); discriminate|]. left. do 2 eexists. split; vm_compute; reflexivity.
    + exists (xs "date"). split; [apply (xt_type car_roots (mkPart "ready" (xs "date") none_)); discriminate|]. left. do 2 eexists. split; vm_compute; reflexivity.
Qed.
Definition shop_client (d : definition) : option (option (list wdecl)) :=
  match parse_rds as_is car_docs, gen_code pub None None None None all_helpers false as_is in_order [] ["urn:a"; "urn:b"] car_docs with
  | Ok (st, parsed), Ret (Coded c) => Some (client pub None None all_helpers (all_types (chosen_schemas [] ["urn:a"; "urn:b"] car_docs parsed) (deps car_docs parsed)) c (fun s => s) (fun _ => true) w0 d)
  | _, _ => None
  end.
Lemma paint_client : match shop_client (paint_def (mkName "urn:a" "car")) with Some (Some [m]) => Some (method_name m, method_params m, method_results m, map (fun x => fst (snd x)) (method_sends m)) | _ => None end =
    Some ("Paint", ["ctx context.Context"; "car Car"; "color Color"], ["int"; "time.Time"; "error"], ["Car"; "Color"]) /\
  shop_client (paint_def (mkName "urn:a" "lorry")) = Some None.
Proof. vm_compute. split; reflexivity. Qed.
Lemma no_lorry t : ~ xml_type car_roots (mkPart "car" none_ (mkName "urn:a" "lorry")) t.
Proof.
  intros H. inversion H as [X|root t' X1 X2 X3 X4 X5 X6]; [apply X; reflexivity|]. apply top_is in X5 as (el & He & En & _). cbn [pa_elem nlocal] in En.
  assert (Q : forallb (fun root => forallb (fun el => negb (String.eqb (attr el "" "name") "lorry")) (tops root)) car_roots = true) by (vm_compute; reflexivity). rewrite forallb_forall in Q. specialize (Q _ X3). rewrite forallb_forall in Q. specialize (Q _ He). rewrite En in Q. discriminate.
Qed.
