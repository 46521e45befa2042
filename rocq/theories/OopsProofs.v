(* What the errors of wsdlgen tell. *)
From Verif Require Import Base ScopeModel TreeModel GenModel BuiltinModel XsdModel XsdProofs SgStruct SgTags OptModel WsdlModel WsdlSpec WsdlProofs WsdlGen MissText OopsModel OopsSpec.
Local Open Scope string_scope.

Lemma untold_map {A B} (f : A -> tried B) g l : (forall a, untold (f a) = g a) -> untold (mapt f l) = mapo g l.
Proof.
  intros H. induction l as [|a l IH]; [reflexivity|]. cbn [mapt mapo]. rewrite <- (H a). destruct (f a); cbn [next untold]; [|reflexivity].
  rewrite <- IH. destruct (mapt f l); reflexivity.
Qed.
Lemma map_oops {A B} (f : A -> tried B) l e : mapt f l = Oops e -> exists l1 a l2, l = (l1 ++ a :: l2)%list /\ (forall x, In x l1 -> exists y, f x = Fine y) /\ f a = Oops e.
Proof.
  induction l as [|a l IH]; [discriminate|]. cbn [mapt]. destruct (f a) as [b|e'] eqn:E; cbn [next].
  - destruct (mapt f l); cbn [next]; [discriminate|]. intros H. injection H as ->. destruct (IH eq_refl) as (l1 & x & l2 & -> & F & X). exists (a :: l1), x, l2.
    split; [reflexivity|]. split; auto. intros y [<-|Hy]; eauto.
  - intros H. injection H as ->. exists [], a, l. split; [reflexivity|]. split; auto. intros x [].
Qed.
Lemma map_fine {A B} (f : A -> tried B) l m : mapt f l = Fine m -> forall x, In x l -> exists y, f x = Fine y.
Proof.
  revert m. induction l as [|a l IH]; intros m; [intros _ x []|]. cbn [mapt]. destruct (f a) as [b|e'] eqn:E; cbn [next]; [|discriminate].
  destruct (mapt f l) as [m'|]; cbn [next]; [|discriminate]. intros _ x [<-|Hx]; eauto.
Qed.
Section G.
  Variable title : string -> string.
  Variable public : xname -> string.
  Variable parses : wdecl -> bool.
  Variable names : list (xname * string).
  Variable other : xname -> string.
  Variable doc_type : string -> option (list (xname * xname)).
  Notation part_told := (part_told names other doc_type).
  Notation part_type := (part_type names other doc_type).
  Notation go_type := (go_type names other doc_type).
  Notation operation_told := (operation_told title public parses names other doc_type).
  Notation gen_operation := (gen_operation title public parses names other doc_type).

  Lemma untold_part p : untold (part_told p) = part_type p.
  Proof.
    unfold OopsModel.part_told, WsdlModel.part_type. destruct (negb (String.eqb (nlocal (pa_type p)) "")); [reflexivity|]. destruct (negb _); [|reflexivity].
    destruct (doc_type _); [|reflexivity]. destruct (lookup _ _); reflexivity.
  Qed.
  Lemma untold_args ma mr tns i o : untold (args_told title names other doc_type ma mr tns i o) = op_args title names other doc_type ma mr tns i o.
  Proof.
    unfold args_told. unfold op_args at 2. rewrite <- !(untold_map _ _ _ untold_part). destruct (mapt part_told (ms_parts i)) as [ts|] eqn:E1; cbn [next untold]; [|reflexivity].
    destruct (mapt part_told (ms_parts o)) as [us|] eqn:E2; cbn [next untold]; [|reflexivity].
    unfold op_args. rewrite <- !(untold_map _ _ _ untold_part), E1, E2. reflexivity.
  Qed.
  Lemma untold_operation ma mr d p op : untold (operation_told ma mr d p op) = gen_operation ma mr d p op.
  Proof.
    unfold OopsModel.operation_told, WsdlModel.gen_operation. destruct (lookup (op_input op) _) as [i|]; [|reflexivity]. destruct (lookup (op_output op) _) as [o|]; [|reflexivity].
    rewrite <- untold_args. destruct (args_told _ _ _ _ _ _ _ _ _); cbn [next untold]; [|reflexivity]. apply untold_map.
    intros x. unfold OopsModel.parse_told, if_parses. destruct (parses x); reflexivity.
  Qed.
  Lemma untold_ports {Log} (c : wconf Log) d : untold (ports_told title public parses names other doc_type c d) = gen_ports title public parses names other doc_type c d.
  Proof.
    unfold ports_told, gen_ports. rewrite <- (untold_map (port_told title public parses names other doc_type c d)).
    - destruct (mapt _ _); reflexivity.
    - intros p. unfold port_told, gen_port. rewrite <- (untold_map _ _ _ (untold_operation (w_args _ c) (w_returns _ c) d p)). destruct (mapt _ _); reflexivity.
  Qed.
  Theorem oops_reported {Log} (c : wconf Log) d :
    (forall ds, ports_told title public parses names other doc_type c d = Fine ds <-> gen_ports title public parses names other doc_type c d = Some ds) /\
    ((exists e, ports_told title public parses names other doc_type c d = Oops e) <-> gen_ports title public parses names other doc_type c d = None).
  Proof.
    rewrite <- untold_ports. destruct (ports_told _ _ _ _ _ _ c d) as [a|e]; cbn [untold]; split.
    - intros ds. split; intros H; injection H as <-; reflexivity.
    - split; [intros (x & H)|intros H]; discriminate.
    - intros ds. split; discriminate.
    - split; eauto.
  Qed.

  Lemma part_fine x s : part_told x = Fine s -> exists t, go_type x t.
  Proof. intros H. exists s. apply part_type_spec. rewrite <- untold_part, H. reflexivity. Qed.
  Lemma part_oops x e : part_told x = Oops e -> (forall t, ~ go_type x t) /\ nlocal (pa_type x) = "" /\
    (e = ONoElement (pa_name x) (pa_elem x) /\ nlocal (pa_elem x) <> "" /\ doc_type (nspace (pa_elem x)) = None \/
     e = OUntyped (pa_name x) /\ (nlocal (pa_elem x) = "" \/ exists els, doc_type (nspace (pa_elem x)) = Some els /\ lookup (pa_elem x) els = None)).
  Proof.
    intros H. split.
    { intros t G. apply part_type_spec in G. rewrite <- untold_part, H in G. discriminate. }
    unfold OopsModel.part_told in H. destruct (String.eqb (nlocal (pa_type x)) "") eqn:T; cbn [negb] in H; [|discriminate]. apply String.eqb_eq in T. split; auto.
    destruct (String.eqb (nlocal (pa_elem x)) "") eqn:L; cbn [negb] in H.
    - apply String.eqb_eq in L. injection H as <-. right. auto.
    - apply String.eqb_neq in L. destruct (doc_type (nspace (pa_elem x))) as [els|] eqn:D; [|injection H as <-; left; auto].
      destruct (lookup (pa_elem x) els) eqn:Lk; [discriminate|]. injection H as <-. right. split; auto. right. eauto.
  Qed.
  Lemma untyped_said ma mr d p op parts x e : op_parts d op parts -> first_untyped names other doc_type parts x -> part_told x = Oops e ->
    said title public parses names other doc_type ma mr d p op e.
  Proof. intros O U H. apply part_oops in H as (_ & T & [(-> & L & D)|(-> & D)]); cbn [said]; exists parts, x; auto 8. Qed.
  Lemma operation_said ma mr d p op e : operation_told ma mr d p op = Oops e -> said title public parses names other doc_type ma mr d p op e.
  Proof.
    unfold OopsModel.operation_told. destruct (lookup (op_input op) _) as [i|] eqn:I1; [|intros H; injection H as <-; cbn [said]; auto].
    destruct (lookup (op_output op) _) as [o|] eqn:O1; [|intros H; injection H as <-; cbn [said]; split; auto; split; auto; congruence].
    assert (P : op_parts d op (ms_parts i ++ ms_parts o)) by (exists i, o; auto).
    destruct (args_told title names other doc_type ma mr (df_tns d) i o) as [a|e'] eqn:A; cbn [next].
    - intros H. apply map_oops in H as (l1 & y & l2 & E & _ & H). unfold OopsModel.parse_told in H. destruct (parses y) eqn:Py; [discriminate|]. injection H as <-. cbn [said]. split; auto.
      exists i, o, a. split; auto. split; auto. split; [rewrite <- untold_args, A; reflexivity|]. unfold all_decls. rewrite E. apply in_app_iff. right. left. reflexivity.
    - intros H. injection H as ->. pose proof A as A'. unfold args_told in A. destruct (mapt part_told (ms_parts i)) as [ts|e'] eqn:E1; cbn [next] in A.
      + destruct (mapt part_told (ms_parts o)) as [us|e'] eqn:E2; cbn [next] in A.
        * exfalso. apply (f_equal untold) in A'. rewrite untold_args in A'. cbn [untold] in A'. rewrite A' in A. unfold op_args in A'.
          rewrite <- !(untold_map _ _ _ untold_part), E1, E2 in A'. discriminate.
        * injection A as ->. apply map_oops in E2 as (l1 & x & l2 & E & F & X). eapply untyped_said; [exact P| |exact X].
          exists (ms_parts i ++ l1)%list, l2. split; [rewrite E, app_assoc; reflexivity|]. split; [|exact (proj1 (part_oops _ _ X))].
          intros y Hy. apply in_app_iff in Hy as [Hy|Hy]; [destruct (map_fine _ _ _ E1 y Hy)|destruct (F y Hy)]; eapply part_fine; eauto.
      + injection A as ->. apply map_oops in E1 as (l1 & x & l2 & E & F & X). eapply untyped_said; [exact P| |exact X].
        exists l1, (l2 ++ ms_parts o)%list. split; [rewrite E, <- app_assoc; reflexivity|]. split; [|exact (proj1 (part_oops _ _ X))].
        intros y Hy. destruct (F y Hy). eapply part_fine; eauto.
  Qed.
  Lemma fine_operation ma mr d p op y : operation_told ma mr d p op = Fine y -> gen_operation ma mr d p op <> None.
  Proof. intros H. rewrite <- untold_operation, H. discriminate. Qed.
  (* the first operation of the first port that fails *)
  Theorem oops_said {Log} (c : wconf Log) d e : ports_told title public parses names other doc_type c d = Oops e ->
    exists l1 p l2 m1 op m2, df_ports d = (l1 ++ p :: l2)%list /\ po_ops p = (m1 ++ op :: m2)%list /\
      (forall q o, In q l1 -> In o (po_ops q) -> gen_operation (w_args _ c) (w_returns _ c) d q o <> None) /\
      (forall o, In o m1 -> gen_operation (w_args _ c) (w_returns _ c) d p o <> None) /\
      said title public parses names other doc_type (w_args _ c) (w_returns _ c) d p op e.
  Proof.
    intros H. unfold ports_told in H. destruct (mapt _ (df_ports d)) as [ds|e'] eqn:E; cbn [next] in H; [discriminate|]. injection H as ->.
    apply map_oops in E as (l1 & p & l2 & Ep & F & X). unfold port_told in X. destruct (mapt _ (po_ops p)) as [ds|e'] eqn:E; cbn [next] in X; [discriminate|]. injection X as ->.
    apply map_oops in E as (m1 & op & m2 & Eo & G & X). exists l1, p, l2, m1, op, m2. split; auto. split; auto. split; [|split].
    - intros q o Hq Ho. destruct (F q Hq) as (y & Y). unfold port_told in Y. destruct (mapt _ (po_ops q)) as [ds|] eqn:E; [|discriminate].
      destruct (map_fine _ _ _ E o Ho) as (z & Z). eapply fine_operation; eauto.
    - intros o Ho. destruct (G o Ho) as (z & Z). eapply fine_operation; eauto.
    - apply operation_said. exact X.
  Qed.
End G.

(* ---------- texts ---------- *)
Definition oops_words (e : oops) : list string :=
  match e with
  | ONoInput m => ["unknown"; "input"; "message"; "type"; nlocal m]
  | ONoOutput m => ["unknown"; "output"; "message"; "type"; nlocal m]
  | ONoElement p el => ["part"; (p ++ ":")%string; "could"; "not"; "lookup"; "element"; ("{" ++ nspace el)%string; (nlocal el ++ "}")%string]
  | OUntyped p => ["part"; p; "has"; "no"; "element"; "or"; "type"]
  | OParse _ => []
  end.
Lemma oops_split parser e : plain_oops e -> split_at " " (oops_text parser e) = oops_words e.
Proof.
  destruct e as [m|m|p el|p|d]; cbn [plain_oops oops_text oops_words].
  - intros H. change ("unknown input message type " ++ nlocal m) with ("unknown" ++ " " ++ "input" ++ " " ++ "message" ++ " " ++ "type" ++ " " ++ nlocal m).
    rewrite !split_word by reflexivity. rewrite split_none by exact H. reflexivity.
  - intros H. change ("unknown output message type " ++ nlocal m) with ("unknown" ++ " " ++ "output" ++ " " ++ "message" ++ " " ++ "type" ++ " " ++ nlocal m).
    rewrite !split_word by reflexivity. rewrite split_none by exact H. reflexivity.
  - intros (H1 & H2 & H3).
    replace ("part " ++ p ++ ": could not lookup element {" ++ nspace el ++ " " ++ nlocal el ++ "}")
      with ("part" ++ " " ++ (p ++ ":") ++ " " ++ "could" ++ " " ++ "not" ++ " " ++ "lookup" ++ " " ++ "element" ++ " " ++ ("{" ++ nspace el) ++ " " ++ nlocal el ++ "}") by (rewrite lit_app; reflexivity).
    rewrite (split_word "part") by reflexivity. rewrite (split_word (p ++ ":")) by (rewrite in_app, H1; reflexivity). rewrite (split_word "could"), (split_word "not"), (split_word "lookup"), (split_word "element") by reflexivity.
    rewrite (split_word ("{" ++ nspace el)) by (rewrite in_app, H2; reflexivity). rewrite split_none by (rewrite in_app, H3; reflexivity). reflexivity.
  - intros H. change ("part " ++ p ++ " has no element or type") with ("part" ++ " " ++ p ++ " " ++ "has" ++ " " ++ "no" ++ " " ++ "element" ++ " " ++ "or" ++ " " ++ "type").
    rewrite (split_word "part") by reflexivity. rewrite (split_word p) by exact H. reflexivity.
  - intros [].
Qed.
Theorem oops_tells parser a b : plain_oops a -> plain_oops b -> oops_text parser a = oops_text parser b -> same_said a b.
Proof.
  intros Pa Pb H. apply (f_equal (split_at " ")) in H. rewrite !oops_split in H by assumption.
  destruct a as [m|m|p el|p|d], b as [m'|m'|p' el'|p'|d']; cbn [plain_oops] in Pa, Pb; try contradiction; cbn [oops_words same_said] in *; try discriminate H.
  - injection H. auto.
  - injection H. auto.
  - injection H as H1 H2 H3. split; [exact (app_end _ _ _ H1)|]. apply name_eq; [exact (app_end _ _ _ H3)|exact H2].
  - injection H. auto.
Qed.
(* where the names are *)
Theorem oops_named parser e : plain_oops e ->
  let ws := split_at " " (oops_text parser e) in
  match e with
  | ONoInput m => nth 1 ws "" = "input" /\ last ws "" = nlocal m
  | ONoOutput m => nth 1 ws "" = "output" /\ last ws "" = nlocal m
  | ONoElement p el => nth 1 ws "" = p ++ ":" /\ exists u, ws = (u ++ ["{" ++ nspace el; nlocal el ++ "}"]%string)%list
  | OUntyped p => nth 1 ws "" = p /\ last ws "" = "type"
  | OParse _ => False
  end.
Proof.
  intros H ws. subst ws. rewrite (oops_split parser e H). destruct e as [m|m|p el|p|d]; cbn [oops_words nth last plain_oops] in *; auto.
  split; [reflexivity|]. exists ["part"; (p ++ ":")%string; "could"; "not"; "lookup"; "element"]. reflexivity.
Qed.
