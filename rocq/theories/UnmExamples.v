(* Cases for PropsUnm.v: a message whose body is read as a value of a generated type. *)
From Verif Require Import Base ScopeModel ScopeSpec TreeModel EqualModel BuiltinModel XsdModel TypesModel TypesSpec GenModel SgModel SgStruct SgTags SgExamples SgFlatSpec SgExpandSpec SgGen SgGenSpec SgGenExamples SgOrderSpec SgShapeSpec BindModel BindSpec BindGenSpec BindDecode BindExamples BindDecodeEx WholeSpec WholeBind WholeExamples.
From Verif Require Import ParseModel ParseSpec ParseProofs DecodeModel MarshalModel MarshalSpec MarshalProofs DocModel UnmModel UnmSpec UnmProofs.
Local Open Scope string_scope.

(* ---------- deciding printable ---------- *)
Fixpoint char_datab (fuel : nat) (s : string) : bool :=
  match fuel, s with
  | _, "" => true
  | S f, String c s' => if plain_byte c then (negb (String.prefix "]]>" s) && char_datab f s')%bool else match find (fun e => String.prefix e s) entities with Some e => char_datab f (substring (String.length e) (String.length s - String.length e) s) | None => false end
  | 0, _ => false
  end.
Lemma prefix_split e : forall s, String.prefix e s = true -> s = e ++ substring (String.length e) (String.length s - String.length e) s.
Proof.
  induction e as [|c e IH]; intros s H.
  - cbn [append String.length]. rewrite Nat.sub_0_r. clear. induction s as [|c s IH]; [reflexivity|]. cbn [String.length substring]. f_equal. exact IH.
  - destruct s as [|d s]; [discriminate|]. cbn [String.prefix] in H. destruct (Ascii.ascii_dec c d) as [->|]; [|discriminate]. cbn [append String.length substring Nat.sub]. f_equal. apply IH. exact H.
Qed.
Lemma char_datab_ok : forall fuel s, char_datab fuel s = true -> char_data s.
Proof.
  induction fuel as [|f IH]; intros [|c s] H; [constructor|discriminate H|constructor|]. cbn [char_datab] in H. destruct (plain_byte c) eqn:E.
  - apply andb_true_iff in H as [H1 H2]. apply negb_true_iff in H1. constructor; auto.
  - destruct (find _ entities) as [e|] eqn:Fe; [|discriminate]. apply find_some in Fe as [I P]. rewrite (prefix_split e _ P). apply cd_entity; auto.
Qed.
Definition decl_okb (d : xname) : bool := ((String.eqb (nlocal d) "" || ncname (nlocal d) && negb (String.eqb (nlocal d) "xml") && negb (String.eqb (nlocal d) "xmlns")) && value_ok (nspace d))%bool.
Definition name_okb (s : scope) (n : xname) : bool := (ncname (nlocal n) && negb (String.eqb (nlocal n) "xmlns") && negb (String.eqb (nspace n) xmlns_uri) && xname_eqb (resolve s (prefix s n)) n)%bool.
Definition attr_okb (s : scope) (a : xattr) : bool :=
  (ncname (nlocal (aname a)) && negb (String.eqb (nlocal (aname a)) "xmlns") && negb (String.eqb (nspace (aname a)) "xmlns") && negb (String.eqb (nspace (aname a)) xmlns_uri) && value_ok (avalue a) &&
   (String.eqb (nspace (aname a)) "" || xname_eqb (resolve s (prefix s (aname a))) (aname a) && s_in ":"%char (prefix s (aname a))))%bool.
Definition no_kids (e : elem) : bool := match e_children e with [] => true | _ => false end.
Fixpoint printableb (ps : scope) (e : elem) : bool :=
  match e with
  | Elem n a s c ch =>
      let ds := skipn (List.length ps) s in
      ((if list_eq_dec xname_eq_dec s (ps ++ ds)%list then true else false) && forallb decl_okb ds && name_okb s n && forallb (attr_okb s) a && (negb (no_kids e) || char_datab (String.length c) c) && forallb (printableb s) ch)%bool
  end.
Lemma printableb_ok : forall e ps, printableb ps e = true -> printable ps e.
Proof.
  induction e as [n a s c ch IH] using elem_ind'. intros ps H. cbn [printableb] in H. rewrite !andb_true_iff in H. destruct H as (((((H1 & H2) & H3) & H4) & H5) & H6). destruct (list_eq_dec xname_eq_dec s (ps ++ skipn (List.length ps) s)%list) as [E|]; [|discriminate]. revert E H2. generalize (skipn (List.length ps) s) as ds. intros ds -> H2. rewrite forallb_forall in H2, H4, H6. rewrite Forall_forall in IH. constructor.
  - intros d I. specialize (H2 d I). unfold decl_okb in H2. rewrite andb_true_iff, orb_true_iff, !andb_true_iff, !negb_true_iff, !String.eqb_neq, String.eqb_eq in H2. destruct H2 as [[Q|((Q1 & Q2) & Q3)] V]; (split; [|exact V]); [left; exact Q|right]. split; [exact Q1|]. unfold reserved. tauto.
  - unfold name_okb in H3. rewrite !andb_true_iff, !negb_true_iff, !String.eqb_neq in H3. destruct H3 as (((A & B) & C) & D). apply xname_eqb_eq in D. repeat split; assumption.
  - intros x I. specialize (H4 x I). unfold attr_okb in H4. rewrite !andb_true_iff, orb_true_iff, !andb_true_iff, !negb_true_iff, !String.eqb_neq, String.eqb_eq in H4. destruct H4 as (((((A & B) & C) & D) & E) & F). repeat split; try assumption. destruct F as [F|[F G]]; [left; exact F|right]. apply xname_eqb_eq in F. auto.
  - intros ->. cbn [no_kids e_children negb orb] in H5. exact (char_datab_ok _ _ H5).
  - intros e I. apply IH; [exact I|]. apply H6. exact I.
Qed.
Fixpoint all_scopes (f : xname -> bool) (e : elem) : bool := match e with Elem _ _ s _ ch => (forallb f s && forallb (all_scopes f) ch)%bool end.
Lemma all_scopes_sub f : forall p el e m, all_scopes f el = true -> sub el p = Some e -> In m (e_scope e) -> f m = true.
Proof.
  induction p as [|i p IH]; intros [n a s c ch] e m A H I; cbn [all_scopes] in A; apply andb_true_iff in A as [A1 A2]; rewrite forallb_forall in A1, A2.
  - injection H as <-. apply A1. exact I.
  - cbn [sub e_children] in H. destruct (nth_error ch i) as [k|] eqn:E; [|discriminate]. apply (IH k e m); auto. apply A2. exact (nth_error_In _ _ E).
Qed.
Fixpoint node_ind' (P : node -> Prop) (H1 : forall n a k, Forall P k -> P (NElem n a k)) (H2 : forall s, P (NText s)) (r : node) : P r :=
  match r with NElem n a k => H1 n a k ((fix go (l : list node) : Forall P l := match l with [] => Forall_nil P | x :: l' => Forall_cons x (node_ind' P H1 H2 x) (go l') end) k) | NText s => H2 s end.
Fixpoint unmixedb (r : node) : bool :=
  match r with
  | NElem _ _ kids => (forallb (fun k => match k with NElem _ _ _ => unmixedb k | NText _ => true end) kids && (forallb is_element kids || forallb (fun k => negb (is_element k)) kids))%bool
  | NText _ => false
  end.
Lemma unmixedb_ok : forall r, unmixedb r = true -> unmixed r.
Proof.
  induction r as [n a kids IH|s] using node_ind'; intros H; [|discriminate]. cbn [unmixedb] in H. apply andb_true_iff in H as [H1 H2]. rewrite forallb_forall in H1. constructor.
  - apply Forall_forall. intros k I. unfold elements in I. apply filter_In in I as [I E]. specialize (H1 k I). rewrite Forall_forall in IH. destruct k; try discriminate E. exact (IH _ I H1).
  - intros (s & I). apply orb_true_iff in H2 as [H2|H2]; rewrite forallb_forall in H2; [discriminate (H2 _ I)|]. unfold elements. clear - H2. induction kids as [|k l IH]; [reflexivity|]. cbn [filter]. pose proof (H2 k (or_introl eq_refl)) as E. apply negb_true_iff in E. rewrite E. apply IH. intros; apply H2; right; assumption.
Qed.

(* ---------- a message ---------- *)
Definition lf : string := String "010" "".
Definition truck_text : string := "<f:truck><f:color>blue</f:color><f:owner>Lee</f:owner><f:note/><f:trailer id='7'>" ++ lf ++ "<f:color>red</f:color> <f:owner>Kim</f:owner><f:note >old</f:note></f:trailer></f:truck>" ++ lf.
Definition message : string := "<e:Body xmlns:e='urn:e'><e:To>x</e:To>" ++ lf ++ "<Fleet xmlns='urn:a' owner='Kim' xmlns:f='urn:a'>" ++ lf ++ truck_text ++ truck_text ++ "<label lang='en'>red</label><Items>x</Items><Items>y</Items>" ++ lf ++ "</Fleet></e:Body>" ++ lf.
Definition message_tree : elem := Eval vm_compute in match parse isort_ns message (decode message) with POk el _ _ => el | _ => Elem (mkName "" "") [] [] "" [] end.
Definition message_body : elem := Eval vm_compute in match sub message_tree [1] with Some e => e | None => message_tree end.
Lemma message_parsed : exists off rest, parse isort_ns message (decode message) = POk message_tree off rest /\ sub message_tree [1] = Some message_body.
Proof. eexists _, _. split; vm_compute; reflexivity. Qed.
Lemma body_printable : printable [] message_body.
Proof. apply printableb_ok. vm_compute. reflexivity. Qed.
(* what is written of it *)
Definition body_text : string := Eval vm_compute in marshal message_body.
Definition message_declares (x : xattr) : bool := (String.eqb (nlocal (aname x)) "xmlns" || String.eqb (nspace (aname x)) "xmlns" && mem_str (nlocal (aname x)) ["e"; "f"; ""])%bool.
Lemma body_declared : all_declared message_declares message_body.
Proof.
  split.
  - intros x H. unfold message_declares in H. apply orb_true_iff in H as [H|H]; [right; apply String.eqb_eq; exact H|]. apply andb_true_iff in H as [H _]. left. apply String.eqb_eq. exact H.
  - intros p e m x Hp I [_ D]. assert (Q : mem_str (nlocal m) ["e"; "f"; ""] = true). { apply (all_scopes_sub (fun m => mem_str (nlocal m) ["e"; "f"; ""]) p message_body e m); [vm_compute; reflexivity|exact Hp|exact I]. }
    unfold message_declares. destruct D as [[D1 D2]|(_ & D & _)].
    + rewrite D1, D2, Q. apply orb_true_r.
    + rewrite D. reflexivity.
Qed.
Lemma message_locals x : message_declares x = true -> mem_str (nlocal (aname x)) ["xmlns"; "e"; "f"; ""] = true.
Proof.
  unfold message_declares. intros H. apply orb_true_iff in H as [H|H]; [apply String.eqb_eq in H; rewrite H; reflexivity|]. apply andb_true_iff in H as [_ H]. cbn [mem_str existsb] in *. destruct (String.eqb _ "xmlns"); [reflexivity|exact H].
Qed.
Lemma fleet_clear : clear_code go_pub upper message_declares None None fleet fleet_decls.
Proof. apply (clear_codeb_ok go_pub upper 6 _ message_declares ["xmlns"; "e"; "f"; ""] message_locals). vm_compute. reflexivity. Qed.
Definition message_node : node := Eval vm_compute in match seen message with Some r => r | None => NText "" end.
Definition body_node : node := Eval vm_compute in match node_at message_node [1] with Some r => r | None => NText "" end.
Lemma message_seen : seen message = Some message_node /\ node_at message_node [1] = Some body_node.
Proof. split; vm_compute; reflexivity. Qed.
Lemma fleet_unmixed : unmixed (fleet_doc [] "" [NText ""]).
Proof. apply unmixedb_ok. vm_compute. reflexivity. Qed.
Lemma body_reads : reads_back message_declares id "" (fleet_doc [] "" [NText ""]) body_node.
Proof. unfold fleet_doc, truck_doc, leaf_doc, body_node. back. Qed.
Definition body_sees : node := Eval vm_compute in match unmarshal_sees message_body with Some r => r | None => NText "" end.
Lemma body_unmarshals : unmarshal_sees message_body = Some body_sees /\ unmarshal upper fleet_structs string untxt fleet_zero body_sees (EId "Fleet") (fleet_zero (EId "Fleet")) = Some a_fleet.
Proof. split; vm_compute; reflexivity. Qed.

(* ---------- what Unmarshal reads differently ---------- *)
Lemma mixed_unseen : exists data el off r y, parse isort_ns data (decode data) = POk el off [] /\ printable [] el /\ seen data = Some r /\ unmarshal_sees el = Some y /\
  r = NElem (mkName "" "a") [] [NText "t"; NElem (mkName "" "b") [] []; NText "u"] /\ y = NElem (mkName "" "a") [] [NElem (mkName "" "b") [] []].
Proof.
  exists "<a>t<b/>u</a>". eexists _, _, _, _. split; [vm_compute; reflexivity|]. split; [apply printableb_ok; vm_compute; reflexivity|]. split; [vm_compute; reflexivity|]. split; [vm_compute; reflexivity|]. split; reflexivity.
Qed.
Lemma quote_unseen : exists data el off r, parse isort_ns data (decode data) = POk el off [] /\ seen data = Some r /\ unmarshal_sees el = None.
Proof. exists "<a k='x""y'/>". eexists _, _, _. repeat split; vm_compute; reflexivity. Qed.
(* a prefix declared outside the element, with the name of one of its attributes *)
Definition odd_message : string := "<Body xmlns:owner='urn:o'><Fleet xmlns='urn:a'/></Body>".
Lemma prefix_as_attribute : exists el off sel r r' y v v', parse isort_ns odd_message (decode odd_message) = POk el off [] /\ sub el [0] = Some sel /\ printable [] sel /\
  seen odd_message = Some r /\ node_at r [0] = Some r' /\ unmarshal_sees sel = Some y /\
  unmarshal upper fleet_structs string untxt fleet_zero r' (EId "Fleet") (fleet_zero (EId "Fleet")) = Some (VStruct _ [VSlice _ []; VStruct _ [L ""; L ""]; VSlice _ []; v]) /\ v = L "" /\
  unmarshal upper fleet_structs string untxt fleet_zero y (EId "Fleet") (fleet_zero (EId "Fleet")) = Some (VStruct _ [VSlice _ []; VStruct _ [L ""; L ""]; VSlice _ []; v']) /\ v' = L "urn:o".
Proof.
  eexists _, _, _, _, _, _, _, _. split; [vm_compute; reflexivity|]. split; [reflexivity|]. split; [apply printableb_ok; vm_compute; reflexivity|]. split; [vm_compute; reflexivity|]. split; [reflexivity|]. split; [vm_compute; reflexivity|].
  split; [vm_compute; reflexivity|]. split; [reflexivity|]. split; [vm_compute; reflexivity|]. reflexivity.
Qed.
(* a prefix declared again: read as it is in the document *)
Lemma shadowed_seen : exists data el off sel r y, parse isort_ns data (decode data) = POk el off [] /\ sub el [0] = Some sel /\ printable [] sel /\ ~ NoDup (map nlocal (e_scope sel)) /\ seen data = Some r /\ unmarshal_sees sel = Some y /\
  y = NElem (mkName "" "c") [mkAttr (mkName "xmlns" "a") "urn:z"; mkAttr (mkName "xmlns" "a") "urn:b"] [NElem (mkName "urn:b" "x") [] [NText "1"]].
Proof.
  exists "<r xmlns:a='urn:z'><c xmlns:a='urn:b'><a:x>1</a:x></c></r>". eexists _, _, _, _, _. split; [vm_compute; reflexivity|]. split; [reflexivity|]. split; [apply printableb_ok; vm_compute; reflexivity|].
  split; [intros H; inversion H as [|? ? N _]; apply N; left; reflexivity|]. split; [vm_compute; reflexivity|]. split; [vm_compute; reflexivity|]. reflexivity.
Qed.

(* an annotation *)
Definition note_el : elem :=
  let s0 := [mkName schemaNS ""] in
  Elem (mkName schemaNS "annotation") [] s0 "" [Elem (mkName schemaNS "documentation") [] s0 " a &lt; b " []; Elem (mkName schemaNS "documentation") [] s0 "c" []].
Lemma note_read : printable [] note_el /\ eheight note_el = 1%N /\ unmarshal_sees note_el = Some (NElem (mkName schemaNS "annotation") [mkAttr (mkName "" "xmlns") schemaNS] [NElem (mkName schemaNS "documentation") [] [NText " a < b "]; NElem (mkName schemaNS "documentation") [] [NText "c"]]) /\
  parse_annotation raw_text note_el = Some ("a < b" ++ blank_line ++ "c").
Proof. split; [apply printableb_ok; vm_compute; reflexivity|]. repeat split; vm_compute; reflexivity. Qed.
