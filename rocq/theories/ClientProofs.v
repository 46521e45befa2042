(* Proofs about the generated client. *)
From Verif Require Import Base ScopeModel TreeModel XsdModel XsdProofs SgStruct BindModel ClientModel ClientSpec.
Local Open Scope string_scope.

Lemma soap_field l k n a kids : k = NElem n a kids -> field_is soap_env l n = in_soap l k.
Proof. intros ->. reflexivity. Qed.
Lemma fold_flat {A B C} (f : A -> B -> A) (g : C -> list B) l : forall a, fold_left f (flat_map g l) a = fold_left (fun a c => fold_left f (g c) a) l a.
Proof. induction l as [|c l IH]; intros a; [reflexivity|]. cbn [flat_map fold_left]. rewrite fold_left_app. apply IH. Qed.

(* ---------- the fields of a fault ---------- *)
Lemma last_text_snoc l ks k : last_text l (ks ++ [k]) = if local_is l k then texts (kids_of k) else last_text l ks.
Proof. unfold last_text. rewrite filter_app, rev_app_distr. cbn [filter]. destruct (local_is l k); reflexivity. Qed.
Lemma fault_fields ks : let f := fold_left fault_kid ks no_fault in
  ft_string f = last_text "faultstring" ks /\ ft_code f = last_text "faultcode" ks /\ ft_detail f = last_text "detail" ks.
Proof.
  cbv zeta. induction ks as [|k ks IH] using rev_ind; [repeat split|]. rewrite fold_left_app, !last_text_snoc. cbn [fold_left]. destruct IH as (I1 & I2 & I3). set (f := fold_left fault_kid ks no_fault) in *.
  destruct k as [s|n a kids]; [repeat split; assumption|]. cbn [fault_kid local_is kids_of]. unfold field_is. change (String.eqb "" "") with true. cbn [orb]. rewrite !Bool.andb_true_r.
  destruct (String.eqb_spec "faultstring" (nlocal n)) as [<-|N1]; [change (String.eqb "faultcode" "faultstring") with false; change (String.eqb "detail" "faultstring") with false; repeat split; assumption|].
  destruct (String.eqb_spec "faultcode" (nlocal n)) as [<-|N2]; [change (String.eqb "detail" "faultcode") with false; repeat split; assumption|].
  destruct (String.eqb "detail" (nlocal n)); repeat split; assumption.
Qed.

Section Client.
  Variable In_ Out : Type.
  Variable write_in : In_ -> option node.
  Variable read_out : node -> Out -> option Out.
  Variable refused : request -> bool.
  Variable answer : request -> option (option node).
  Variable hook : option (request -> request).
  Notation body_kid := (body_kid Out read_out).
  Notation envelope_kid := (envelope_kid Out read_out).
  Notation decode := (decode Out read_out).
  Notation do := (do In_ Out write_in read_out refused answer hook).
  Notation is_request := (is_request In_ write_in).
  Notation read := (read Out read_out).
  Definition add_fault (o : option fault) (k : node) : option fault := Some (fault_of o (kids_of k)).
  Lemma bodies_spec : forall ks so,
    foldo body_kid so ks = option_map (fun o => (o, fold_left add_fault (filter (in_soap "Fault") ks) (snd so))) (foldo read (fst so) (filter (local_is "Message") ks)).
  Proof.
    induction ks as [|k ks IH]; intros [o f]; [reflexivity|]. cbn [foldo filter]. unfold ClientModel.body_kid at 1.
    destruct k as [s|n a kids]; [apply IH|]. cbn [local_is]. unfold field_is at 1. change (String.eqb "" "") with true. cbn [orb]. rewrite Bool.andb_true_r. rewrite (soap_field "Fault" _ n a kids eq_refl).
    destruct (String.eqb_spec "Message" (nlocal n)) as [E|E].
    - assert (F : in_soap "Fault" (NElem n a kids) = false) by (cbn [in_soap]; rewrite <- E; reflexivity). rewrite F. cbn [foldo fst snd]. unfold ClientSpec.read at 1. destruct (read_out (NElem n a kids) o) as [o'|]; [|reflexivity]. cbn [option_map]. rewrite IH. reflexivity.
    - destruct (in_soap "Fault" (NElem n a kids)); rewrite IH; reflexivity.
  Qed.
  Lemma envelope_spec : forall ks so, foldo envelope_kid so ks =
    let b := flat_map kids_of (filter (in_soap "Body") ks) in
    option_map (fun o => (o, fold_left add_fault (filter (in_soap "Fault") b) (snd so))) (foldo read (fst so) (filter (local_is "Message") b)).
  Proof.
    cbv zeta. induction ks as [|k ks IH]; intros [o f]; [reflexivity|]. cbn [foldo filter] in *. unfold ClientModel.envelope_kid at 1. destruct k as [s|n a kids]; [apply IH|]. rewrite (soap_field "Body" _ n a kids eq_refl).
    destruct (in_soap "Body" (NElem n a kids)); [|apply IH]. cbn [flat_map kids_of] in *. rewrite bodies_spec, !filter_app, foldo_app. cbn [fst snd]. destruct (foldo read o (filter (local_is "Message") kids)) as [o'|]; [|reflexivity].
    cbn [option_map]. rewrite IH. cbn [fst snd]. rewrite fold_left_app. reflexivity.
  Qed.
  Lemma faults_spec l : forall o, fold_left add_fault l o = match l with [] => o | _ => Some (fold_left fault_kid (flat_map kids_of l) (match o with Some f => f | None => no_fault end)) end.
  Proof.
    induction l as [|k l IH]; intros o; [reflexivity|]. cbn [fold_left]. rewrite IH. cbn [flat_map]. rewrite fold_left_app. unfold add_fault, fault_of. destruct l; reflexivity.
  Qed.
  Lemma decode_spec doc out :
    decode doc out = if in_soap "Envelope" doc then option_map (fun o => (o, match faults doc with [] => None | _ => Some (fold_left fault_kid (flat_map kids_of (faults doc)) no_fault) end)) (foldo read out (messages doc)) else None.
  Proof.
    destruct doc as [s|n a kids]; [reflexivity|]. cbn [ClientModel.decode]. rewrite (soap_field "Envelope" _ n a kids eq_refl). destruct (in_soap "Envelope" (NElem n a kids)); [|reflexivity]. rewrite envelope_spec. cbv zeta. cbn [fst snd]. rewrite faults_spec. reflexivity.
  Qed.

  (* ---------- the call ---------- *)
  Lemma posts_iff method : (String.eqb method "POST" || String.eqb method "PUT")%bool = true <-> posts method.
  Proof. rewrite Bool.orb_true_iff, !String.eqb_eq. reflexivity. Qed.
  Lemma built method uri action x (body : option node) : (if (String.eqb method "POST" || String.eqb method "PUT")%bool then option_map Some (request_body In_ write_in x) else Some None) = Some body ->
    is_request method uri action x (mkReq method uri action body).
  Proof.
    intros H. unfold ClientSpec.is_request. cbn [rq_method rq_uri rq_action rq_body]. do 3 (split; [reflexivity|]). destruct (String.eqb method "POST" || String.eqb method "PUT")%bool eqn:P.
    - apply posts_iff in P. split; [|intros N; destruct (N P)]. intros _. unfold request_body in H. destruct (write_in x) as [y|]; [|discriminate]. injection H as <-. eauto.
    - assert (N : ~ posts method) by (rewrite <- posts_iff; congruence). split; [intros Q; destruct (N Q)|]. injection H as <-. auto.
  Qed.
  Theorem sent method uri action x out req r o : do method uri action x out = (Some req, r, o) ->
    exists q, is_request method uri action x q /\ refused q = false /\ req = match hook with Some h => h q | None => q end.
  Proof.
    unfold ClientModel.do. cbv zeta. destruct (if (String.eqb method "POST" || String.eqb method "PUT")%bool then _ else _) as [body|] eqn:B; [|discriminate].
    apply (built method uri action) in B. destruct (refused (mkReq method uri action body)) eqn:R; [discriminate|]. intros H. exists (mkReq method uri action body). split; [exact B|]. split; [exact R|].
    destruct (answer _) as [[doc|]|]; try (injection H as <- _ _; reflexivity). destruct (decode doc out) as [[o' [f|]]|]; injection H as <- _ _; reflexivity.
  Qed.
  Theorem not_sent method uri action x out r o : do method uri action x out = (None, r, o) -> r = Failed /\ o = out /\
    ((posts method /\ write_in x = None) \/ exists q, is_request method uri action x q /\ refused q = true).
  Proof.
    unfold ClientModel.do. cbv zeta. destruct (if (String.eqb method "POST" || String.eqb method "PUT")%bool then _ else _) as [body|] eqn:B.
    - apply (built method uri action) in B. destruct (refused (mkReq method uri action body)) eqn:R; [intros [= <- <-]; eauto 6|]. destruct (answer _) as [[doc|]|]; try discriminate. destruct (decode doc out) as [[o' [f|]]|]; discriminate.
    - intros [= <- <-]. split; [reflexivity|]. split; [reflexivity|]. left. destruct (String.eqb method "POST" || String.eqb method "PUT")%bool eqn:P; [|discriminate]. apply posts_iff in P. split; [exact P|]. unfold request_body in B. destruct (write_in x); [discriminate|reflexivity].
  Qed.
  Theorem result method uri action x out req r o doc : do method uri action x out = (Some req, r, o) -> answer req = Some (Some doc) ->
    (in_soap "Envelope" doc = false \/ foldo read out (messages doc) = None -> r = Failed) /\
    (forall o', in_soap "Envelope" doc = true -> foldo read out (messages doc) = Some o' ->
      o = o' /\ (faults doc = [] -> r = Succeeded) /\ (faults doc <> [] -> r = Faulted (fault_text doc))).
  Proof.
    intros H A. revert H. unfold ClientModel.do. cbv zeta. destruct (if (String.eqb method "POST" || String.eqb method "PUT")%bool then _ else _) as [body|]; [|discriminate].
    destruct (refused (mkReq method uri action body)); [discriminate|]. set (req' := match hook with Some h => h (mkReq method uri action body) | None => mkReq method uri action body end).
    assert (Er : forall a b c, (match answer req' with None | Some None => (Some req', Failed, out) | Some (Some d) => match decode d out with None => (Some req', Failed, out) | Some (o', None) => (Some req', Succeeded, o') | Some (o', Some f) => (Some req', Faulted (ft_code f ++ ": " ++ ft_string f), o') end end) = (Some a, b, c) -> a = req').
    { intros a b c. destruct (answer req') as [[d|]|]; [destruct (decode d out) as [[o' [f|]]|]|..]; intros [= <- _ _]; reflexivity. }
    intros H. pose proof (Er _ _ _ H) as ->. rewrite A, decode_spec in H. destruct (in_soap "Envelope" doc); [|injection H as <- <-; split; [reflexivity|discriminate]].
    destruct (foldo read out (messages doc)) as [o1|]; cbn [option_map] in H; [|injection H as <- <-; split; [reflexivity|discriminate]]. split; [intros [?|?]; discriminate|]. intros o' _ [= <-].
    destruct (faults doc) as [|f0 fl] eqn:F; [injection H as <- <-; split; [reflexivity|]; split; [reflexivity|congruence]|].
    injection H as <- <-. split; [reflexivity|]. split; [discriminate|]. intros _. unfold fault_text. rewrite F. destruct (fault_fields (flat_map kids_of (f0 :: fl))) as (F1 & F2 & _). exact (f_equal2 (fun a b => Faulted (a ++ ": " ++ b)) F2 F1).
  Qed.
  Theorem no_answer method uri action x out req r o : do method uri action x out = (Some req, r, o) -> (answer req = None \/ answer req = Some None) -> r = Failed /\ o = out.
  Proof.
    unfold ClientModel.do. cbv zeta. destruct (if (String.eqb method "POST" || String.eqb method "PUT")%bool then _ else _) as [body|]; [|discriminate].
    destruct (refused (mkReq method uri action body)); [discriminate|]. set (req' := match hook with Some h => h (mkReq method uri action body) | None => mkReq method uri action body end).
    destruct (answer req') as [[d|]|] eqn:E; [destruct (decode d out) as [[o' [f|]]|]|..]; intros [= <- <- <-] [A|A]; try congruence; auto.
  Qed.
  (* an answer without an element called Message is not read into the response *)
  Theorem ignored method uri action x out req r o doc : do method uri action x out = (Some req, r, o) -> answer req = Some (Some doc) -> messages doc = [] -> o = out.
  Proof.
    intros H A M. destruct (result _ _ _ _ _ _ _ _ _ H A) as (_ & R). rewrite M in R. destruct (in_soap "Envelope" doc) eqn:E; [apply (R out eq_refl eq_refl)|].
    revert H. unfold ClientModel.do. cbv zeta. destruct (if (String.eqb method "POST" || String.eqb method "PUT")%bool then _ else _) as [body|]; [|discriminate].
    destruct (refused (mkReq method uri action body)); [discriminate|]. set (req' := match hook with Some h => h (mkReq method uri action body) | None => mkReq method uri action body end).
    destruct (answer req') as [[d|]|] eqn:E'; [destruct (decode d out) as [[o' [f|]]|] eqn:D|..]; intros [= <- <- <-]; try reflexivity;
    rewrite A in E'; injection E' as <-; rewrite decode_spec, E in D; discriminate.
  Qed.
  (* without a body the arguments do not matter *)
  Theorem arguments_unused method uri action x y out : ~ posts method -> do method uri action x out = do method uri action y out.
  Proof. intros N. unfold ClientModel.do. destruct (String.eqb method "POST" || String.eqb method "PUT")%bool eqn:P; [apply posts_iff in P; destruct (N P)|reflexivity]. Qed.
End Client.
