(* C01-C06: namespace scopes. *)
From Verif Require Import Base ScopeModel ScopeSpec ScopeProofs ScopeHeap ScopeHeapProofs.

(* C01: a resolved name has the local part of the QName, and the namespace that its prefix
   denotes (innermost declaration) *)
Theorem C01_resolve_innermost :
  forall s q p l, qname_parts q p l ->
  forall n, resolve_ns s q = (n, true) <-> nlocal n = l /\ denotes s p (nspace n).
Proof. exact resolve_ns_true. Qed.
Print Assumptions C01_resolve_innermost.

(* every string has exactly one decomposition, so C01/C02 cover every QName *)
Theorem C01_every_qname_splits :
  forall q, exists p l, qname_parts q p l /\ forall p' l', qname_parts q p' l' -> p' = p /\ l' = l.
Proof.
  exact (fun q => match qname_parts_total q with
    | ex_intro _ p (ex_intro _ l H) =>
        ex_intro _ p (ex_intro _ l (conj H (fun p' l' H' => qname_parts_fun q p' l' p l H' H))) end).
Qed.
Print Assumptions C01_every_qname_splits.

(* C02 *)
Theorem C02_resolve_failure :
  forall s q p l, qname_parts q p l ->
  forall n, resolve_ns s q = (n, false) <->
    n = mkName p l /\ ~ reserved p /\ forall u, ~ In (mkName u p) s.
Proof. exact resolve_ns_false. Qed.
Print Assumptions C02_resolve_failure.

(* C03 *)
Theorem C03_resolve_default :
  forall s q d,
  (d <> "" -> s_in ":"%char q = false -> resolve_default s q d = mkName d q) /\
  (d = "" \/ s_in ":"%char q = true -> resolve_default s q d = resolve s q).
Proof. exact resolve_default_spec. Qed.
Print Assumptions C03_resolve_default.

Definition sc1 := [mkName "urn:a" "a"; mkName "urn:d" ""; mkName "urn:b" "a"; mkName "urn:e" "x"].
Example resolve_example :
  resolve_ns sc1 "a:b:c" = (mkName "urn:b" "b:c", true) /\
  resolve_ns sc1 "foo" = (mkName "urn:d" "foo", true) /\
  resolve_ns sc1 "zz:foo" = (mkName "zz" "foo", false) /\
  resolve_ns sc1 "xml:lang" = (mkName xml_uri "lang", true) /\
  resolve_default sc1 "foo" "urn:z" = mkName "urn:z" "foo" /\
  resolve_default sc1 "x:foo" "urn:z" = mkName "urn:e" "foo".
Proof. vm_compute. tauto. Qed.

(* C04: what Prefix returns, for a name with a non-empty local part in an ordinary namespace *)
Theorem C04_prefix_result :
  forall s n, nlocal n <> "" -> nspace n <> "" -> nspace n <> xml_uri -> nspace n <> xmlns_uri ->
  (In (mkName (nspace n) "") s /\ prefix s n = nlocal n) \/
  (~ In (mkName (nspace n) "") s /\ exists l1 p l2, s = l1 ++ mkName (nspace n) p :: l2 /\
      (forall q, ~ In (mkName (nspace n) q) l2) /\ prefix s n = (p ++ ":" ++ nlocal n)%string) \/
  ((forall p, ~ In (mkName (nspace n) p) s) /\ prefix s n = "").
Proof. exact prefix_cases. Qed.
Print Assumptions C04_prefix_result.

Theorem C04_prefix_inverse :
  forall s n, no_shadowing s -> prefixes_ok s ->
  nlocal n <> "" -> s_in ":"%char (nlocal n) = false ->
  (exists p, In (mkName (nspace n) p) s) -> nspace n <> "" ->
  nspace n <> xml_uri -> nspace n <> xmlns_uri ->
  resolve_ns s (prefix s n) = (n, true).
Proof. exact resolve_prefix. Qed.
Print Assumptions C04_prefix_inverse.

Example prefix_example :
  let s := [mkName "urn:a" "a"; mkName "urn:d" ""; mkName "urn:d" "d"] in
  no_shadowing s /\ prefixes_ok s /\
  prefix s (mkName "urn:a" "t") = "a:t" /\ prefix s (mkName "urn:d" "t") = "t".
Proof.
  cbv zeta. split; [|split].
  - unfold no_shadowing; cbn. repeat constructor; cbn; intuition discriminate.
  - intros d [<-|[<-|[<-|[]]]]; cbn; unfold reserved; intuition discriminate.
  - vm_compute. auto.
Qed.

(* without no_shadowing the inverse law fails: the prefix chosen may be redeclared further in,
   and so may the default namespace *)
Theorem C04_prefix_inverse_refuted :
  exists s n, (exists p, In (mkName (nspace n) p) s) /\ prefixes_ok s /\ nlocal n <> "" /\
    nspace n <> "" /\ resolve s (prefix s n) <> n.
Proof. exact prefix_inverse_shadowed. Qed.
Print Assumptions C04_prefix_inverse_refuted.

(* even when another declared prefix would have been correct *)
Theorem C04_prefix_shadowed_default_refuted :
  exists s n, prefix s n = nlocal n /\ nlocal n <> "" /\ nspace n <> "" /\
    (exists p, p <> "" /\ binds s p (nspace n)) /\ resolve s (prefix s n) <> n.
Proof. exact prefix_inverse_shadowed_default. Qed.
Print Assumptions C04_prefix_shadowed_default_refuted.

(* documented: "If the namespace cannot be found ... an unqualified name is returned" *)
Theorem C04_prefix_unknown_namespace_refuted :
  exists s n, (forall p, ~ In (mkName (nspace n) p) s) /\ nlocal n <> "" /\ prefix s n <> nlocal n.
Proof. exact prefix_unknown_ns. Qed.
Print Assumptions C04_prefix_unknown_namespace_refuted.

(* C05 *)
Theorem C05_join_scope :
  forall outer inner q,
  (forall n, resolve_ns inner q = (n, true) -> resolve_ns (join_scope outer inner) q = (n, true)) /\
  (forall n, resolve_ns inner q = (n, false) -> resolve_ns (join_scope outer inner) q = resolve_ns outer q).
Proof. exact join_scope_law. Qed.
Print Assumptions C05_join_scope.

Example join_example :
  resolve_ns (join_scope [mkName "urn:o" "a"; mkName "urn:o2" "b"] [mkName "urn:i" "a"]) "a:x" = (mkName "urn:i" "x", true) /\
  resolve_ns (join_scope [mkName "urn:o" "a"; mkName "urn:o2" "b"] [mkName "urn:i" "a"]) "b:x" = (mkName "urn:o2" "x", true).
Proof. vm_compute; auto. Qed.

(* C06: every history of scope creation, copying and pushing (and joins whose result is not
   itself extended) behaves as if Scopes did not share memory ... *)
Theorem C06_scopes_behave_as_values :
  forall grow ops, safe ops = true -> observe (run grow ops) = vrun ops.
Proof. exact run_refines. Qed.
Print Assumptions C06_scopes_behave_as_values.

(* ... so a captured scope keeps its contents whatever happens to other scopes *)
Theorem C06_captured_scope_never_clobbered :
  forall grow ops1 ops2 k,
  safe (ops1 ++ ops2) = true -> k < List.length (observe (run grow ops1)) ->
  (forall d, ~ In (OPush k d) ops2) ->
  nth k (observe (run grow (ops1 ++ ops2))) [] = nth k (observe (run grow ops1)) [].
Proof. exact captured_stable. Qed.
Print Assumptions C06_captured_scope_never_clobbered.

(* the parse of <r xmlns:p xmlns:q xmlns:r><a xmlns:s/><b xmlns:t/></r> *)
Definition parse_history :=
  [ONew; OPush 0 [mkName "u1" "p"; mkName "u2" "q"; mkName "u3" "r"];
   OCopy 0; OPush 1 [mkName "u4" "s"]; OCopy 0; OPush 2 [mkName "u5" "t"]; OCopy 2].
Example parse_history_safe :
  safe parse_history = true /\ List.length (observe (run double parse_history)) = 4 /\ nth 1 (observe (run double parse_history)) [] =
    [mkName "u1" "p"; mkName "u2" "q"; mkName "u3" "r"; mkName "u4" "s"].
Proof. vm_compute; auto. Qed.

(* JoinScope results are not clipped: with Go's doubling growth, two joins on one result
   overwrite each other *)
Theorem C06_join_of_join_clobbers_refuted :
  exists ops, nth 4 (observe (run double ops)) [] <> nth 4 (vrun ops) [] /\
    safe ops = false.
Proof. exact join_clobbers. Qed.
Print Assumptions C06_join_of_join_clobbers_refuted.
