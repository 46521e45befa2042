(* C12-C14, C16, C17: Marshal, MarshalIndent, Encode. *)
From Verif Require Import Base ScopeModel ScopeSpec TreeModel ParseModel ParseSpec ParseProofs DecodeModel
  MarshalModel MarshalSpec MarshalProofs MarshalProofs2.
From Coq Require Import Sorted.
Local Open Scope string_scope.

(* C12: the output is a tree of tags in which every element is written with the names its own
   Scope assigns and the declarations in force at it are exactly its Scope *)
Theorem C12_marshal_declares_every_scope :
  forall el, extends [] el -> (eheight el <= 3000)%N ->
  exists t, marshal el = print t /\
  forall p e, sub el p = Some e ->
    exists t', tag_at t p = Some t' /\ tag_name t' = prefix (e_scope e) (e_name e) /\
      tag_attrs t' = map (fun x => (prefix (e_scope e) (aname x), avalue x)) (e_attrs e) /\
      in_force t p = e_scope e /\ List.length (tag_children t') = List.length (e_children e).
Proof. exact marshal_in_force. Qed.
Print Assumptions C12_marshal_declares_every_scope.

(* in particular for everything Parse returns, and every subtree of it marshalled alone *)
Theorem C12_parsed_subtrees :
  forall sortns data ts el off rest q sel, sorts sortns ->
  parse sortns data ts = POk el off rest -> sub el q = Some sel ->
  exists t, marshal sel = print t /\
  forall p e, sub sel p = Some e ->
    exists t', tag_at t p = Some t' /\ tag_name t' = prefix (e_scope e) (e_name e) /\
      tag_attrs t' = map (fun x => (prefix (e_scope e) (aname x), avalue x)) (e_attrs e) /\
      in_force t p = e_scope e /\ List.length (tag_children t') = List.length (e_children e).
Proof. exact parsed_subtree_marshal. Qed.
Print Assumptions C12_parsed_subtrees.

(* but when the subtree's scope shadows a prefix its tag declares that prefix twice (not
   well-formed XML), and reading it back can bind the prefix to the outer namespace *)
Theorem C12_subtree_duplicate_declaration_refuted :
  exists doc el c o1 o2 c', parse isort_ns doc (decode doc) = POk el o1 [] /\
  sub el [0%nat] = Some c /\
  marshal c = "<c xmlns:a=""urn:z"" xmlns:a=""urn:b""><a:x /></c>" /\
  parse isort_ns (marshal c) (decode (marshal c)) = POk c' o2 [] /\
  resolve (e_scope c) "a:x" = mkName "urn:b" "x" /\ resolve (e_scope c') "a:x" = mkName "urn:z" "x".
Proof. exact subtree_duplicate. Qed.
Print Assumptions C12_subtree_duplicate_declaration_refuted.

(* without [extends]: declarations of the parent cannot be undone *)
Theorem C12_detached_scope_refuted :
  exists el t, marshal el = print t /\ sub el [0%nat] <> None /\
  (forall e, sub el [0%nat] = Some e -> in_force t [0%nat] <> e_scope e).
Proof. exact detached_scope. Qed.
Print Assumptions C12_detached_scope_refuted.

(* C13: the round trip through the bytes *)
Theorem C13_parse_inverts_marshal :
  forall sortns el, sorts sortns -> writable [] el -> (eheight el <= 3000)%N ->
  exists el' off, parse sortns (marshal el) (decode (marshal el)) = POk el' off [] /\
  forall p e, sub el p = Some e ->
    exists e', sub el' p = Some e' /\ e_name e' = e_name e /\ e_attrs e' = e_attrs e /\
      List.length (e_children e') = List.length (e_children e) /\
      (e_children e = [] -> e_content e' = e_content e) /\
      forall q, resolve_ns (e_scope e') q = resolve_ns (e_scope e) q.
Proof. exact round_trip_paths. Qed.
Print Assumptions C13_parse_inverts_marshal.

(* the scopes come back as the same declarations, those of each tag sorted; here a scope may declare a prefix twice *)
Theorem C13_scopes_up_to_sorting :
  forall sortns el, sorts sortns -> printable [] el -> (eheight el <= 3000)%N ->
  exists el' off, parse sortns (marshal el) (decode (marshal el)) = POk el' off [] /\ reread [] [] el el'.
Proof. exact round_trip. Qed.
Print Assumptions C13_scopes_up_to_sorting.

(* for trees whose declarations are sorted (as Parse leaves them) the result is a fixed point *)
Theorem C13_fixed_point :
  forall sortns el, sorts sortns -> writable [] el -> tidy [] el -> (eheight el <= 3000)%N ->
  exists el' off, parse sortns (marshal el) (decode (marshal el)) = POk el' off [] /\
    e_scope el' = e_scope el /\ marshal el' = marshal el.
Proof. exact round_trip_stable. Qed.
Print Assumptions C13_fixed_point.

(* <p:r xmlns="u" xmlns:p="v" k="1" p:k="2"><x/><p:y xmlns:p="w">t &amp; u</p:y></p:r> *)
Definition el0 : elem :=
  let s0 := [mkName "u" ""; mkName "v" "p"] in
  let s1 := (s0 ++ [mkName "w" "p"])%list in
  Elem (mkName "v" "r") [mkAttr (mkName "" "k") "1"; mkAttr (mkName "v" "k") "2"] s0 ""
    [Elem (mkName "u" "x") [] s0 "" []; Elem (mkName "w" "y") [] s1 "t &amp; u" []].
Example el0_writable : writable [] el0 /\ tidy [] el0 /\ eheight el0 = 1%N.
Proof.
  assert (Hd : forall u p, value_ok u = true -> (p = "" \/ (ncname p = true /\ p <> "xml" /\ p <> "xmlns")) -> decl_ok (mkName u p)).
  { intros u p Hu [->|(H & H1 & H2)]; split; auto; right; split; auto; intros [|]; auto. }
  split; [|split; [|reflexivity]].
  - apply (w_elem [] _ _ [mkName "u" ""; mkName "v" "p"]).
    + intros d [<-|[<-|[]]]; apply Hd; auto. right; repeat split; auto; discriminate.
    + repeat constructor; cbn; intuition discriminate.
    + repeat split; try discriminate.
    + intros x [<-|[<-|[]]]; repeat split; try discriminate; auto.
    + discriminate.
    + intros e [<-|[<-|[]]].
      * apply (w_elem [mkName "u" ""; mkName "v" "p"] _ _ []); try (intros ? []; fail); [constructor|repeat split; discriminate|constructor].
      * apply (w_elem [mkName "u" ""; mkName "v" "p"] _ _ [mkName "w" "p"]); [| | | | |intros ? []].
        -- intros d [<-|[]]. apply Hd; auto. right; repeat split; auto; discriminate.
        -- repeat constructor; cbn; auto.
        -- repeat split; discriminate.
        -- intros ? [].
        -- intros _. do 2 (apply cd_byte; [reflexivity|reflexivity|]).
           apply (cd_entity "&amp;" " u"); [cbn; auto|]. do 2 (apply cd_byte; [reflexivity|reflexivity|]). constructor.
  - apply (tidy_elem [] _ _ [mkName "u" ""; mkName "v" "p"]); [repeat constructor|].
    intros e [<-|[<-|[]]].
    + apply (tidy_elem [mkName "u" ""; mkName "v" "p"] _ _ []); [constructor|intros ? []].
    + apply (tidy_elem [mkName "u" ""; mkName "v" "p"] _ _ [mkName "w" "p"]); [repeat constructor|intros ? []].
Qed.
(* with the declarations of the elements around it *)
Example el0_printable : printable [] el0 /\ printable [] (Elem (mkName "w" "y") [] [mkName "u" ""; mkName "v" "p"; mkName "w" "p"] "t" []) /\
  ~ NoDup (map nlocal [mkName "u" ""; mkName "v" "p"; mkName "w" "p"]).
Proof.
  split; [apply writable_printable, (proj1 el0_writable)|]. split.
  - apply (p_elem [] _ _ [mkName "u" ""; mkName "v" "p"; mkName "w" "p"]); [|repeat split; discriminate|intros ? []|intros _; apply cd_byte; [reflexivity|reflexivity|constructor]|intros ? []].
    intros d [<-|[<-|[<-|[]]]]; (split; [|reflexivity]); [left; reflexivity|right|right]; (split; [reflexivity|intros [|]; discriminate]).
  - cbn [map nlocal]. intros H. inversion H as [|? ? _ H']. inversion H' as [|? ? N _]. apply N. left. reflexivity.
Qed.
Example el0_marshal : marshal el0 =
  "<p:r k=""1"" p:k=""2"" xmlns=""u"" xmlns:p=""v""><x /><p:y xmlns:p=""w"">t &amp; u</p:y></p:r>".
Proof. vm_compute. reflexivity. Qed.

(* outside the documented shape *)
Theorem C13_quote_in_attribute_refuted :
  exists el, eheight el = 0%N /\ extends [] el /\ name_ok (e_scope el) (e_name el) /\
  parse isort_ns (marshal el) (decode (marshal el)) = PErr EStream.
Proof. exact quote_in_value. Qed.
Print Assumptions C13_quote_in_attribute_refuted.

Theorem C13_attribute_in_default_namespace_refuted :
  exists el el' off, extends [] el /\ name_ok (e_scope el) (e_name el) /\
  (forall a, In a (e_attrs el) -> resolve (e_scope el) (prefix (e_scope el) (aname a)) = aname a /\ nspace (aname a) <> "") /\
  parse isort_ns (marshal el) (decode (marshal el)) = POk el' off [] /\
  e_attrs el' <> e_attrs el /\ attr el' "u" "k" = "" /\ attr el "u" "k" = "v".
Proof. exact attr_default_ns. Qed.
Print Assumptions C13_attribute_in_default_namespace_refuted.

Theorem C13_undeclared_namespace_refuted :
  exists el, extends [] el /\ ncname (nlocal (e_name el)) = true /\ marshal el = "< />" /\
  parse isort_ns (marshal el) (decode (marshal el)) = PErr EStream.
Proof. exact undeclared_ns. Qed.
Print Assumptions C13_undeclared_namespace_refuted.

(* even a freshly parsed document does not survive: text next to child elements is dropped *)
Theorem C13_mixed_content_refuted :
  exists doc el el' o1 o2, parse isort_ns doc (decode doc) = POk el o1 [] /\
  e_content el = "t<b/>u" /\ parse isort_ns (marshal el) (decode (marshal el)) = POk el' o2 [] /\ e_content el' = "<b />".
Proof. exact mixed_text_lost. Qed.
Print Assumptions C13_mixed_content_refuted.

(* C14 *)
Theorem C14_diff_scope_extension :
  forall parent ds, diff_scope (Some parent) (parent ++ ds)%list = ds.
Proof. exact diff_loop_app. Qed.
Print Assumptions C14_diff_scope_extension.

Theorem C14_diff_scope_longest_common_prefix :
  forall parent child,
  exists common inherited, child = (common ++ diff_scope (Some parent) child)%list /\
    parent = (common ++ inherited)%list /\
    (forall d r1 r2, ~ (diff_scope (Some parent) child = d :: r1 /\ inherited = d :: r2)).
Proof. exact diff_scope_spec. Qed.
Print Assumptions C14_diff_scope_longest_common_prefix.

Example diff_scope_example :
  diff_scope (Some [mkName "u" "a"; mkName "v" "b"]) [mkName "u" "a"; mkName "w" "c"; mkName "v" "b"] =
  [mkName "w" "c"; mkName "v" "b"].
Proof. reflexivity. Qed.

(* C16: a writer is any state with any Write function; sticky = once failed, fails for ever *)
Theorem C16_encode_reports_write_errors :
  forall W (write : W -> string -> W * bool),
  (forall w s s', snd (write w s) = false -> snd (write (fst (write w s)) s') = false) ->
  forall el w w',
  encode_to write w el = (w', true) <-> feed write w (map ev_text (encode_events el)) = (w', true).
Proof. exact @encode_reports. Qed.
Print Assumptions C16_encode_reports_write_errors.

(* the pieces written are Marshal's bytes *)
Theorem C16_encode_writes_marshal :
  forall el, String.concat "" (map ev_text (encode_events el)) = marshal el.
Proof. exact (fun el => output_concat (encode_events el)). Qed.
Print Assumptions C16_encode_writes_marshal.

Example full_disk :
  (forall w s s', snd (limited w s) = false -> snd (limited (fst (limited w s)) s') = false) /\
  snd (encode_to limited (6, "") (Elem (mkName "" "a") [] [] "text" [])) = false /\
  encode_to limited (20, "") (Elem (mkName "" "a") [] [] "text" []) = ((9, "<a>text</a>"), true).
Proof. split; [exact limited_sticky|]. vm_compute. auto. Qed.

Theorem C16_transient_failure_refuted :
  exists el k acc,
  encode_to flaky (0, "") el = ((k, acc), true) /\ acc = "<a></a>" /\ marshal el = "<a>text</a>" /\
  snd (feed flaky (0, "") (map ev_text (encode_events el))) = false.
Proof. exact transient_failure. Qed.
Print Assumptions C16_transient_failure_refuted.

(* C17: both functions print the same tags; [print_indented] puts every tag on its own line
   after depth copies of indent, except around text *)
Theorem C17_marshal_indent_layout :
  forall el pfx ind, (eheight el <= 3000)%N ->
  exists t, marshal el = print t /\ marshal_indent el pfx ind = print_indented ind 0 t.
Proof. exact marshal_indent_spec. Qed.
Print Assumptions C17_marshal_indent_layout.

Theorem C17_only_adds_space :
  forall el pfx ind, (eheight el <= 3000)%N ->
  spaced [newline; ind] (marshal el) (marshal_indent el pfx ind).
Proof. exact marshal_indent_spaced. Qed.
Print Assumptions C17_only_adds_space.

Theorem C17_prefix_has_no_effect :
  forall el p1 p2 ind, marshal_indent el p1 ind = marshal_indent el p2 ind.
Proof. exact marshal_indent_prefix_unused. Qed.
Print Assumptions C17_prefix_has_no_effect.

(* documented: each line starts with prefix *)
Theorem C17_prefix_ignored_refuted :
  exists el pfx ind, pfx <> "" /\ (eheight el <= 3000)%N /\
  String.prefix pfx (marshal_indent el pfx ind) = false.
Proof. exact indent_prefix_ignored. Qed.
Print Assumptions C17_prefix_ignored_refuted.

Example indent_example : marshal_indent el0 "" "  " = 
  "<p:r k=""1"" p:k=""2"" xmlns=""u"" xmlns:p=""v"">" ++ newline ++
  "  <x />" ++ newline ++ "  <p:y xmlns:p=""w"">t &amp; u</p:y>" ++ newline ++ "</p:r>" ++ newline.
Proof. vm_compute. reflexivity. Qed.
