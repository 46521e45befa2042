From Verif Require Import Base ScopeModel TreeModel TreeSpec TreeProofs ParseModel MarshalModel GraphModel BuiltinModel XsdModel NormModel NormOps NormSpec NormStart NormDocs XsdparseModel XsdparseSpec.
Local Open Scope string_scope.

Lemma mapo_app {A B} (f : A -> option B) l m : mapo f (l ++ m)%list = match mapo f l, mapo f m with Some a, Some b => Some (a ++ b)%list | _, _ => None end.
Proof. induction l as [|a l IH]; cbn [mapo app]; [destruct (mapo f m); auto|]. destruct (f a); auto. rewrite IH. destruct (mapo f l), (mapo f m); auto. Qed.
Lemma printed_out trees : fold_right (fun t s => marshal_indent t "" "  " ++ String "010" s) "" trees = printed trees.
Proof.
  unfold printed. induction trees as [|t trees IH]; [reflexivity|]. cbn [fold_right map]. rewrite IH. destruct trees as [|u trees]; [reflexivity|]. cbn [map].
  change (marshal_indent t "" "  " ++ (String "010" "" ++ String.concat "" (map (fun t => marshal_indent t "" "  " ++ String "010" "") (u :: trees))) =
    (marshal_indent t "" "  " ++ String "010" "") ++ String.concat "" (map (fun t => marshal_indent t "" "  " ++ String "010" "") (u :: trees))).
  apply sapp_assoc.
Qed.
Lemma read_all fuel h ns filtered : forall rs es, Forall2 (root_is h) rs es -> forall trees, mapo (read_ptr fuel h) (filter (selects ns filtered h) rs) = Some trees ->
  Forall2 alike (filter (fun e => negb (String.eqb ns "") && String.eqb ns (namespace_of e) || negb (existsb (String.eqb (namespace_of e)) filtered)) es) trees.
Proof.
  induction 1 as [|r e rs es H F IH]; intros trees; cbn [filter]; [intros E; injection E as <-; constructor|].
  assert (E : selects ns filtered h r = negb (String.eqb ns "") && String.eqb ns (namespace_of e) || negb (existsb (String.eqb (namespace_of e)) filtered)).
  { destruct H as (x & L & _ & Ha & _). unfold selects, namespace_of, attr. rewrite L. unfold nattr. rewrite Ha. reflexivity. }
  rewrite E. destruct (_ || _); [|apply IH]. cbn [mapo]. destruct (read_ptr fuel h r) as [t|] eqn:Er; [|discriminate]. destruct (mapo _ _) as [ts|]; [|discriminate].
  intros E2. injection E2 as <-. constructor; [eapply root_read; eauto|auto].
Qed.
Lemma existsb_std std n : existsb (String.eqb n) (map (fun root => attr root "" "targetNamespace") std) = existsb (fun s => String.eqb (namespace_of s) n) std.
Proof. induction std as [|s std IH]; cbn [map existsb]; auto. rewrite IH. f_equal. apply String.eqb_sym. Qed.

Section Xsdparse.
  Variable sortns : list xname -> list xname.
  Variable dec : string -> stream.
  Variables grow agrow : nat -> nat -> nat.
  Variables cap_of acap_of : nat -> nat.
  Variable standard : list string.
  Variable fuel : nat.
  Notation xsdparse := (xsdparse sortns dec grow agrow cap_of acap_of standard fuel).
  Notation parses := (fun s e => parse_text sortns dec s = Some e).

  Lemma mapo_forall {A B} (f : A -> option B) l m : Forall2 (fun a b => f a = Some b) l m -> mapo f l = Some m.
  Proof. induction 1 as [|a b l m H F IH]; cbn [mapo]; auto. rewrite H, IH. reflexivity. Qed.
  Lemma mapo_some l : mapo (fun f : option string => f) (map Some l) = Some l.
  Proof. induction l as [|a l IH]; cbn [map mapo]; auto. rewrite IH. reflexivity. Qed.
  Lemma output ns texts docs std out : Forall2 parses texts docs -> Forall2 parses standard std -> workable fuel (docs ++ std) -> xsdparse ns (map Some texts) = Exits out ->
    exists trees, out = printed trees /\ Forall2 alike (filter (shown ns std) (flat_map schemas_of (docs ++ std))) trees.
  Proof.
    intros Hd Hs W. unfold xsdparse. destruct (map Some texts) eqn:Em; [discriminate|]. rewrite <- Em, mapo_some. rewrite (mapo_forall _ _ _ Hs). unfold normalize_texts.
    rewrite mapo_app, (mapo_forall _ _ _ Hd), (mapo_forall _ _ _ Hs). destruct (normalize_docs _ _ _ _ _ _) as [[h rs]| |] eqn:En; try discriminate.
    destruct (mapo _ (filter _ rs)) as [trees|] eqn:Et; [|discriminate]. intros E. injection E as <-. rewrite printed_out. exists trees. split; [auto|].
    pose proof (read_all _ _ _ _ _ _ (docs_kept _ _ _ _ _ _ _ _ W En) _ Et) as R. erewrite filter_ext; [exact R|]. intros e. unfold shown. rewrite existsb_std. apply orb_comm.
  Qed.
  (* -ns only adds *)
  Lemma ns_ignored ns files std : Forall2 parses standard std -> (forall s, In s std -> namespace_of s <> ns) -> xsdparse ns files = xsdparse "" files.
  Proof.
    intros Hs Hn. unfold xsdparse. destruct files as [|f files]; auto. destruct (mapo (fun f => f) _) as [texts|]; auto. rewrite (mapo_forall _ _ _ Hs). destruct (normalize_texts _ _ _ _ _ _ _ _ _) as [[h rs]| |]; auto.
    erewrite filter_ext; [reflexivity|]. intros r. unfold selects. destruct (load h r) as [x|]; auto. change (negb (String.eqb "" "")) with false. cbn [andb orb].
    destruct (negb (String.eqb ns "") && String.eqb ns (nattr h x "targetNamespace")) eqn:E; auto. cbn [orb]. symmetry. apply negb_true_iff. apply andb_prop in E. destruct E as [_ E]. apply String.eqb_eq in E. rewrite <- E.
    destruct (existsb _ _) eqn:Ex; auto. apply existsb_exists in Ex. destruct Ex as (n & Hi & En). apply String.eqb_eq in En. subst n. apply in_map_iff in Hi. destruct Hi as (s & Es & Hi). destruct (Hn s Hi). exact Es.
  Qed.
  (* never a panic, once the standard schemas parse *)
  Lemma no_panic ns files std : Forall2 parses standard std -> xsdparse ns files <> Panicked.
  Proof.
    intros Hs. unfold xsdparse. destruct files as [|f files]; [discriminate|]. destruct (mapo (fun f => f) _) as [texts|]; [|discriminate]. rewrite (mapo_forall _ _ _ Hs).
    destruct (normalize_texts _ _ _ _ _ _ _ _ _) as [[h rs]| |]; try discriminate. destruct (mapo _ (filter _ rs)); discriminate.
  Qed.
End Xsdparse.
