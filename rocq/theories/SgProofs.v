(* Filters, merging of attributes, dedup, field names, namespaces, declarations. *)
From Coq Require Import Permutation Sorted.
From Verif Require Import Base SortLib ScopeModel TreeModel EqualModel Utf8 Decimal BuiltinModel CodecModel XsdModel TypesModel GraphModel GenModel SgModel SgStruct.
Local Open Scope string_scope.

Lemma mem_str_in s l : mem_str s l = true <-> In s l.
Proof.
  unfold mem_str. rewrite existsb_exists. split.
  - intros [x [Hi He]]. apply String.eqb_eq in He as ->. exact Hi.
  - intros Hi. exists s. split; [exact Hi|apply String.eqb_refl].
Qed.
Lemma mem_str_out s l : mem_str s l = false <-> ~ In s l.
Proof. rewrite <- mem_str_in. destruct (mem_str s l); split; congruence. Qed.
Lemma mem_name_in s l : mem_name s l = true <-> In s l.
Proof.
  unfold mem_name. rewrite existsb_exists. split.
  - intros [x [Hi He]]. apply xname_eqb_eq in He as ->. exact Hi.
  - intros Hi. exists s. split; [exact Hi|apply xname_eqb_refl].
Qed.
Lemma mem_name_out s l : mem_name s l = false <-> ~ In s l.
Proof. rewrite <- mem_name_in. destruct (mem_name s l); split; congruence. Qed.

(* ---------- filters ---------- *)
Lemma fold_filter {A} (f : A -> bool) l : forall acc, fold_left (fun l a => if f a then l else (l ++ [a])%list) l acc = (acc ++ filter (fun a => negb (f a)) l)%list.
Proof.
  induction l as [|a l IH]; intros acc; cbn [fold_left filter]; [rewrite app_nil_r; reflexivity|].
  rewrite IH. destruct (f a); cbn [negb]; [reflexivity|]. rewrite <- app_assoc. reflexivity.
Qed.
Definition named_in (l : list string) (s : string) : bool := if in_dec string_dec s l then true else false.
Lemma named_mem l s : mem_str s l = named_in l s.
Proof.
  unfold named_in. destruct (in_dec string_dec s l) as [H|H]; [apply mem_str_in; exact H|].
  destruct (mem_str s l) eqn:E; [apply mem_str_in in E; contradiction|reflexivity].
Qed.
Lemma filter_fields_names an en c :
  filter_fields (Some (ignore_attributes an)) (Some (ignore_elements en)) c =
  (filter (fun a => negb (named_in an (nlocal (at_name a)))) (ct_attrs c), filter (fun e => negb (named_in en (nlocal (el_name e)))) (ct_elems c)).
Proof.
  unfold filter_fields, filtered. rewrite !fold_filter. cbn [app]. f_equal; apply filter_ext; intros x;
    unfold ignore_attributes, ignore_elements; rewrite named_mem; reflexivity.
Qed.
Lemma filter_all {A} (l : list A) : filter (fun _ => true) l = l.
Proof. induction l; cbn; congruence. Qed.
Lemma filter_fields_none c : filter_fields None None c = (ct_attrs c, ct_elems c).
Proof.
  unfold filter_fields. rewrite (fold_filter (filtered None) (ct_attrs c)), (fold_filter (filtered None) (ct_elems c)). cbn [app filtered negb].
  rewrite !filter_all. reflexivity.
Qed.

(* ---------- subsequences ---------- *)
Inductive subseq {A} : list A -> list A -> Prop :=
| sub_nil : subseq [] []
| sub_skip x l m : subseq l m -> subseq l (x :: m)
| sub_keep x l m : subseq l m -> subseq (x :: l) (x :: m).
Lemma subseq_nil {A} (l : list A) : subseq [] l.
Proof. induction l; constructor; assumption. Qed.
Lemma subseq_in {A} (l m : list A) : subseq l m -> forall x, In x l -> In x m.
Proof. induction 1; intros y Hy; [destruct Hy|right; auto|destruct Hy; [left; assumption|right; auto]]. Qed.

(* ---------- merging attributes ---------- *)
Definition has_name (n : xname) (l : list attribute) : Prop := In n (map at_name l).
Lemma existsb_name l b : existsb (fun s => xname_eqb (at_name s) (at_name b)) l = true <-> has_name (at_name b) l.
Proof.
  unfold has_name. rewrite existsb_exists, in_map_iff. split; intros [x [H1 H2]]; exists x.
  - apply xname_eqb_eq in H2. auto.
  - rewrite H1. split; [exact H2|apply xname_eqb_refl].
Qed.
Lemma merge_spec base : forall src, exists ext, merge_attributes src base = (src ++ ext)%list /\ subseq ext base /\ NoDup (map at_name ext) /\
  (forall a, In a ext -> ~ has_name (at_name a) src) /\
  (forall l1 a l2, base = (l1 ++ a :: l2)%list -> ~ has_name (at_name a) src -> ~ has_name (at_name a) l1 -> In a ext) /\
  (forall a, In a base -> has_name (at_name a) (src ++ ext)).
Proof.
  induction base as [|b base IH]; intros src.
  - exists []. rewrite app_nil_r. split; [reflexivity|]. split; [constructor|]. split; [constructor|]. split; [intros ? []|]. split; [|intros ? []].
    intros l1 a l2 H. destruct l1; discriminate.
  - unfold merge_attributes. cbn [fold_left]. fold (merge_attributes (if existsb (fun s => xname_eqb (at_name s) (at_name b)) src then src else (src ++ [b])%list) base).
    destruct (existsb (fun s => xname_eqb (at_name s) (at_name b)) src) eqn:E.
    + destruct (IH src) as [ext [H1 [H2 [H3 [H4 [H5 H6]]]]]]. exists ext. split; [exact H1|]. split; [constructor; exact H2|]. split; [exact H3|]. split; [exact H4|].
      apply existsb_name in E. split.
      * intros [|c l1] a l2 Hl Hs Hn; cbn in Hl; injection Hl as <- Hl; [contradiction|].
        apply (H5 l1 a l2 Hl Hs). intros Hx. apply Hn. right. exact Hx.
      * intros a [<-|Ha]; [unfold has_name in *; rewrite map_app; apply in_or_app; left; exact E|exact (H6 a Ha)].
    + assert (N : ~ has_name (at_name b) src) by (intros Hx; apply existsb_name in Hx; congruence).
      destruct (IH (src ++ [b])%list) as [ext [H1 [H2 [H3 [H4 [H5 H6]]]]]]. exists (b :: ext). rewrite H1, <- app_assoc. split; [reflexivity|]. split; [constructor; exact H2|].
      assert (N' : forall a, In a ext -> at_name a <> at_name b).
      { intros a Ha He. apply (H4 a Ha). unfold has_name. rewrite map_app. apply in_or_app. right. left. congruence. }
      split. { cbn [map]. constructor; [|exact H3]. intros Hx. apply in_map_iff in Hx as [a [He Ha]]. exact (N' a Ha He). }
      split. { intros a [<-|Ha]; [exact N|]. intros Hx. apply (H4 a Ha). unfold has_name in *. rewrite map_app. apply in_or_app. left. exact Hx. }
      split.
      * intros [|c l1] a l2 Hl Hs Hn; cbn in Hl; injection Hl as <- Hl; [left; reflexivity|]. right. apply (H5 l1 a l2 Hl).
        -- unfold has_name in *. rewrite map_app. intros Hx. apply in_app_or in Hx as [Hx|[Hx|[]]]; [exact (Hs Hx)|]. apply Hn. left. exact Hx.
        -- intros Hx. apply Hn. right. exact Hx.
      * intros a [<-|Ha]; [unfold has_name; rewrite map_app; apply in_or_app; right; left; reflexivity|]. specialize (H6 a Ha).
        rewrite <- app_assoc in H6. exact H6.
Qed.
Lemma merge_distinct src base : NoDup (map at_name base) ->
  merge_attributes src base = (src ++ filter (fun b => negb (mem_name (at_name b) (map at_name src))) base)%list.
Proof.
  revert src. induction base as [|b base IH]; intros src Hn; cbn [map filter] in *; [rewrite app_nil_r; reflexivity|]. apply NoDup_cons_iff in Hn as [Hb Hn].
  unfold merge_attributes. cbn [fold_left]. fold (merge_attributes (if existsb (fun s => xname_eqb (at_name s) (at_name b)) src then src else (src ++ [b])%list) base).
  assert (E : existsb (fun s => xname_eqb (at_name s) (at_name b)) src = mem_name (at_name b) (map at_name src)).
  { destruct (mem_name (at_name b) (map at_name src)) eqn:M; [apply existsb_name, mem_name_in, M|].
    destruct (existsb _ src) eqn:X; [|reflexivity]. apply existsb_name in X. apply mem_name_out in M. contradiction. }
  rewrite E. destruct (mem_name (at_name b) (map at_name src)); cbn [negb]; [apply IH; exact Hn|].
  rewrite IH by exact Hn. rewrite <- app_assoc. cbn [app]. do 2 f_equal. apply filter_ext_in. intros a Ha. f_equal. rewrite map_app. cbn [map].
  destruct (mem_name (at_name a) (map at_name src)) eqn:M.
  - apply mem_name_in. apply in_or_app. left. apply mem_name_in. exact M.
  - apply mem_name_out. intros Hx. apply in_app_or in Hx as [Hx|[Hx|[]]]; [apply mem_name_out in M; contradiction|]. apply Hb. rewrite Hx. apply in_map. exact Ha.
Qed.

(* ---------- dedup ---------- *)
Lemma dedup_spec st l : forall seen r, dedup st seen l = Ret r ->
  subseq r l /\
  (forall v, In v l -> exists n, type_name st v = Some n /\ (In n seen \/ exists w, In w r /\ type_name st w = Some n)) /\
  (forall v n, In v r -> type_name st v = Some n -> ~ In n seen) /\
  (forall r1 v r2 n, r = (r1 ++ v :: r2)%list -> type_name st v = Some n -> forall w, In w r1 -> type_name st w <> Some n) /\
  (forall v n, In v r -> type_name st v = Some n -> exists l1 l2, l = (l1 ++ v :: l2)%list /\ forall w, In w l1 -> type_name st w <> Some n).
Proof.
  induction l as [|v l IH]; intros seen r; cbn [dedup].
  - intros [= <-]. split; [constructor|]. split; [intros ? []|]. split; [intros ? ? []|]. split; [|intros ? ? []].
    intros r1 v r2 n H. destruct r1; discriminate.
  - destruct (type_name st v) as [n|] eqn:E; [|discriminate]. destruct (mem_name n seen) eqn:M.
    + intros H. apply mem_name_in in M. destruct (IH _ _ H) as [H1 [H2 [H3 [H4 H5]]]]. split; [constructor; exact H1|]. split.
      { intros w [<-|Hw]; [exists n; auto|exact (H2 w Hw)]. } split; [exact H3|]. split; [exact H4|].
      intros w m Hw Hm. destruct (H5 w m Hw Hm) as [l1 [l2 [-> Hl]]]. exists (v :: l1), l2. split; [reflexivity|].
      intros x [<-|Hx]; [|exact (Hl x Hx)]. intros He. rewrite E in He. injection He as ->. exact (H3 w m Hw Hm M).
    + apply mem_name_out in M. destruct (dedup st (n :: seen) l) as [r'| | |] eqn:D; cbn [andthen]; try discriminate. intros [= <-].
      destruct (IH _ _ D) as [H1 [H2 [H3 [H4 H5]]]]. split; [constructor; exact H1|]. split; [|split; [|split]].
      * intros w [<-|Hw]; [exists n; split; [exact E|right; exists v; split; [left; reflexivity|exact E]]|].
        destruct (H2 w Hw) as [m [Hm [[He|Hs]|[x [Hx Hxn]]]]]; exists m; (split; [exact Hm|]); [subst m|..].
        -- right. exists v. split; [left; reflexivity|exact E].
        -- left. exact Hs.
        -- right. exists x. split; [right; exact Hx|exact Hxn].
      * intros w m [<-|Hw] Hm; [rewrite E in Hm; injection Hm as <-; exact M|]. intros Hs. exact (H3 w m Hw Hm (or_intror Hs)).
      * intros [|x r1] w r2 m Hr Hm y Hy; [destruct Hy|]. cbn in Hr. injection Hr as <- ->. destruct Hy as [<-|Hy].
        -- intros He. rewrite E in He. injection He as ->. apply (H3 w m); [apply in_or_app; right; left; reflexivity|exact Hm|left; reflexivity].
        -- exact (H4 r1 w r2 m eq_refl Hm y Hy).
      * intros w m [<-|Hw] Hm; [exists [], l; split; [reflexivity|intros ? []]|].
        destruct (H5 w m Hw Hm) as [l1 [l2 [-> Hl]]]. exists (v :: l1), l2. split; [reflexivity|].
        intros x [<-|Hx]; [|exact (Hl x Hx)]. intros He. rewrite E in He. injection He as ->. exact (H3 w m Hw Hm (or_introl eq_refl)).
Qed.
Lemma dedup_panic st l : forall seen, (exists r, dedup st seen l = Ret r) \/ dedup st seen l = Panic /\ exists v, In v l /\ type_name st v = None.
Proof.
  induction l as [|v l IH]; intros seen; cbn [dedup]; [left; eexists; reflexivity|].
  destruct (type_name st v) as [n|] eqn:E; [|right; split; [reflexivity|exists v; split; [left; reflexivity|exact E]]].
  destruct (mem_name n seen).
  - destruct (IH seen) as [H|[H [w [Hw Hn]]]]; [left; exact H|right; split; [exact H|exists w; split; [right; exact Hw|exact Hn]]].
  - destruct (IH (n :: seen)) as [[r H]|[H [w [Hw Hn]]]]; rewrite H; cbn [andthen]; [left; eexists; reflexivity|].
    right. split; [reflexivity|]. exists w. split; [right; exact Hw|exact Hn].
Qed.
Lemma dedup_ok st l seen : (forall v, In v l -> type_name st v <> None) -> exists r, dedup st seen l = Ret r.
Proof. intros H. destruct (dedup_panic st l seen) as [X|[_ [v [Hv Hn]]]]; [exact X|]. destruct (H v Hv Hn). Qed.

(* ---------- field names ---------- *)
Lemma dec_nat i : dec (Z.of_nat i) = dec_N (N.of_nat i).
Proof. unfold dec. destruct i; cbn [Z.of_nat]; [reflexivity|]. reflexivity. Qed.
Lemma dec_inj a b : dec (Z.of_nat a) = dec (Z.of_nat b) -> a = b.
Proof.
  intros H. rewrite !dec_nat in H. apply dec_inj_N in H. lia.
Qed.
Lemma numbered_inj name i j : numbered name i = numbered name j -> i = j.
Proof. unfold numbered. intros H. apply sapp_inj_l in H. exact (dec_inj _ _ H). Qed.
Lemma numbered_longer name i : numbered name i <> name.
Proof.
  unfold numbered. intros H. apply (f_equal String.length) in H. rewrite slen_app in H.
  rewrite dec_nat in H. assert (dec_N (N.of_nat i) <> "") as X by (apply dec_loop_nonempty; lia).
  destruct (dec_N (N.of_nat i)); [congruence|]. cbn [String.length] in H. lia.
Qed.
Lemma free_out taken name u : free taken name = Some u -> ~ In u taken.
Proof.
  unfold free. destruct (find _ _) as [i|] eqn:E; [|discriminate]. intros [= <-]. apply find_some in E as [_ E].
  apply Bool.negb_true_iff, mem_str_out in E. exact E.
Qed.
Lemma NoDup_map_inj {A B} (f : A -> B) l : (forall a b, f a = f b -> a = b) -> NoDup l -> NoDup (map f l).
Proof.
  intros Hf. induction 1 as [|a l Hn _ IH]; cbn [map]; constructor; [|exact IH].
  intros H. apply in_map_iff in H as [b [Hb Hi]]. apply Hf in Hb as ->. exact (Hn Hi).
Qed.
Lemma free_none taken name : free taken name = None -> forall i, i < max_dup -> In (numbered name i) taken.
Proof.
  unfold free. destruct (find _ _) eqn:E; [discriminate|]. intros _ i Hi. assert (X : In i (seq 0 max_dup)) by (apply in_seq; lia). apply (find_none _ _ E i) in X.
  apply Bool.negb_false_iff, mem_str_in in X. exact X.
Qed.
(* the loop fails only if more than a thousand names are taken *)
Lemma free_some taken name : List.length taken <= max_dup -> In name taken -> exists u, free taken name = Some u.
Proof.
  intros Hl Hi. destruct (free taken name) as [u|] eqn:E; [eexists; reflexivity|]. exfalso.
  assert (X : incl (name :: map (numbered name) (seq 0 max_dup)) taken).
  { intros x [<-|Hx]; [exact Hi|]. apply in_map_iff in Hx as [i [<- Hs]]. apply in_seq in Hs. apply (free_none _ _ E). lia. }
  assert (N : NoDup (name :: map (numbered name) (seq 0 max_dup))).
  { constructor; [|apply NoDup_map_inj; [apply numbered_inj|apply seq_NoDup]].
    intros Hx. apply in_map_iff in Hx as [i [Hn _]]. exact (numbered_longer _ _ Hn). }
  pose proof (NoDup_incl_length N X) as L. cbn [List.length] in L. rewrite map_length, seq_length in L. lia.
Qed.
Lemma unique_fresh taken name taken' u : List.length taken <= max_dup -> unique taken name = (taken', u) -> taken' = u :: taken /\ ~ In u taken.
Proof.
  intros Hl. unfold unique. destruct (mem_str name taken) eqn:M.
  - apply mem_str_in in M. destruct (free_some taken name Hl M) as [w Hw]. rewrite Hw. intros [= <- <-]. split; [reflexivity|exact (free_out _ _ _ Hw)].
  - intros [= <- <-]. split; [reflexivity|apply mem_str_out; exact M].
Qed.
(* a request: for an attribute or for an element *)
Definition request := (bool * xname)%type.
Definition allot (public : xname -> string) (taken : list string) (r : request) : list string * string :=
  if fst r then attribute_name public taken (snd r) else element_name public taken (snd r).
Fixpoint allot_all (public : xname -> string) (taken : list string) (rs : list request) : list string :=
  match rs with [] => [] | r :: rs' => let (taken', n) := allot public taken r in n :: allot_all public taken' rs' end.
Lemma allot_fresh public taken r taken' u : List.length taken <= max_dup -> allot public taken r = (taken', u) -> taken' = u :: taken /\ ~ In u taken.
Proof.
  intros Hl. unfold allot, attribute_name, element_name. destruct (fst r); cbv zeta; destruct (mem_str (public (snd r)) taken) eqn:M;
    try (intros [= <- <-]; split; [reflexivity|apply mem_str_out; exact M]); intros H; exact (unique_fresh _ _ _ _ Hl H).
Qed.
Lemma allot_distinct public rs : forall taken, List.length taken + List.length rs <= S max_dup ->
  NoDup (allot_all public taken rs) /\ forall n, In n (allot_all public taken rs) -> ~ In n taken.
Proof.
  induction rs as [|r rs IH]; intros taken Hl; cbn [allot_all List.length] in *; [split; [constructor|intros ? []]|].
  destruct (allot public taken r) as [taken' u] eqn:E. apply allot_fresh in E as [-> Hu]; [|lia].
  destruct (IH (u :: taken)) as [N O]; [cbn [List.length]; lia|]. split.
  - constructor; [|exact N]. intros Hi. apply (O u Hi). left. reflexivity.
  - intros n [<-|Hi]; [exact Hu|]. intros Ht. apply (O n Hi). right. exact Ht.
Qed.
(* a name is kept unless it is taken *)
Lemma allot_plain public taken r : ~ In (public (snd r)) taken -> snd (allot public taken r) = public (snd r).
Proof.
  intros H. apply mem_str_out in H. unfold allot, attribute_name, element_name. destruct (fst r); cbv zeta; rewrite H; reflexivity.
Qed.
