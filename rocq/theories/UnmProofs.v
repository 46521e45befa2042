(* Unmarshal reads what is in the document. *)
From Verif Require Import BindModel BindSpec.
From Verif Require Import Base ScopeModel TreeModel ParseModel ParseSpec ParseProofs DecodeModel MarshalModel MarshalSpec DecodeProofs MarshalProofs MarshalProofs2 DocModel UnmModel UnmSpec.
Local Open Scope string_scope.

Lemma last_cons {A} (x : A) : forall l d, last (x :: l) d = last l x.
Proof. intros l. revert x. induction l as [|y l IH]; intros x d; [reflexivity|]. change (last (x :: y :: l) d) with (last (y :: l) d). rewrite (IH y d), (IH y x). reflexivity. Qed.

Section Doc.
  Variable data : string.
  Fixpoint dnode (d : doc) : node :=
    match d with
    | Doc n a o items _ =>
        NElem n a ((fix go (prev : nat) (l : list item) : list node :=
          match l with
          | [] => []
          | IOther o1 :: l' => NText (text_of (substring prev (o1 - prev) data)) :: go o1 l'
          | IElem d' :: l' => dnode d' :: go (item_off (IElem d')) l'
          end) o items)
    end.
  Fixpoint dkids (prev : nat) (l : list item) : list node :=
    match l with
    | [] => []
    | IOther o1 :: l' => NText (text_of (substring prev (o1 - prev) data)) :: dkids o1 l'
    | IElem d' :: l' => dnode d' :: dkids (item_off (IElem d')) l'
    end.
  Lemma dnode_eq n a o items o' : dnode (Doc n a o items o') = NElem n a (dkids o items).
  Proof. reflexivity. Qed.
  Lemma doc_ind' (P : doc -> Prop) : (forall n a o items o', (forall d, In (IElem d) items -> P d) -> P (Doc n a o items o')) -> forall d, P d.
  Proof.
    intros H. fix IH 1. intros [n a o items o']. apply H. induction items as [|i l IHl]; intros d Hin; [destruct Hin|].
    destruct Hin as [E|Hin]; [destruct i as [d1|o1]; [injection E as <-; apply IH|discriminate E]|exact (IHl d Hin)].
  Qed.
  Lemma grow_items items : (forall d, In (IElem d) items -> forall prev n a k up rest, grow data prev ((n, a, k) :: up) (doc_toks d ++ rest)%list = grow data (item_off (IElem d)) ((n, a, k ++ [dnode d])%list :: up) rest) ->
    forall prev n a k up rest, grow data prev ((n, a, k) :: up) (flat_map item_toks items ++ rest)%list = grow data (last (map item_off items) prev) ((n, a, k ++ dkids prev items)%list :: up) rest.
  Proof.
    induction items as [|[d|o1] l IH]; intros H prev n a k up rest.
    - cbn [flat_map map last dkids app]. rewrite app_nil_r. reflexivity.
    - cbn [flat_map item_toks]. rewrite <- app_assoc, (H d (or_introl eq_refl)), IH by (intros; apply H; right; assumption). cbn [dkids]. rewrite <- app_assoc. cbn [app map]. rewrite last_cons. reflexivity.
    - cbn [flat_map item_toks app grow]. rewrite IH by (intros; apply H; right; assumption). cbn [dkids]. rewrite <- app_assoc. cbn [app map]. rewrite last_cons. reflexivity.
  Qed.
  Lemma grow_doc d : forall prev n a k up rest, grow data prev ((n, a, k) :: up) (doc_toks d ++ rest)%list = grow data (item_off (IElem d)) ((n, a, k ++ [dnode d])%list :: up) rest.
  Proof.
    induction d as [n0 a0 o items o' IH] using doc_ind'. intros prev n a k up rest. cbn [doc_toks app grow]. rewrite <- app_assoc, (grow_items items IH). cbn [app grow item_off]. rewrite dnode_eq. reflexivity.
  Qed.
  Lemma grow_root d prev rest : grow data prev [] (doc_toks d ++ rest)%list = Some (dnode d).
  Proof. destruct d as [n a o items o']. cbn [doc_toks app grow]. rewrite <- app_assoc, (grow_items items) by (intros; apply grow_doc). cbn [app grow]. rewrite dnode_eq. reflexivity. Qed.
End Doc.

(* ---------- the tokens of a document ---------- *)
(* before the root there is nothing but text *)
Lemma root_first total : forall raws ns pre n a o rest, tokens total [] ns raws = (pre ++ (TStart n a, o) :: rest)%list -> no_start pre -> Forall (fun t => fst t = TOther) pre.
Proof.
  induction raws as [|[r k] raws IH]; intros ns pre n a o rest H N; [destruct pre; discriminate|]. destruct r as [q l sc|q|]; cbn [tokens] in H.
  - destruct pre as [|t pre]; [constructor|]. exfalso. destruct sc; injection H as <- _; eapply N; left; reflexivity.
  - destruct pre; discriminate.
  - destruct pre as [|t pre]; [discriminate|]. injection H as <- H. constructor; [reflexivity|]. apply (IH ns pre n a o rest H). intros ? ? ? I. eapply N. right. exact I.
Qed.
Lemma grow_pre data : forall pre prev rest, Forall (fun t => fst t = TOther) pre -> exists prev', grow data prev [] (pre ++ rest)%list = grow data prev' [] rest.
Proof.
  induction pre as [|[t o] pre IH]; intros prev rest F; [exists prev; reflexivity|]. inversion F as [|? ? E F']; subst. cbn [fst] in E. subst t. cbn [app grow]. apply IH. exact F'.
Qed.
(* no two texts in a row *)
Fixpoint lone (ts : stream) : Prop :=
  match ts with
  | (TOther, _) :: (((TOther, _) :: _) as r) => False
  | _ :: r => lone r
  | [] => True
  end.
Definition no_text_first (ts : stream) : Prop := match ts with (TOther, _) :: _ => False | _ => True end.
Lemma lone_cons t o r : lone ((t, o) :: r) <-> lone r /\ (t = TOther -> no_text_first r).
Proof. destruct t as [n a|n|]; destruct r as [|[[n' a'|n'|] o'] r']; cbn [lone no_text_first]; intuition; try discriminate. Qed.
Lemma take_text_end : forall fuel s r, take_text fuel s = Some r -> r = "" \/ exists r', r = String "<" r'.
Proof.
  induction fuel as [|f IH]; intros s r H; [discriminate|]. cbn [take_text] in H. destruct s as [|c s']; [injection H as <-; left; reflexivity|]. destruct (Ascii.eqb c "<") eqn:E.
  - injection H as <-. apply Ascii.eqb_eq in E as ->. right. exists s'. reflexivity.
  - destruct (Ascii.eqb c "&"); [destruct (take_entity s') as [[d s'']|]; [exact (IH _ _ H)|discriminate]|]. destruct (negb (char_byte c)); [discriminate|]. destruct (String.prefix "]]>" (String c s')); [discriminate|]. exact (IH _ _ H).
Qed.
Lemma text_then s r : raw_token s = Some (RText, r) -> forall t r', raw_token r = Some (t, r') -> t <> RText.
Proof.
  intros H t r' H'. unfold raw_token in H. destruct s as [|c s1]; [discriminate|]. destruct (Ascii.eqb c "<").
  - exfalso. destruct s1 as [|d s2]; [discriminate|]. destruct (Ascii.eqb d "/").
    + destruct (take_name s2) as [[n s3]|]; [|discriminate]. destruct (skip_space s3) as [|e r0]; [discriminate|]. destruct (Ascii.eqb e ">"); discriminate.
    + destruct (take_name (String d s2)) as [[n s3]|]; [|discriminate]. destruct (take_attrs (S (String.length s3)) s3) as [[[l sc] r0]|]; discriminate.
  - destruct (take_text (S (String.length (String c s1))) (String c s1)) as [x|] eqn:E; [|discriminate]. injection H as ->. apply take_text_end in E as [->|(r2 & ->)]; [discriminate|].
    unfold raw_token in H'. rewrite Ascii.eqb_refl in H'. destruct r2 as [|d s2]; [discriminate|]. destruct (Ascii.eqb d "/").
    + destruct (take_name s2) as [[n s3]|]; [|discriminate]. destruct (skip_space s3) as [|e r0]; [discriminate|]. destruct (Ascii.eqb e ">"); [|discriminate]. injection H' as <- _. discriminate.
    + destruct (take_name (String d s2)) as [[n s3]|]; [|discriminate]. destruct (take_attrs (S (String.length s3)) s3) as [[[l sc] r0]|]; [|discriminate]. injection H' as <- _. discriminate.
Qed.
Lemma tokens_first total stack ns raws : match raws with (RText, _) :: _ => False | _ => True end -> no_text_first (tokens total stack ns raws).
Proof.
  destruct raws as [|[[q l sc|q|] k] raws]; intros H; [exact I| | |destruct H]; cbn [tokens].
  - destruct sc; exact I.
  - destruct stack as [|[n outer] stack']; [exact I|]. destruct (xname_eqb _ n); exact I.
Qed.
Lemma tokens_lone total : forall fuel s stack ns, lone (tokens total stack ns (raw_tokens fuel s)).
Proof.
  induction fuel as [|f IH]; intros s stack ns; [exact I|]. cbn [raw_tokens]. destruct (raw_token s) as [[t r]|] eqn:E; [|exact I]. destruct t as [q l sc|q|]; cbn [tokens].
  - destruct sc; cbn [lone]; apply IH.
  - destruct stack as [|[n outer] stack']; [exact I|]. destruct (xname_eqb _ n); [|exact I]. cbn [lone]. apply IH.
  - apply lone_cons. split; [apply IH|]. intros _. apply tokens_first. destruct f as [|f']; [exact I|]. cbn [raw_tokens]. destruct (raw_token r) as [[t r']|] eqn:E'; [|exact I]. destruct t; try exact I. exact (text_then s r E RText r' E' eq_refl).
Qed.
Lemma lone_app_r : forall a b, lone (a ++ b)%list -> lone b.
Proof. induction a as [|[t o] a IH]; intros b H; [exact H|]. cbn [app] in H. apply lone_cons in H as [H _]. apply IH. exact H. Qed.
Fixpoint single (d : doc) : Prop :=
  match d with
  | Doc _ _ _ items _ => (forall o1 o2 l1 l2, items <> (l1 ++ IOther o1 :: IOther o2 :: l2)%list) /\ (fix all (l : list item) : Prop := match l with [] => True | IElem d' :: l' => single d' /\ all l' | IOther _ :: l' => all l' end) items
  end.
Lemma single_eq n a o items o' : single (Doc n a o items o') <-> (forall o1 o2 l1 l2, items <> (l1 ++ IOther o1 :: IOther o2 :: l2)%list) /\ forall d, In (IElem d) items -> single d.
Proof.
  cbn [single]. apply and_iff_compat_l. induction items as [|[d|o1] l IH].
  - split; [intros _ d []|exact (fun _ => I)].
  - rewrite IH. split; [intros [H1 H2] d' [[= <-]|I]; auto|intros H; split; [apply H; left; reflexivity|intros d' I; apply H; right; exact I]].
  - rewrite IH. split; [intros H d' [E|I]; [discriminate|auto]|intros H d' I; apply H; right; exact I].
Qed.
Lemma lone_single : forall d rest, lone (doc_toks d ++ rest)%list -> single d.
Proof.
  induction d as [n a o items o' IH] using doc_ind'. intros rest H. apply single_eq. cbn [doc_toks app] in H. apply lone_cons in H as [H _]. rewrite <- app_assoc in H. split.
  - intros o1 o2 l1 l2 ->. rewrite flat_map_app, <- app_assoc in H. apply lone_app_r in H. exact H.
  - intros d Hd. apply in_split in Hd as (l1 & l2 & ->). rewrite flat_map_app, <- app_assoc in H. apply lone_app_r in H. cbn [flat_map item_toks] in H. rewrite <- app_assoc in H. refine (IH d _ _ H). apply in_or_app. right. left. reflexivity.
Qed.

(* ---------- trees and nodes ---------- *)
Lemma is_decl_ok x : is_decl x = true <-> declaration x.
Proof. unfold is_decl, declaration. rewrite orb_true_iff, !String.eqb_eq. reflexivity. Qed.
Lemma attrs_without a : without_declarations a (attrs_of a).
Proof.
  unfold attrs_of. induction a as [|x a IH]; [constructor|]. cbn [filter]. destruct (is_decl x) eqn:E; cbn [negb].
  - constructor; [apply is_decl_ok; exact E|exact IH].
  - constructor; [rewrite <- is_decl_ok, E; discriminate|exact IH].
Qed.
Lemma decl_of_ok x : declaration x -> declaration_of x (decl_of x).
Proof.
  unfold declaration, declaration_of, decl_of. intros D. destruct (String.eqb_spec (nspace (aname x)) "xmlns") as [E|E]; cbn [nspace nlocal]; split; try reflexivity; [left; auto|right]. destruct D as [D|D]; [contradiction|auto].
Qed.
Lemma dkids_elements data : forall items prev, elements (dkids data prev items) = flat_map (fun i => match i with IElem d => [dnode data d] | IOther _ => [] end) items.
Proof.
  unfold elements. induction items as [|[d|o1] l IH]; intros prev; cbn [dkids filter flat_map app]; [reflexivity| |apply IH]. rewrite IH. destruct d as [n a o its o']. rewrite dnode_eq. reflexivity.
Qed.
Lemma tree_shows data : forall d s e, tree_of data decls_of attrs_of s d e -> single d -> shows e (dnode data d).
Proof.
  induction d as [n a o items o' IH] using doc_ind'. intros s e T S. apply tree_of_inv in T as (ds & c & ch & Sd & Ec & T & ->). apply single_eq in S as [S1 S2]. rewrite dnode_eq. constructor.
  - apply attrs_without.
  - intros x Hx Dx. exists (decl_of x). split; [|apply decl_of_ok; exact Dx]. apply in_or_app. right. destruct Sd as [Sd _]. apply (Permutation_in _ Sd). unfold decls_of. apply in_map, filter_In. split; [exact Hx|apply is_decl_ok; exact Dx].
  - rewrite dkids_elements. clear S1 Ec. revert T. generalize (s ++ ds)%list as s'. intros s'. revert ch IH S2. induction items as [|[d|o1] l IHl]; intros ch IH S2 T; inversion T; subst; cbn [flat_map app].
    + constructor.
    + constructor; [eapply IH; [left; reflexivity|eassumption|apply S2; left; reflexivity]|]. apply IHl; [intros; eapply IH; [right; eassumption|..]; eassumption|intros; apply S2; right; assumption|assumption].
    + apply IHl; [intros; eapply IH; [right; eassumption|..]; eassumption|intros; apply S2; right; assumption|assumption].
  - intros ->. assert (All : forall i, In i items -> exists o1, i = IOther o1).
    { clear - T. revert T. generalize (s ++ ds)%list as s'. intros s'. induction items as [|[d|o1] l IHl]; intros T i Hi; [destruct Hi|inversion T|]. destruct Hi as [<-|Hi]; [eexists; reflexivity|]. apply IHl; [inversion T; assumption|exact Hi]. }
    unfold slice, end_pos in Ec. destruct items as [|i1 items].
    + cbn [map last] in Ec. destruct (_ && _)%bool; [|discriminate]. injection Ec as <-. rewrite Nat.sub_diag, substring_0. reflexivity.
    + destruct (All i1 (or_introl eq_refl)) as (o1 & ->). destruct items as [|i2 items].
      * cbn [map last item_off] in Ec. destruct (_ && _)%bool; [|discriminate]. injection Ec as <-. cbn [dkids texts fold_right]. apply sapp_nil_r.
      * exfalso. destruct (All i2 (or_intror (or_introl eq_refl))) as (o2 & ->). exact (S1 o1 o2 [] items eq_refl).
Qed.
Fixpoint elem_ind' (P : elem -> Prop) (H : forall n a s c ch, Forall P ch -> P (Elem n a s c ch)) (e : elem) : P e :=
  match e with Elem n a s c ch => H n a s c ch ((fix go (l : list elem) : Forall P l := match l with [] => Forall_nil P | x :: l' => Forall_cons x (elem_ind' P H x) (go l') end) ch) end.
Lemma shows_alike : forall e r y, shows e r -> shows e y -> alike r y.
Proof.
  induction e as [n a s c ch IH] using elem_ind'. intros r y R Y. inversion R as [? ? ? ? ? a1 k1 A1 D1 F1 T1]; subst. inversion Y as [? ? ? ? ? a2 k2 A2 D2 F2 T2]; subst. apply (al_elem n a1 a2 a); [exact A1|exact A2| |].
  - clear T1 T2 D1 D2 R Y. revert F1 F2. generalize (elements k1), (elements k2). induction IH as [|x ch Hx _ IHl]; intros l1 l2 F1 F2; inversion F1; inversion F2; subst; constructor; auto.
  - intros E. rewrite E in F1. inversion F1; subst. rewrite T1, T2; reflexivity.
Qed.
Lemma reread_shows : forall e ps ps' e' r, (forall m, In m ps' -> In m ps) -> reread ps ps' e e' -> shows e' r -> shows e r.
Proof.
  induction e as [n a s c ch IH] using elem_ind'. intros ps ps' e' r Hp R Y. inversion R as [? ? ? ? ds ds' ? c' ? ch' P Srt C RR]; subst. inversion Y as [? ? ? ? ? a1 k1 A1 D1 F1 T1]; subst.
  assert (Hp' : forall m, In m (ps' ++ ds')%list -> In m (ps ++ ds)%list). { intros m I. apply in_app_or in I as [I|I]; apply in_or_app; [left; auto|right; exact (Permutation_in _ (Permutation_sym P) I)]. }
  constructor; [exact A1| | |].
  - intros x Hx Dx. destruct (D1 x Hx Dx) as (m & I & E). eauto.
  - clear - IH RR F1 Hp'. revert RR F1 Hp'. generalize (ps ++ ds)%list as q, (ps' ++ ds')%list as q', (elements k1) as l. intros q q' l. revert ch' l. induction IH as [|x ch Hx _ IHl]; intros ch' l RR F1 Hp; inversion RR; subst; inversion F1; subst; constructor; [eapply Hx; eassumption|eapply IHl; eassumption].
  - intros ->. inversion RR; subst. rewrite T1 by reflexivity. rewrite C; reflexivity.
Qed.
Lemma tree_at data : forall p d s e sel, tree_of data decls_of attrs_of s d e -> single d -> sub e p = Some sel -> exists d' s', node_at (dnode data d) p = Some (dnode data d') /\ tree_of data decls_of attrs_of s' d' sel /\ single d'.
Proof.
  induction p as [|i p IH]; intros d s e sel T S H.
  - injection H as <-. exists d, s. auto.
  - cbn [sub] in H. destruct (nth_error (e_children e) i) as [k|] eqn:E; [|discriminate]. destruct d as [n a o items o']. apply tree_of_inv in T as (ds & c & ch & _ & _ & T & ->). apply single_eq in S as [_ S]. cbn [e_children] in E. rewrite dnode_eq. cbn [node_at]. rewrite dkids_elements.
    assert (X : exists d', nth_error (flat_map (fun i => match i with IElem d => [dnode data d] | IOther _ => [] end) items) i = Some (dnode data d') /\ In (IElem d') items /\ tree_of data decls_of attrs_of (s ++ ds)%list d' k).
    { clear - T E. revert T E. generalize (s ++ ds)%list as q. intros q. revert i ch. induction items as [|[d|o1] l IHl]; intros i ch T E; inversion T; subst; cbn [flat_map app].
      - destruct i; discriminate.
      - destruct i as [|i]; cbn [nth_error] in *.
        + injection E as <-. exists d. repeat split; [left; reflexivity|assumption].
        + edestruct IHl as (d' & X1 & X2 & X3); [eassumption|exact E|]. exists d'. repeat split; [exact X1|right; exact X2|exact X3].
      - edestruct IHl as (d' & X1 & X2 & X3); [eassumption|exact E|]. exists d'. repeat split; [exact X1|right; exact X2|exact X3]. }
    destruct X as (d' & -> & I & T'). exact (IH d' _ k sel T' (S d' I) H).
Qed.
Lemma parse_seen sortns data el off rest : sorts sortns -> parse sortns data (decode data) = POk el off rest ->
  exists d s, seen data = Some (dnode data d) /\ tree_of data decls_of attrs_of s d el /\ single d.
Proof.
  intros Hs P. destruct (parse_sound sortns data Hs _ _ _ _ P) as (pre & d & E & N & _ & T). exists d, []. split; [|split; [exact T|]].
  - unfold seen. rewrite E. assert (F : Forall (fun t => fst t = TOther) pre).
    { destruct d as [n a o items o']. cbn [doc_toks app] in E. exact (root_first _ _ _ _ _ _ _ _ E N). }
    destruct (grow_pre data pre 0 (doc_toks d ++ rest)%list F) as (prev & ->). apply grow_root.
  - pose proof (tokens_lone (String.length data) (S (String.length data)) data [] []) as L. change (tokens (String.length data) [] [] (raw_tokens (S (String.length data)) data)) with (decode data) in L. rewrite E in L. apply lone_app_r in L. exact (lone_single d rest L).
Qed.
(* ---------- the claims ---------- *)
Lemma seen_at sortns data el off rest p sel : sorts sortns -> parse sortns data (decode data) = POk el off rest -> sub el p = Some sel ->
  exists r r', seen data = Some r /\ node_at r p = Some r' /\ shows sel r'.
Proof.
  intros Hs P Hp. destruct (parse_seen sortns data el off rest Hs P) as (d & s & E & T & S). destruct (tree_at data p d s el sel T S Hp) as (d' & s' & N & T' & S'). exists (dnode data d), (dnode data d'). split; [exact E|]. split; [exact N|]. exact (tree_shows data d' s' sel T' S').
Qed.
Lemma unmarshal_shows el : printable [] el -> (eheight el <= 3000)%N -> exists y, unmarshal_sees el = Some y /\ shows el y.
Proof.
  intros W H. destruct (round_trip isort_ns el isort_ns_sorts W H) as (el' & off & P & R). destruct (seen_at isort_ns (marshal el) el' off [] [] el' isort_ns_sorts P eq_refl) as (r & r' & E & N & S). injection N as ->. exists r'. split; [exact E|]. exact (reread_shows el [] [] el' r' (fun m I => I) R S).
Qed.
Lemma unmarshal_alike sortns data el off rest p sel : sorts sortns -> parse sortns data (decode data) = POk el off rest -> sub el p = Some sel -> printable [] sel ->
  exists r r' y, seen data = Some r /\ node_at r p = Some r' /\ unmarshal_sees sel = Some y /\ alike r' y.
Proof.
  intros Hs P Hp W. destruct (seen_at sortns data el off rest p sel Hs P Hp) as (r & r' & E & N & S). destruct (unmarshal_shows sel W) as (y & E' & S').
  - apply sub_height in Hp. apply parsed_height in P; [|exact Hs]. lia.
  - exists r, r', y. repeat split; try assumption. exact (shows_alike sel r' y S S').
Qed.

Lemma without_filter declares a b : without_declarations a b -> (forall x, declares x = true -> declaration x) -> (forall x, In x a -> declaration x -> declares x = true) -> filter (fun x => negb (declares x)) a = b.
Proof.
  intros W H1. induction W as [|x a b D _ IH|x a b D _ IH]; intros H2; [reflexivity| |]; cbn [filter].
  - rewrite (H2 x (or_introl eq_refl) D). apply IH. intros; apply H2; [right|]; assumption.
  - destruct (declares x) eqn:E; [destruct (D (H1 x E))|]. cbn [negb]. f_equal. apply IH. intros; apply H2; [right|]; assumption.
Qed.
Lemma all_declared_child declares n a s c ch k : all_declared declares (Elem n a s c ch) -> In k ch -> all_declared declares k.
Proof.
  intros [H1 H2] I. split; [exact H1|]. intros p e m x Hp. apply In_nth_error in I as [i I]. apply (H2 (i :: p) e m x). cbn [sub e_children]. rewrite I. exact Hp.
Qed.
Lemma reads_shown declares clean : forall el y0 d r y, all_declared declares el -> unmixed y0 -> shows el r -> shows el y -> reads_back declares clean d y0 r -> reads_back declares clean d y0 y.
Proof.
  induction el as [n a s c ch IH] using elem_ind'. intros y0 d r y AD U S1 S2 R. inversion U as [n0 a0 k0 U1 U2]; subst. inversion R as [? ? ? ? a1 k1 R1 R2 R3]; subst. inversion S1 as [? ? ? ? ? ? ? A1 D1 F1 T1]; subst. inversion S2 as [? ? ? ? ? a2 k2 A2 D2 F2 T2]; subst.
  assert (Q : forall x m, In m s -> declaration_of x m -> declares x = true) by (intros x m; exact (proj2 AD [] _ m x eq_refl)). constructor.
  - rewrite (without_filter declares _ _ A2 (proj1 AD)) by (intros x I D; destruct (D2 x I D) as (m & Im & Em); eauto). rewrite (without_filter declares _ _ A1 (proj1 AD)) in R1 by (intros x I D; destruct (D1 x I D) as (m & Im & Em); eauto). exact R1.
  - assert (AD' : forall k, In k ch -> all_declared declares k) by (intros k; exact (all_declared_child declares _ _ _ _ _ k AD)).
    clear - IH U1 R2 F1 F2 AD'. revert U1 R2 F1 F2 AD'. generalize (elements k0) as l0, (elements k1) as l1, (elements k2) as l2. induction IH as [|x l Hx _ IHl]; intros l0 l1 l2 U R2 F1 F2 AD; inversion F1 as [|? y1 ? l1' P1 Q1]; subst; inversion F2 as [|? y2 ? l2' P2 Q2]; subst; inversion R2 as [|y0 ? l0' ? P0 Q0]; subst; [constructor|]. inversion U as [|? ? V1 V2]; subst.
    constructor; [exact (Hx y0 _ y1 y2 (AD x (or_introl eq_refl)) V1 P1 P2 P0)|]. exact (IHl l0' l1' l2' V2 Q0 Q1 Q2 (fun k I => AD k (or_intror I))).
  - intros T. specialize (U2 T). rewrite U2 in R2. assert (E : elements k1 = []) by (inversion R2; reflexivity). rewrite E in F1. inversion F1; subst. rewrite T2, <- T1 by reflexivity. apply R3. exact T.
Qed.
Lemma unmarshal_reads sortns data el off rest p sel declares clean d y0 : sorts sortns -> parse sortns data (decode data) = POk el off rest -> sub el p = Some sel -> printable [] sel -> all_declared declares sel -> unmixed y0 ->
  forall r r', seen data = Some r -> node_at r p = Some r' -> reads_back declares clean d y0 r' -> exists y, unmarshal_sees sel = Some y /\ reads_back declares clean d y0 y.
Proof.
  intros Hs P Hp W AD U r r' Er Er' R. destruct (seen_at sortns data el off rest p sel Hs P Hp) as (r1 & r2 & E & N & S). rewrite Er in E. injection E as <-. rewrite Er' in N. injection N as <-. destruct (unmarshal_shows sel W) as (y & E' & S').
  - apply sub_height in Hp. apply parsed_height in P; [|exact Hs]. lia.
  - exists y. split; [exact E'|]. exact (reads_shown declares clean sel y0 d r' y AD U S S' R).
Qed.

(* ---------- the exact node ---------- *)
Lemma skipn_app_len {A} (a b : list A) : skipn (List.length a) (a ++ b)%list = b.
Proof. induction a as [|x a IH]; [reflexivity|exact IH]. Qed.
Lemma declared_decl_attr m : declared_as m = decl_attr m.
Proof. unfold declared_as, decl_attr. destruct (String.eqb (nlocal m) ""); reflexivity. Qed.
Lemma substring_mid a b c : substring (String.length a) (String.length b) (a ++ b ++ c) = b.
Proof. pose proof (slice_mid a b c) as H. unfold slice in H. destruct (_ && _)%bool; [|discriminate]. injection H as H. rewrite Nat.add_comm, Nat.add_sub in H. exact H. Qed.
Lemma dkids_mdocs data f : forall l P T s prev, (forall e P T, In e l -> data = P ++ mstr s e ++ T -> dnode data (mdoc (String.length data) s e (String.length T)) = f e) ->
  data = P ++ mstrs s l ++ T -> dkids data prev (mdocs (String.length data) s (String.length T) l) = map f l.
Proof.
  induction l as [|e l IH]; intros P T s prev H E; [reflexivity|]. cbn [mdocs dkids map]. rewrite mstrs_cons, <- !sapp_assoc in E. f_equal.
  - rewrite <- (H e P (mstrs s l ++ T) (or_introl eq_refl) E). rewrite slen_app, (Nat.add_comm (String.length T)). reflexivity.
  - apply (IH (P ++ mstr s e)); [intros; apply (H e0 P0 T0); [right|]; assumption|]. rewrite <- sapp_assoc. exact E.
Qed.
Lemma dnode_mdoc data : forall el ps pre rest, printable ps el -> data = pre ++ mstr ps el ++ rest -> dnode data (mdoc (String.length data) ps el (String.length rest)) = exactly ps el.
Proof.
  induction el as [n a s c ch IH] using elem_ind'. intros ps pre rest Hw E. inversion Hw as [? ? ? ds ? ? Hds Hname Hattr Hcont Hch]; subst ps0 n0 a0 s c0 ch0. rewrite mstr_eq in E. set (s := (ps ++ ds)%list) in *.
  assert (Ediff : diff_scope_loop s ps = ds) by (unfold s; apply diff_loop_app).
  assert (Eat : tok_attrs a ds = (a ++ map declared_as (skipn (List.length ps) s))%list) by (unfold s, tok_attrs; rewrite skipn_app_len; f_equal; apply map_ext; intros; symmetry; apply declared_decl_attr).
  cbn [exactly]. rewrite <- Eat. destruct ch as [|x ch].
  - cbn [mdoc]. rewrite Ediff. destruct c as [|b c]; [reflexivity|]. rewrite dnode_eq. cbn [dkids String.eqb]. do 3 f_equal.
    set (P := pre ++ "<" ++ prefix s n ++ attrs_str (raw_list s a ds) ++ ">") in *.
    assert (E' : data = P ++ String b c ++ (etag (prefix s n) ++ rest)). { rewrite E. unfold P. rewrite <- !sapp_assoc. reflexivity. }
    rewrite E', !slen_app.
    replace (String.length P + (String.length (String b c) + (String.length (etag (prefix s n)) + String.length rest)) - (String.length rest + String.length (etag (prefix s n)) + String.length (String b c))) with (String.length P) by lia.
    replace (String.length P + (String.length (String b c) + (String.length (etag (prefix s n)) + String.length rest)) - (String.length rest + String.length (etag (prefix s n))) - String.length P) with (String.length (String b c)) by lia.
    rewrite substring_mid. reflexivity.
  - rewrite mdoc_eq by discriminate. rewrite Ediff, dnode_eq. f_equal. remember (x :: ch) as l eqn:El. assert (Hl : match l with [] => if String.eqb c "" then [] else [NText (text_of c)] | _ :: _ => map (exactly s) l end = map (exactly s) l) by (rewrite El; reflexivity). rewrite Forall_forall in IH.
    replace (String.length rest + String.length (etag (prefix s n))) with (String.length (etag (prefix s n) ++ rest)) by (rewrite slen_app; lia).
    apply (dkids_mdocs data (exactly s) l (pre ++ "<" ++ prefix s n ++ attrs_str (raw_list s a ds) ++ ">")).
    + intros e P T I Ee. apply (IH e I s P T); [apply Hch; exact I|exact Ee].
    + rewrite E. rewrite El. rewrite <- !sapp_assoc. reflexivity.
Qed.
Lemma unmarshal_exact el : printable [] el -> (eheight el <= 3000)%N -> unmarshal_sees el = Some (exactly [] el).
Proof.
  intros Hw Hh. unfold unmarshal_sees. rewrite marshal_mstr by auto. set (data := mstr [] el).
  assert (E : decode data = doc_toks (mdoc (String.length data) [] el 0)).
  { unfold decode. change (raw_tokens (S (String.length data)) data) with (raws data). pose proof (mdoc_tokens (String.length data) el [] [] "" Hw) as H. rewrite sapp_nil_r in H. fold data in H. rewrite H by (intros ? []). rewrite raws_nil. cbn [tokens]. apply app_nil_r. }
  unfold seen. rewrite E. rewrite <- (app_nil_r (doc_toks _)), grow_root. f_equal. apply (dnode_mdoc data el [] "" ""); [exact Hw|]. rewrite sapp_nil_r. reflexivity.
Qed.
(* the tokens of DocModel *)
Definition raw_text (c : string) : list dtok := if String.eqb c "" then [] else [DText (text_of c)].
Lemma inner_toks : forall el ps, flat_map node_toks (kids_of (exactly ps el)) = inner raw_text el.
Proof.
  induction el as [n a s c ch IH] using elem_ind'. intros ps. cbn [exactly kids_of inner]. destruct ch as [|x ch].
  - unfold raw_text. destruct (String.eqb c ""); reflexivity.
  - remember (x :: ch) as l eqn:El. clear El. induction IH as [|e l He _ IHl]; [reflexivity|]. cbn [map flat_map]. rewrite IHl. f_equal. destruct e as [n' a' s' c' ch']. rewrite <- (He s). reflexivity.
Qed.
Lemma annotation_read el : printable [] el -> (eheight el <= 3000)%N -> exists y, unmarshal_sees el = Some y /\ annotation_doc (flat_map node_toks (kids_of y) ++ [DEnd])%list = parse_annotation raw_text el.
Proof. intros Hw Hh. exists (exactly [] el). split; [exact (unmarshal_exact el Hw Hh)|]. unfold parse_annotation. rewrite inner_toks. reflexivity. Qed.
