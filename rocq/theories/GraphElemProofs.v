From Verif Require Import Base ScopeModel TreeModel TreeProofs ParseModel MarshalModel MarshalSpec DecodeProofs MarshalProofs MarshalProofs2 GraphElem GraphElemSpec.
Local Open Scope string_scope.

Lemma mem_in n l : mem n l = true <-> In n l.
Proof.
  unfold mem. rewrite existsb_exists. split.
  - intros (x & Hx & E). apply Nat.eqb_eq in E. subst; auto.
  - intros H. exists n. rewrite Nat.eqb_refl. auto.
Qed.
Lemma mem_not_in n l : mem n l = false <-> ~ In n l.
Proof. rewrite <- mem_in. destruct (mem n l); split; congruence. Qed.

(* ---------- the loops as separate functions ---------- *)
Fixpoint go_children (f : nat -> option (list event)) (l : list nat) : option (list event) :=
  match l with
  | [] => Some []
  | c :: l' => match f c with
               | None => None
               | Some ev => match go_children f l' with None => None | Some evs => Some (ev ++ evs)%list end
               end
  end.
Definition enc_body (g : graph) (e : encoder) (parent : option scope) (visited : list nat) (n : nat)
  (f : nat -> option (list event)) : option (list event) :=
      if (recursionLimit <? N.of_nat (List.length visited))%N then Some []
      else if mem n visited then Some [Unchecked "<!-- cycle detected -->"]
      else
        let el := shell g n in
        let depth := N.of_nat (List.length visited) in
        let open := encode_open_tag e el (diff_scope parent (e_scope el)) depth in
        match g_children (node g n), g_content (node g n) with
        | [], EmptyString => Some open
        | [], c => Some (open ++ Unchecked c :: encode_close_tag e el depth)%list
        | cs, _ => match go_children f cs with
                   | None => None
                   | Some evs => Some (open ++ evs ++ encode_close_tag e el depth)%list
                   end
        end.
Lemma encode_g_eq g e fuel parent visited n : encode_g g e (S fuel) parent visited n =
  enc_body g e parent visited n (encode_g g e fuel (Some (g_scope (node g n))) (n :: visited)).
Proof.
  cbn [encode_g]. unfold enc_body. destruct (recursionLimit <? N.of_nat (List.length visited))%N; auto.
  destruct (mem n visited); auto. destruct (g_children (node g n)) as [|c cs]; auto.
  match goal with |- match ?a with _ => _ end = match ?b with _ => _ end => assert (E : a = b); [|rewrite E; auto] end.
  cbn [go_children]. change (g_scope (node g n)) with (e_scope (shell g n)).
  destruct (encode_g g e fuel (Some (e_scope (shell g n))) (n :: visited) c); auto.
  match goal with |- match ?a with _ => _ end = match ?b with _ => _ end => assert (E : a = b); [|rewrite E; auto] end.
  clear. induction cs as [|x l IH]; auto. cbn [go_children]. rewrite <- IH. auto.
Qed.

Lemma go_children_ext f f' l : (forall c, In c l -> f c = f' c) -> go_children f l = go_children f' l.
Proof.
  induction l as [|c l IH]; intros H; auto. cbn [go_children]. rewrite H by (cbn; auto). rewrite IH; auto.
  intros; apply H; cbn; auto.
Qed.
Lemma enc_body_ext g e p v n f f' :
  ((N.of_nat (List.length v) <= recursionLimit)%N -> ~ In n v ->
    forall c, In c (g_children (node g n)) -> f c = f' c) -> enc_body g e p v n f = enc_body g e p v n f'.
Proof.
  intros H. unfold enc_body. destruct (recursionLimit <? N.of_nat (List.length v))%N eqn:E1; auto.
  destruct (mem n v) eqn:E2; auto. apply mem_not_in in E2.
  assert (G : go_children f (g_children (node g n)) = go_children f' (g_children (node g n))).
  { apply go_children_ext. apply H; auto. lia. }
  destruct (g_children (node g n)); auto. rewrite G. auto.
Qed.

(* ---------- termination ---------- *)
Lemma go_children_some f l : (forall c, In c l -> exists ev, f c = Some ev) -> exists evs, go_children f l = Some evs.
Proof.
  induction l as [|c l IH]; intros H; [cbn; eauto|]. cbn [go_children].
  destruct (H c) as [ev ->]; [cbn; auto|]. destruct IH as [evs ->]; [intros; apply H; cbn; auto|]. eauto.
Qed.

Lemma enc_body_some g e p v n f :
  ((N.of_nat (List.length v) <= recursionLimit)%N -> forall c, In c (g_children (node g n)) -> exists ev, f c = Some ev) ->
  exists evs, enc_body g e p v n f = Some evs.
Proof.
  intros H. unfold enc_body. destruct (recursionLimit <? N.of_nat (List.length v))%N eqn:E1; [eauto|].
  destruct (mem n v); [eauto|].
  destruct (g_children (node g n)) as [|c cs]; [destruct (g_content (node g n)); eauto|].
  destruct (go_children_some f (c :: cs)) as [evs ->]; [apply H; lia|]. eauto.
Qed.

Lemma encode_g_terminates g e : forall k p v n, (recursionLimit + 2 <= N.of_nat (List.length v) + N.of_nat k)%N -> k <> 0 ->
  exists evs, encode_g g e k p v n = Some evs.
Proof.
  induction k as [|k IH]; intros p v n Hk Hk0; [congruence|]. rewrite encode_g_eq.
  apply enc_body_some. intros Hv c Hc. apply IH; cbn [List.length]; lia.
Qed.

Lemma encode_g_fuel g e : forall k k' p v n evs, encode_g g e k p v n = Some evs -> k <= k' ->
  encode_g g e k' p v n = Some evs.
Proof.
  induction k as [|k IH]; intros k' p v n evs H Hk; [discriminate|].
  destruct k' as [|k']; [lia|]. rewrite encode_g_eq in *.
  unfold enc_body in *. destruct (recursionLimit <? N.of_nat (List.length v))%N; auto.
  destruct (mem n v); auto. destruct (g_children (node g n)) as [|c cs]; auto.
  destruct (go_children (encode_g g e k (Some (g_scope (node g n))) (n :: v)) (c :: cs)) as [l|] eqn:E; [|discriminate].
  assert (E' : go_children (encode_g g e k' (Some (g_scope (node g n))) (n :: v)) (c :: cs) = Some l).
  { clear H. revert l E. induction (c :: cs) as [|x l IHl]; intros r E; auto. cbn [go_children] in *.
    destruct (encode_g g e k _ _ x) as [ev|] eqn:Ex; [|discriminate].
    rewrite (IH k' _ _ _ _ Ex) by lia.
    destruct (go_children _ l) as [evs'|] eqn:El; [|discriminate]. rewrite (IHl _ eq_refl). auto. }
  rewrite E'. auto.
Qed.

Lemma encode_terminates g e n : exists evs, forall fuel, N.to_nat 3002 <= fuel -> encode_g g e fuel None [] n = Some evs.
Proof.
  destruct (encode_g_terminates g e (N.to_nat 3002) None [] n) as [evs H]; [vm_compute; discriminate|lia|].
  exists evs. intros fuel Hf. eapply encode_g_fuel; eauto.
Qed.

(* ---------- acyclic graphs: the tree encoding ---------- *)
Lemma Forall2_in_l {A B} (R : A -> B -> Prop) l l' x : Forall2 R l l' -> In x l -> exists y, In y l' /\ R x y.
Proof. induction 1 as [|a b l l' Hab H IH]; intros Hi; [destruct Hi|]. destruct Hi as [<-|Hx]; [exists b; cbn; auto|]. destruct (IH Hx) as (y & ? & ?). exists y; cbn; auto. Qed.

Lemma Forall2_length {A B} (R : A -> B -> Prop) l l' : Forall2 R l l' -> List.length l = List.length l'.
Proof. induction 1; cbn; auto. Qed.

Lemma unfolds_inv g n el : unfolds g n el -> exists ch,
  Forall2 (unfolds g) (g_children (node g n)) ch /\
  el = Elem (g_name (node g n)) (g_attrs (node g n)) (g_scope (node g n)) (g_content (node g n)) ch.
Proof. intros H. inversion H; subst. eauto. Qed.

Lemma unfolds_below g n m : below g n m -> forall el, unfolds g n el -> exists el', unfolds g m el' /\ (eheight el' < eheight el)%N.
Proof.
  induction 1 as [n c H|n c m H Hb IH]; intros el Hu;
    apply unfolds_inv in Hu as (ch & HF & ->); destruct (Forall2_in_l _ _ _ _ HF H) as (x & Hx & Hux);
    pose proof (eheight_child x (g_name (node g n)) (g_attrs (node g n)) (g_scope (node g n)) (g_content (node g n)) ch Hx) as Hlt.
  - exists x. split; auto. lia.
  - destruct (IH x Hux) as (y & Hy & Hl). exists y. split; auto. lia.
Qed.
Lemma unfolds_fun g : forall el n el', unfolds g n el -> unfolds g n el' -> el = el'.
Proof.
  induction el as [nm a s c ch IH] using elem_ind'. intros n el' H H'.
  apply unfolds_inv in H as (ch1 & H1 & E1). apply unfolds_inv in H' as (ch2 & H2 & ->). injection E1 as -> -> -> -> ->.
  f_equal. revert ch2 H2. clear - IH H1. induction H1 as [|x y l l' Hxy H IHl]; intros ch2 H2; inversion H2; subst; auto.
  f_equal; [eapply IH; cbn; eauto|]. apply IHl; auto. intros; eapply IH; cbn; eauto.
Qed.
Lemma unfolds_acyclic g n el : unfolds g n el -> ~ below g n n.
Proof.
  intros H Hb. destruct (unfolds_below _ _ _ Hb _ H) as (el' & H' & Hl).
  rewrite (unfolds_fun _ _ _ _ H H') in Hl. lia.
Qed.

(* the tag functions look at the children only through their number *)
Lemma open_tag_shell g e n ch sc d :
  List.length ch = List.length (g_children (node g n)) ->
  encode_open_tag e (shell g n) sc d =
  encode_open_tag e (Elem (g_name (node g n)) (g_attrs (node g n)) (g_scope (node g n)) (g_content (node g n)) ch) sc d.
Proof.
  intros H. unfold encode_open_tag, start_tag, shell. cbn [e_name e_attrs e_scope e_content e_children].
  destruct ch, (g_children (node g n)); cbn in H |- *; try discriminate; auto.
Qed.
Lemma close_tag_shell g e n ch d :
  List.length ch = List.length (g_children (node g n)) ->
  encode_close_tag e (shell g n) d =
  encode_close_tag e (Elem (g_name (node g n)) (g_attrs (node g n)) (g_scope (node g n)) (g_content (node g n)) ch) d.
Proof.
  intros H. unfold encode_close_tag, end_tag, shell. cbn [e_name e_attrs e_scope e_content e_children].
  destruct ch, (g_children (node g n)); cbn in H |- *; try discriminate; auto.
Qed.

Lemma encode_g_tree g e : forall el n p v, unfolds g n el ->
  (forall a, In a v -> below g a n) ->
  forall fuel, (N.of_nat fuel > eheight el)%N ->
  (N.of_nat (List.length v) + eheight el <= recursionLimit)%N ->
  encode_g g e fuel p v n = Some (encode e p (N.of_nat (List.length v)) el).
Proof.
  induction el as [nm a s c ch IH] using elem_ind'. intros n p v Hu Hv fuel Hf Hd.
  assert (Hac : ~ In n v).
  { intros Hin. apply (unfolds_acyclic _ _ _ Hu). auto. }
  apply unfolds_inv in Hu as (ch' & HF & E). injection E as -> -> -> -> <-.
  destruct fuel as [|fuel]; [lia|]. rewrite encode_g_eq. unfold enc_body. cbn [encode].
  assert ((recursionLimit <? N.of_nat (List.length v))%N = false) as -> by lia.
  apply mem_not_in in Hac. rewrite Hac.
  pose proof (Forall2_length _ _ _ HF) as Hlen.
  rewrite (open_tag_shell g e n ch), (close_tag_shell g e n ch) by auto.
  cbn [e_scope e_children e_content].
  destruct (g_children (node g n)) as [|x cs] eqn:Ec.
  - inversion HF; subst. destruct (g_content (node g n)); [rewrite app_nil_r|]; auto.
  - destruct ch as [|y ch]; [discriminate|]. 
    assert (G : go_children (encode_g g e fuel (Some (g_scope (node g n))) (n :: v)) (x :: cs) =
                Some (flat_map (encode e (Some (g_scope (node g n))) (N.of_nat (List.length v) + 1)) (y :: ch))).
    { assert (Hh : forall z, In z (y :: ch) -> (eheight z + 1 <= eheight (Elem (g_name (node g n)) (g_attrs (node g n)) (g_scope (node g n)) (g_content (node g n)) (y :: ch)))%N)
        by (intros; apply eheight_child; auto).
      assert (He : forall z, In z (x :: cs) -> edge g n z) by (unfold edge; rewrite Ec; auto).
      revert Hh Hf Hd. generalize (eheight (Elem (g_name (node g n)) (g_attrs (node g n)) (g_scope (node g n)) (g_content (node g n)) (y :: ch))) as h.
      intros h Hh Hf Hd.
      clear Ec Hlen. revert HF IH Hh He. generalize (x :: cs) as l1, (y :: ch) as l2.
      intros l1 l2 HF. induction HF as [|u w l1' l2' Huw HF IHF]; intros IH Hh He; auto.
      cbn [go_children flat_map].
      rewrite (IH w ltac:(cbn; auto) u (Some (g_scope (node g n))) (n :: v)); auto.
      - cbn [List.length]. replace (N.of_nat (S (List.length v))) with (N.of_nat (List.length v) + 1)%N by lia.
        rewrite IHF; auto.
        + intros; apply IH; cbn; auto.
        + intros; apply Hh; cbn; auto.
        + intros; apply He; cbn; auto.
      - intros b [<-|Hb]; [apply below_child, He; cbn; auto|].
        specialize (Hv b Hb). clear - Hv He. induction Hv as [? ? H|? ? ? H ? IHb].
        + eapply below_step; eauto. apply below_child, He; cbn; auto.
        + eapply below_step; eauto.
      - specialize (Hh w ltac:(cbn; auto)). lia.
      - specialize (Hh w ltac:(cbn; auto)). cbn [List.length]. lia. }
    rewrite G. auto.
Qed.

Lemma encode_acyclic g e n el fuel : unfolds g n el -> (eheight el <= 3000)%N -> N.to_nat 3002 <= fuel ->
  encode_g g e fuel None [] n = Some (encode e None 0 el).
Proof.
  intros Hu Hh Hf. apply (encode_g_tree g e el n None []); auto; try (intros ? []); unfold recursionLimit; cbn [List.length]; lia.
Qed.

(* ---------- cyclic graphs ---------- *)
Lemma NoDup_bound (v : list nat) k : NoDup v -> (forall x, In x v -> x < k) -> List.length v <= k.
Proof.
  intros Hn Hb. rewrite <- (seq_length k 0). apply NoDup_incl_length; auto.
  intros x Hx. apply in_seq. specialize (Hb x Hx). lia.
Qed.

Lemma encode_g_shown g : closed g -> (N.of_nat (List.length g) <= 3000)%N ->
  forall k p v n, n < List.length g -> NoDup v -> (forall x, In x v -> x < List.length g) ->
  List.length g + 1 <= List.length v + k ->
  exists t evs, shown g p v n t /\ encode_g g plain_enc (S k) p v n = Some evs /\ output evs = print_marked t.
Proof.
  intros Hcl Hsz. induction k as [|k IH]; intros p v n Hn Hnd Hv Hk.
  - pose proof (NoDup_bound _ _ Hnd Hv). lia.
  - rewrite encode_g_eq. unfold enc_body.
    pose proof (NoDup_bound _ _ Hnd Hv) as Hb.
    assert ((recursionLimit <? N.of_nat (List.length v))%N = false) as -> by (unfold recursionLimit; lia).
    destruct (mem n v) eqn:Em.
    { apply mem_in in Em. exists MCycle. eexists. split; [constructor; auto|]. split; eauto. }
    apply mem_not_in in Em.
    assert (HC : exists ts evs, Forall2 (shown g (Some (g_scope (node g n))) (n :: v)) (g_children (node g n)) ts /\
       go_children (encode_g g plain_enc (S k) (Some (g_scope (node g n))) (n :: v)) (g_children (node g n)) = Some evs /\
       output evs = String.concat "" (map print_marked ts)).
    { assert (Hlt : forall c, In c (g_children (node g n)) -> c < List.length g) by (intros; eapply Hcl; eauto).
      revert Hlt. generalize (g_children (node g n)) as l. induction l as [|c l IHl]; intros Hlt.
      - exists [], []. repeat split; auto.
      - destruct (IHl ltac:(intros; apply Hlt; cbn; auto)) as (ts & evs & H1 & H2 & H3).
        destruct (IH (Some (g_scope (node g n))) (n :: v) c) as (t & ev & Ht & He & Ho).
        + apply Hlt; cbn; auto.
        + constructor; auto.
        + intros x [<-|Hx]; auto.
        + cbn [List.length]. lia.
        + exists (t :: ts), (ev ++ evs)%list. split; [constructor; auto|]. cbn [go_children]. rewrite He, H2. split; auto.
          rewrite output_app, Ho, H3. cbn [map]. rewrite concat_cons. auto. }
    destruct HC as (ts & evs & H1 & H2 & H3).
    exists (MTag (prefix (g_scope (node g n)) (g_name (node g n)))
            (map (fun x => (prefix (g_scope (node g n)) (aname x), avalue x)) (g_attrs (node g n)))
            (diff_scope p (g_scope (node g n))) (g_content (node g n)) ts).
    assert (Hsh := sh_node g p v n ts Em H1).
    assert (Hlen : List.length ts = List.length (g_children (node g n))) by (symmetry; eapply Forall2_length; eauto).
    set (el := Elem (g_name (node g n)) (g_attrs (node g n)) (g_scope (node g n)) (g_content (node g n))
               (map (fun _ => Elem (mkName "" "") [] [] "" []) (g_children (node g n)))).
    assert (Ho : output (encode_open_tag plain_enc (shell g n) (diff_scope p (e_scope (shell g n))) (N.of_nat (List.length v))) =
       print_open (prefix (g_scope (node g n)) (g_name (node g n)))
         (map (fun x => (prefix (g_scope (node g n)) (aname x), avalue x)) (g_attrs (node g n)))
         (diff_scope p (g_scope (node g n))) ++ match g_children (node g n), g_content (node g n) with [], EmptyString => " />" | _, _ => ">" end).
    { unfold encode_open_tag, shell. cbn [enc_pretty plain_enc app e_scope]. rewrite app_nil_r, start_str.
      destruct (g_children (node g n)); auto. }
    assert (Hcl' : output (encode_close_tag plain_enc (shell g n) (N.of_nat (List.length v))) = "</" ++ prefix (g_scope (node g n)) (g_name (node g n)) ++ ">").
    { unfold encode_close_tag, shell. cbn [enc_pretty plain_enc app]. rewrite app_nil_r. apply output_end_tag. }
    destruct (g_children (node g n)) as [|c cs] eqn:Ec.
    + destruct ts; [|discriminate]. destruct (g_content (node g n)) as [|b ct] eqn:Ect.
      * eexists. split; [exact Hsh|]. split; [reflexivity|]. rewrite Ho. reflexivity.
      * eexists. split; [exact Hsh|]. split; [reflexivity|].
        rewrite output_app, output_cons, Ho, Hcl'. cbn [ev_text print_marked]. rewrite <- !sapp_assoc. reflexivity.
    + destruct ts as [|t ts]; [discriminate|]. eexists. split; [exact Hsh|].
      rewrite H2. split; [reflexivity|]. rewrite !output_app, Ho, Hcl', H3. cbn [print_marked]. rewrite <- !sapp_assoc. reflexivity.
Qed.

Lemma encode_cyclic g n : closed g -> n < List.length g -> (N.of_nat (List.length g) <= 3000)%N ->
  exists t evs, shown g None [] n t /\ (forall fuel, N.to_nat 3002 <= fuel -> encode_g g plain_enc fuel None [] n = Some evs) /\ output evs = print_marked t.
Proof.
  intros Hcl Hn Hs. destruct (encode_g_shown g Hcl Hs (List.length g + 1) None [] n) as (t & evs & H1 & H2 & H3); auto.
  - constructor.
  - intros ? [].
  - exists t, evs. split; auto. split; auto. intros fuel Hf. eapply encode_g_fuel; eauto. lia.
Qed.

(* ---------- hasCycle ---------- *)
Fixpoint hc_loop (f : nat -> option bool) (v : list nat) (l : list nat) : option bool :=
  match l with
  | [] => Some false
  | c :: l' => if mem c v then Some true else match f c with Some false => hc_loop f v l' | r => r end
  end.
Lemma has_cycle_eq g fuel v n : has_cycle g (S fuel) v n = hc_loop (has_cycle g fuel (n :: v)) (n :: v) (g_children (node g n)).
Proof.
  cbn [has_cycle]. generalize (g_children (node g n)) as l. induction l as [|x l IH]; auto.
  cbn [hc_loop]. rewrite <- IH. auto.
Qed.

Lemma hc_loop_some f v l : (forall c, In c l -> ~ In c v -> exists b, f c = Some b) -> exists b, hc_loop f v l = Some b.
Proof.
  induction l as [|c l IH]; intros H; [cbn; eauto|]. cbn [hc_loop]. destruct (mem c v) eqn:E; [eauto|].
  apply mem_not_in in E. destruct (H c ltac:(cbn; auto) E) as [[] ->]; [eauto|]. apply IH. intros; apply H; cbn; auto.
Qed.
Lemma hc_loop_false f v l : hc_loop f v l = Some false -> forall c, In c l -> ~ In c v /\ f c = Some false.
Proof.
  induction l as [|x l IH]; cbn [hc_loop]; intros H c Hc; [destruct Hc|].
  destruct (mem x v) eqn:E; [discriminate|]. apply mem_not_in in E.
  destruct (f x) as [[]|] eqn:Ef; try discriminate. destruct Hc as [<-|Hc]; auto.
Qed.
Lemma hc_loop_true f v l : hc_loop f v l = Some true -> exists c, In c l /\ (In c v \/ (~ In c v /\ f c = Some true)).
Proof.
  induction l as [|x l IH]; cbn [hc_loop]; intros H; [discriminate|].
  destruct (mem x v) eqn:E.
  - apply mem_in in E. exists x; cbn; auto.
  - apply mem_not_in in E. destruct (f x) as [[]|] eqn:Ef; try discriminate.
    + exists x; cbn; auto.
    + destruct (IH H) as (c & ? & ?). exists c; cbn; auto.
Qed.

Lemma has_cycle_some g : closed g -> forall k v n, n < List.length g -> NoDup (n :: v) -> (forall x, In x v -> x < List.length g) ->
  List.length g < List.length v + k + 1 -> k <> 0 -> exists b, has_cycle g k v n = Some b.
Proof.
  intros Hcl. induction k as [|k IH]; intros v n Hn Hnd Hv Hk Hk0; [congruence|].
  rewrite has_cycle_eq. apply hc_loop_some. intros c Hc Hcv.
  assert (Hnd' : NoDup (c :: n :: v)) by (constructor; auto).
  assert (Hc' : c < List.length g) by (eapply Hcl; eauto).
  apply IH; auto.
  - intros x [<-|Hx]; auto.
  - cbn [List.length]. lia.
  - assert (Hb : List.length (c :: n :: v) <= List.length g).
    { apply NoDup_bound; auto. intros x [<-|[<-|Hx]]; auto. }
    cbn [List.length] in Hb. lia.
Qed.

Lemma below_trans g a b c : below g a b -> below g b c -> below g a c.
Proof. induction 1; intros; eapply below_step; eauto. Qed.

(* v: the path from the root to n, nearest first *)
Lemma has_cycle_true g : forall k v n, (forall x, In x v -> below g x n) ->
  has_cycle g k v n = Some true -> exists m, (m = n \/ below g n m) /\ below g m m \/ exists x, In x v /\ below g x x.
Proof.
  induction k as [|k IH]; intros v n Hv H; [discriminate|]. rewrite has_cycle_eq in H.
  apply hc_loop_true in H as (c & Hc & [Hin|[Hin Hr]]).
  - destruct Hin as [<-|Hin].
    + exists n. left. split; auto. apply below_child; auto.
    + exists n. right. exists c. split; auto. eapply below_trans; [apply Hv; auto|apply below_child; auto].
  - apply IH in Hr as (m & [[Hm Hmm]|(x & Hx & Hxx)]).
    + exists m. left. split; auto. right. destruct Hm as [->|Hm]; [apply below_child; auto|eapply below_step; eauto].
    + destruct Hx as [<-|Hx].
      * exists n. left. auto.
      * exists n. right. eauto.
    + intros x [<-|Hx]; [apply below_child; auto|]. eapply below_trans; [apply Hv; auto|apply below_child; auto].
Qed.

Lemma has_cycle_false_step g k v n c : has_cycle g k v n = Some false -> edge g n c ->
  ~ In c (n :: v) /\ exists k', has_cycle g k' (n :: v) c = Some false.
Proof.
  destruct k as [|k]; [discriminate|]. rewrite has_cycle_eq. intros H He.
  destruct (hc_loop_false _ _ _ H c He) as [H1 H2]. split; eauto.
Qed.

Lemma has_cycle_false_below g : forall n m, below g n m -> forall k v, has_cycle g k v n = Some false ->
  ~ In m (n :: v) /\ exists k' v', has_cycle g k' v' m = Some false.
Proof.
  induction 1 as [n c H|n c m H Hb IH]; intros k v Hf; destruct (has_cycle_false_step _ _ _ _ _ Hf H) as [H1 [k' H2]].
  - split; eauto.
  - destruct (IH _ _ H2) as [H3 H4]. split; auto. intros [<-|Hin]; apply H3; cbn; auto.
Qed.

Lemma has_cycle_spec g n : closed g -> n < List.length g ->
  exists b, (forall fuel, List.length g <= fuel -> has_cycle g fuel [] n = Some b) /\
  (b = true <-> exists m, (m = n \/ below g n m) /\ below g m m).
Proof.
  intros Hcl Hn.
  assert (Hex : forall fuel, List.length g <= fuel -> exists b, has_cycle g fuel [] n = Some b).
  { intros fuel Hf. apply has_cycle_some; auto; [repeat constructor; auto|intros ? []|cbn; lia|lia]. }
  assert (Hspec : forall fuel b, has_cycle g fuel [] n = Some b -> (b = true <-> exists m, (m = n \/ below g n m) /\ below g m m)).
  { intros fuel b Hb. destruct b.
    - split; auto. intros _. apply has_cycle_true in Hb as (m & [Hm|(x & [] & _)]); [eauto|intros ? []].
    - split; [discriminate|]. intros (m & [->|Hm] & Hmm); exfalso.
      + destruct (has_cycle_false_below g n n Hmm _ _ Hb) as [H H']. apply H; cbn; auto.
      + destruct (has_cycle_false_below g n m Hm _ _ Hb) as [H0 (k' & v' & H)].
        destruct (has_cycle_false_below g m m Hmm _ _ H) as [H1 H2]. apply H1; cbn; auto. }
  destruct (Hex (List.length g) ltac:(lia)) as [b Hb]. exists b. split; [|eapply Hspec; eauto].
  intros fuel Hf. destruct (Hex fuel Hf) as [b' Hb']. rewrite Hb'. f_equal.
  pose proof (Hspec _ _ Hb) as S1. pose proof (Hspec _ _ Hb') as S2.
  destruct b, b'; auto; [apply S2, S1; auto|symmetry; apply S1, S2; auto].
Qed.

(* ---------- truncation ---------- *)
Fixpoint chain (k : nat) (e : elem) : elem :=
  match k with O => e | S k' => Elem (mkName "" "a") [] [] "" [chain k' e] end.
Lemma chain_height k e : eheight (chain k e) = (N.of_nat k + eheight e)%N.
Proof. induction k as [|k IH]; cbn [chain eheight fold_right]; [lia|]. rewrite IH. lia. Qed.
Lemma chain_marshal_gen : forall k p d e e', (N.of_nat k + d = 3001)%N ->
  encode plain_enc p d (chain k e) = encode plain_enc p d (chain k e').
Proof.
  induction k as [|k IH]; intros p d e e' H; cbn [chain].
  - destruct e, e'. cbn [encode]. assert ((recursionLimit <? d)%N = true) as -> by (unfold recursionLimit; lia). auto.
  - cbn [encode]. destruct (recursionLimit <? d)%N; auto. f_equal. cbn [e_children flat_map e_scope].
    rewrite (IH _ (d + 1)%N e e'); auto. lia.
Qed.
Lemma truncated : exists e1 e2, (3000 < eheight e1)%N /\ e1 <> e2 /\ marshal e1 = marshal e2.
Proof.
  exists (chain (N.to_nat 3001) (Elem (mkName "" "b") [] [] "" [])), (chain (N.to_nat 3001) (Elem (mkName "" "c") [] [] "" [])).
  split; [rewrite chain_height; cbn [eheight fold_right]; lia|]. split.
  - generalize (N.to_nat 3001). induction n as [|n IH]; cbn [chain]; [discriminate|]. intros [= E]. auto.
  - unfold marshal, encode_events. apply (f_equal output). apply (chain_marshal_gen (N.to_nat 3001) None 0%N). lia.
Qed.
