(* readFiles loads what is needed, imports first. *)
From Verif Require Import Base ScopeModel TreeModel TreeSpec EqualModel BuiltinModel XsdModel XsdSpec XsdProofs TypesModel GenModel SgModel FilesModel FilesSpec.
Local Open Scope string_scope.
Set Default Proof Using "Type".

Lemma found_all local root e : In e (find_all local root) <-> exists p, descendant root p e /\ e_name e = mkName schemaNS local.
Proof.
  destruct (find_all_lists local root) as [ps [_ [H F]]]. split.
  - intros I. assert (exists p, In p ps /\ sub root p = Some e) as [p [Hp E]].
    { clear H. induction F as [|p x ps l E F IH]; [destruct I|]. destruct I as [<-|I]; [exists p; split; [left|]; auto|]. destruct (IH I) as [q [Hq E']]. exists q. split; [right|]; auto. }
    apply H in Hp as [x [[N Dx] En]]. exists p. rewrite E in Dx. injection Dx as <-. split; [split; [exact N|exact E]|exact En].
  - intros [p [D E]]. assert (In p ps) as Hp by (apply H; exists e; auto). destruct D as [_ D]. clear H.
    induction F as [|q x ps l Ex F IH]; [destruct Hp|]. destruct Hp as [->|Hp]; [left; congruence|right; exact (IH Hp)].
Qed.
Lemma under root p s q v : sub root p = Some s -> sub s q = Some v -> sub root (p ++ q) = Some v.
Proof.
  revert root. induction p as [|i p IH]; intros root H1 H2; [cbn in H1; injection H1 as <-; exact H2|].
  cbn [app sub] in *. destruct root as [n a sc c l]. cbn in *. destruct (nth_error l i); [exact (IH _ H1 H2)|discriminate].
Qed.

Section Files.
  Variable D : Type.
  Variable fs : string -> option D.
  Variable tree : D -> option elem.
  Notation cites := (cites D tree).
  Notation uses := (uses D fs tree).
  Notation needed := (needed D fs tree).
  Notation readable := (readable D fs tree).
  Notation read_files := (read_files D fs tree).
  Definition locs (root : elem) : list string := map r_loc (imports root).

  Lemma cites_locs d root g : tree d = Some root -> (cites d g <-> In g (locs root)).
  Proof.
    intros T. unfold locs, imports. rewrite map_app, in_app_iff, map_map. cbn [r_loc].
    assert (forall e, In e (schemas_of root) -> exists p, sub root p = Some e) as Sd.
    { intros e. unfold schemas_of. destruct (xname_eqb (e_name root) (xs "schema")); [intros [<-|[]]; exists []; reflexivity|].
      intros H. apply found_all in H as [p [[_ H] _]]. exists p. exact H. }
    split.
    - intros (r & p & v & T' & Hd & -> & K). assert (r = root) as -> by congruence. destruct K as [K|[K K2]].
      + left. apply in_map_iff. exists v. split; [reflexivity|]. apply found_all. exists p. auto.
      + right. apply in_map_iff. assert (exists t, In t (schemas_of root) /\ In v (find_all "include" t)) as [t [H1 H2]].
        { unfold schemas_of. destruct (xname_eqb (e_name root) (xs "schema")) eqn:X.
          - exists root. split; [left; reflexivity|]. apply found_all. exists p. auto.
          - destruct K2 as [K2|(q & s & q' & D1 & Es & D2)].
            + exfalso. apply xname_eqb_eq in K2. unfold xs in X. congruence.
            + exists s. split; apply found_all; eauto. }
        exists (mkRef (attr t "" "targetNamespace") (attr v "" "schemaLocation")). split; [reflexivity|]. apply in_flat_map. exists t. split; [exact H1|]. apply in_map_iff. exists v. auto.
    - intros [H|H].
      + apply in_map_iff in H as [v [<- H]]. apply found_all in H as [p [Hd En]]. exists root, p, v. split; [exact T|]. split; [exact Hd|]. split; [reflexivity|left; exact En].
      + apply in_map_iff in H as [r [<- H]]. apply in_flat_map in H as [t [H1 H2]]. apply in_map_iff in H2 as [v [<- H2]]. cbn [r_loc]. apply found_all in H2 as [q [Hd En]].
        destruct (Sd t H1) as [p Hp]. exists root, (p ++ q)%list, v. split; [exact T|]. split; [split|].
        * destruct Hd as [Nq _]. intros X. apply app_eq_nil in X as [_ X]. contradiction.
        * exact (under _ _ _ _ _ Hp (proj2 Hd)).
        * split; [reflexivity|]. right. split; [exact En|]. revert H1. unfold schemas_of. destruct (xname_eqb (e_name root) (xs "schema")) eqn:X; [left; apply xname_eqb_eq; exact X|].
          intros H1. right. apply found_all in H1 as [p' [D1 E1]]. exists p', t, q. auto.
  Qed.
  Lemma uses_locs f b root g : fs f = Some b -> tree b = Some root -> (uses g f <-> In g (locs root)).
  Proof. intros F T. split; [intros (d & H & C); assert (d = b) as -> by congruence; apply (cites_locs b root g T); exact C|]. intros H. exists b. split; [exact F|]. apply (cites_locs b root g T). exact H. Qed.

  (* what a call returns *)
  Inductive loads : list string -> list D -> Prop :=
  | lo_nil : loads [] []
  | lo_cons f b root l1 files l2 : fs f = Some b -> tree b = Some root -> loads (locs root) l1 -> loads files l2 -> loads (f :: files) (l1 ++ b :: l2).
  Definition step (k : nat) (data : list D) (f : string) : run (list D) :=
    match fs f with
    | None => Fail
    | Some b => match tree b with None => Fail | Some root => andthen (read_files k true (locs root)) (fun d => Ret (data ++ d ++ [b])%list) end
    end.
  Lemma read_step k files : read_files (S k) true files = foldr (step k) [] files.
  Proof. reflexivity. Qed.
  Lemma read_loads : forall k files l, read_files k true files = Ret l -> loads files l.
  Proof.
    induction k as [|k IH]; intros files l H; [discriminate|]. rewrite read_step in H.
    assert (forall files acc l, foldr (step k) acc files = Ret l -> exists l', l = (acc ++ l')%list /\ loads files l') as G.
    { clear H files l. induction files as [|f files IHf]; intros acc l H; cbn [foldr] in H; [injection H as <-; exists []; split; [symmetry; apply app_nil_r|constructor]|].
      unfold step at 1 in H. destruct (fs f) as [b|] eqn:Ef; [|discriminate]. destruct (tree b) as [root|] eqn:Et; [|discriminate].
      destruct (read_files k true (locs root)) as [d| | |] eqn:Er; cbn [andthen] in H; try discriminate. destruct (IHf _ _ H) as [l' [-> L]].
      exists (d ++ b :: l')%list. split; [rewrite <- !app_assoc; reflexivity|]. econstructor; eauto. }
    destruct (G _ _ _ H) as [l' [-> L]]. exact L.
  Qed.
  Lemma loads_in files l : loads files l -> forall f, In f files -> exists d, fs f = Some d /\ In d l.
  Proof.
    induction 1 as [|f b root l1 files l2 F T L1 IH1 L2 IH2]; intros g []; [subst g; exists b; split; [exact F|apply in_elt]|]. destruct (IH2 g H) as [d [E I]]. exists d. split; [exact E|]. apply in_or_app. right. right. exact I.
  Qed.
  Lemma loads_order files l : loads files l -> imports_first D fs tree l.
  Proof.
    induction 1 as [|f b root l1 files l2 F T L1 IH1 L2 IH2]; intros m1 d m2 g E C; [destruct m1; discriminate|].
    assert (forall (l1 : list D) b l2 m1 d m2, (l1 ++ b :: l2 = m1 ++ d :: m2)%list -> (exists r, l1 = (m1 ++ d :: r)%list) \/ (l1 = m1 /\ b = d) \/ (exists r, m1 = (l1 ++ b :: r)%list /\ l2 = (r ++ d :: m2)%list)) as Sp.
    { clear. induction l1 as [|x l1 IH]; intros b l2 m1 d m2 E; destruct m1 as [|y m1]; cbn in E.
      - injection E as -> ->. right. left. auto.
      - injection E as -> ->. right. right. exists m1. auto.
      - injection E as -> E. left. exists l1. auto.
      - injection E as -> E. destruct (IH _ _ _ _ _ E) as [[r ->]|[[-> ->]|[r [-> ->]]]]; [left; exists r; auto|right; left; auto|right; right; exists r; auto]. }
    destruct (Sp _ _ _ _ _ _ E) as [[r ->]|[[-> ->]|[r [-> ->]]]].
    - destruct (IH1 _ _ _ g eq_refl C) as [d' [E1 E2]]. exists d'. auto.
    - apply (cites_locs d root g T) in C. exact (loads_in _ _ L1 g C).
    - destruct (IH2 _ _ _ g eq_refl C) as [d' [E1 E2]]. exists d'. split; [exact E1|]. apply in_or_app. right. right. exact E2.
  Qed.
  Lemma loads_needed files l : loads files l -> forall d, In d l -> exists f, needed files f /\ fs f = Some d /\ readable f.
  Proof.
    induction 1 as [|f b root l1 files l2 F T L1 IH1 L2 IH2]; intros d I; [destruct I|]. apply in_app_or in I as [I|[<-|I]].
    - destruct (IH1 d I) as [g [Hg Eg]]. exists g. split; [|exact Eg]. clear - Hg F T. induction Hg as [g Hg|g h Hg IH U]; [|exact (ne_used D fs tree _ _ _ IH U)].
      apply (ne_used D fs tree _ f); [apply ne_given; left; reflexivity|]. apply (uses_locs f b root g F T). exact Hg.
    - exists f. split; [apply ne_given; left; reflexivity|]. split; [exact F|]. exists b, root. auto.
    - destruct (IH2 d I) as [g [Hg Eg]]. exists g. split; [|exact Eg]. clear - Hg. induction Hg as [g Hg|g h Hg IH U]; [apply ne_given; right; exact Hg|exact (ne_used D fs tree _ _ _ IH U)].
  Qed.
  Lemma needed_in files l : loads files l -> forall f, needed files f -> exists d, fs f = Some d /\ In d l.
  Proof.
    intros L. induction 1 as [f H|f g H [d [E I]] U]; [exact (loads_in _ _ L f H)|]. destruct U as [d' [E' C]]. assert (d' = d) as -> by congruence.
    apply in_split in I as [l1 [l2 ->]]. destruct (loads_order _ _ L _ _ _ g eq_refl C) as [d' [E1 E2]]. exists d'. split; [exact E1|]. apply in_or_app. left. exact E2.
  Qed.
  Theorem read_spec k files l : read_files k true files = Ret l ->
    complete_list D fs tree files l /\ imports_first D fs tree l /\ (forall f, needed files f -> readable f) /\ forall f, In f files -> Acc uses f.
  Proof.
    intros H. apply read_loads in H. split; [|split; [exact (loads_order _ _ H)|split]].
    - intros d. split; [intros I; destruct (loads_needed _ _ H d I) as [f [N [E _]]]; eauto|]. intros [f [N E]]. destruct (needed_in _ _ H f N) as [d' [E' I]]. congruence.
    - intros f N. destruct (needed_in _ _ H f N) as [d [E I]]. destruct (loads_needed _ _ H d I) as [g [_ [E' [d' [root [E2 T]]]]]]. exists d, root. split; [exact E|]. congruence.
    - clear k. induction H as [|f b root l1 files l2 F T L1 IH1 L2 IH2]; intros g []; [|exact (IH2 g H)]. subst g. constructor. intros g U. apply IH1. apply (uses_locs f b root g F T). exact U.
  Qed.

  (* ---------- errors and the end ---------- *)
  Lemma read_fails : forall k files, (read_files k true files = Fail -> exists f, needed files f /\ ~ readable f) /\ read_files k true files <> Panic.
  Proof.
    induction k as [|k IH]; intros files; [split; discriminate|]. rewrite read_step. generalize (@nil D) as acc.
    induction files as [|f files IHf]; intros acc; cbn [foldr]; [split; discriminate|].
    unfold step at 1 3. destruct (fs f) as [b|] eqn:Ef; [destruct (tree b) as [root|] eqn:Et|].
    2: { split; [|discriminate]. intros _. exists f. split; [apply ne_given; left; reflexivity|]. intros [d [r [E1 E2]]]. congruence. }
    2: { split; [|discriminate]. intros _. exists f. split; [apply ne_given; left; reflexivity|]. intros [d [r [E1 E2]]]. congruence. }
    destruct (IH (locs root)) as [H1 H2]. destruct (read_files k true (locs root)) as [d| | |]; cbn [andthen].
    - destruct (IHf (acc ++ d ++ [b])%list) as [G1 G2]. split; [|exact G2]. intros E. destruct (G1 E) as [g [N R]]. exists g. split; [|exact R].
      clear - N. induction N as [g Hg|g h Hg IH U]; [apply ne_given; right; exact Hg|exact (ne_used D fs tree _ _ _ IH U)].
    - split; [|discriminate]. intros _. destruct (H1 eq_refl) as [g [N R]]. exists g. split; [|exact R]. clear - N Ef Et. induction N as [g Hg|g h Hg IH U]; [|exact (ne_used D fs tree _ _ _ IH U)].
      apply (ne_used D fs tree _ f); [apply ne_given; left; reflexivity|]. apply (uses_locs f b root g Ef Et). exact Hg.
    - congruence.
    - split; discriminate.
  Qed.
  Lemma read_ends : forall f, Acc uses f -> exists K, forall k data, K <= k -> step k data f <> Loops.
  Proof.
    induction 1 as [f _ IH]. destruct (fs f) as [b|] eqn:Ef; [destruct (tree b) as [root|] eqn:Et|].
    2,3: exists 0; intros k data _; unfold step; rewrite ?Ef, ?Et; discriminate.
    assert (forall files, (forall g, In g files -> uses g f) -> exists K, forall k acc, K <= k -> foldr (step k) acc files <> Loops) as G.
    { induction files as [|g files IHf]; intros H; [exists 0; intros k acc _; discriminate|]. destruct (IH g (H g (or_introl eq_refl))) as [K1 G1]. destruct (IHf (fun x Hx => H x (or_intror Hx))) as [K2 G2].
      exists (max K1 K2). intros k acc L. cbn [foldr]. specialize (G1 k acc ltac:(lia)). destruct (step k acc g) as [d| | |]; cbn [andthen]; try congruence; try discriminate. apply G2. lia. }
    destruct (G (locs root) (fun g H => proj2 (uses_locs f b root g Ef Et) H)) as [K GK]. exists (S K). intros k data L. unfold step. rewrite Ef, Et. destruct k as [|k]; [lia|].
    rewrite read_step. specialize (GK k [] ltac:(lia)). destruct (foldr (step k) [] (locs root)); cbn [andthen]; congruence.
  Qed.
  Theorem read_returns files : (forall f, In f files -> Acc uses f) -> exists K, forall k, K <= k ->
    ((forall f, needed files f -> readable f) -> exists l, read_files k true files = Ret l) /\
    ((exists f, needed files f /\ ~ readable f) -> read_files k true files = Fail).
  Proof.
    intros A. assert (exists K, forall k acc, K <= k -> foldr (step k) acc files <> Loops) as [K G].
    { clear - A. induction files as [|f files IH]; [exists 0; intros k acc _; discriminate|]. destruct (read_ends f (A f (or_introl eq_refl))) as [K1 G1]. destruct (IH (fun x Hx => A x (or_intror Hx))) as [K2 G2].
      exists (max K1 K2). intros k acc L. cbn [foldr]. specialize (G1 k acc ltac:(lia)). destruct (step k acc f) as [d| | |]; cbn [andthen]; try congruence; try discriminate. apply G2. lia. }
    exists (S K). intros k L. destruct (read_fails k files) as [F P]. assert (read_files k true files <> Loops) as NL by (destruct k as [|k]; [lia|]; rewrite read_step; apply G; lia). split.
    - intros R. destruct (read_files k true files) as [l| | |] eqn:E; [eauto| |congruence|congruence]. exfalso. destruct (F eq_refl) as [f [N Nr]]. exact (Nr (R f N)).
    - intros [f [N Nr]]. destruct (read_files k true files) as [l| | |] eqn:E; [|reflexivity|congruence|congruence]. exfalso. destruct (read_spec _ _ _ E) as [_ [_ [R _]]]. exact (Nr (R f N)).
  Qed.
  Notation cyclic := (cyclic D fs tree).
  Lemma cyclic_acc f : Acc uses f -> ~ cyclic f f.
  Proof.
    induction 1 as [f _ IH]. intros C. assert (forall h, cyclic f h -> exists g, uses g f /\ (g = h \/ cyclic g h)) as H.
    { clear. induction 1 as [g U|g h C' IH U2]; [exists g; split; [exact U|left; reflexivity]|]. destruct IH as [x [U [->|C2]]].
      - exists g. split; [exact U|]. right. apply cy_one. exact U2.
      - exists x. split; [exact U|]. right. exact (cy_more D fs tree _ _ _ C2 U2). }
    destruct (H f C) as [g [U [->|C2]]]; [apply (IH f U), C|]. apply (IH g U). eapply cy_more; [exact C2|exact U].
  Qed.
  Theorem read_cycle files f : (forall g, needed files g -> readable g) -> needed files f -> cyclic f f -> forall k, read_files k true files = Loops.
  Proof.
    intros R N C k. destruct (read_fails k files) as [F P]. destruct (read_files k true files) as [l| | |] eqn:E; [| |congruence|reflexivity].
    - exfalso. destruct (read_spec _ _ _ E) as [_ [_ [_ A]]]. apply (cyclic_acc f); [|exact C]. clear - A N. induction N as [f H|f g H IH U]; [exact (A f H)|exact (Acc_inv IH U)].
    - exfalso. destruct (F eq_refl) as [g [Ng Rg]]. exact (Rg (R g Ng)).
  Qed.
  Theorem read_plain k files : read_files (S k) false files = match mapo fs files with Some l => Ret l | None => Fail end.
  Proof.
    cbn [FilesModel.read_files]. assert (forall files acc, foldr (fun data f => match fs f with None => Fail | Some b => Ret (data ++ [b])%list end) acc files =
      match mapo fs files with Some l => Ret (acc ++ l)%list | None => Fail end) as G.
    { clear files. induction files as [|f files IH]; intros acc; cbn [foldr mapo]; [rewrite app_nil_r; reflexivity|]. destruct (fs f) as [b|]; [|reflexivity]. cbn [andthen]. rewrite IH.
      destruct (mapo fs files); [rewrite <- app_assoc; reflexivity|reflexivity]. }
    rewrite (G files []). reflexivity.
  Qed.
End Files.
