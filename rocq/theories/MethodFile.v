(* The methods and functions of a file: the file as a whole. *)
From Coq Require Import Sorted.
From Verif Require Import Base SortLib ScopeModel TreeModel EqualModel BuiltinModel CodecModel XsdModel TypesModel TypesProofs GraphModel GenModel SgModel SgStruct SgProofs SgNames SgTags SgDecl SgFlat SliceModel SliceExamples SgGen SgGenSpec SgGenCode SgGenClosed MethodModel MethodSpec MethodProofs.
Local Open Scope string_scope.

(* ---------- one declaration ---------- *)
Record fine (helpers : list Z) (st : store) (s : spec) : Prop := mkFine {
  fn_own : forall g, In g (methods_of st s) -> fn_recv g = Some (sp_name s);
  fn_once : (sp_overrides s <> [] -> sp_struct s <> None) -> NoDup (map fn_name (methods_of st s));
  fn_called : forall g x, In g (methods_of st s) -> In x (fn_calls g) -> In x (helper_funcs s);
  fn_asked : forall g t m, In g (methods_of st s) -> In (t, m) (fn_methods g) ->
    (t = sp_name s /\ In m (map fn_name (methods_of st s))) \/ exists b, In b (sp_helpers s) /\ memb b helpers = true /\ t = helper_name b /\ (m = "UnmarshalText" \/ m = "MarshalText");
  fn_named : forall g x, In g (methods_of st s) -> In x (fn_types g) -> x = sp_name s \/ (exists b, In b (sp_helpers s) /\ memb b helpers = true /\ x = helper_name b) \/ exists e, x = expr_text e /\ In (expr_id e) (spec_ids s);
  fn_needed : forall x, In x (helper_funcs s) -> In x standard_funcs /\ exists g, In g (methods_of st s) /\ In x (fn_calls g);
  fn_aliased : forall g x, In g (methods_of st s) -> fn_alias g = Some x -> x = sp_name s;
  fn_laid : forall g fs, In g (methods_of st s) -> sp_struct s = Some fs -> fn_overlay g = [] \/ exists l, fn_overlay g = "T" :: l /\ subseq l (map sf_name fs) }.
Ltac each H := repeat (destruct H as [<-|H]); [..|destruct H].
Lemma fine_helper helpers st b : fine helpers st (helper_spec b).
Proof.
  assert (M : methods_of st (helper_spec b) = helper_methods b) by reflexivity. assert (F : helper_funcs (helper_spec b) = if time_type b then ["_unmarshalTime"; "_marshalTime"] else []) by reflexivity.
  assert (N : sp_name (helper_spec b) = helper_name b) by reflexivity. split; rewrite ?M, ?F, ?N; unfold helper_methods; destruct (time_type b).
  1-2: intros g H; cbn [In] in H; intuition (subst g; reflexivity).
  1-2: intros _; cbn [map fn_name]; repeat (constructor; [cbn [In]; intuition discriminate|]); constructor.
  - intros g x H Hx. cbn [In] in *. intuition (subst g; cbn [fn_calls In] in Hx; intuition (subst; auto)).
  - intros g x H Hx. cbn [In] in *. intuition (subst g; cbn [fn_calls In] in Hx; intuition).
  - intros g t m H Hx. left. cbn [In map fn_name] in *. intuition (subst g; cbn [fn_methods In] in Hx; intuition congruence).
  - intros g t m H Hx. cbn [In] in *. intuition (subst g; cbn [fn_methods In] in Hx; intuition).
  - intros g x H Hx. left. cbn [In] in *. intuition (subst g; cbn [fn_types In] in Hx; intuition).
  - intros g x H Hx. left. cbn [In] in *. intuition (subst g; cbn [fn_types In] in Hx; intuition).
  - intros x Hx. split; [exact Hx|]. destruct Hx as [<-|[<-|[]]]; eexists; (split; [|]); [left; reflexivity|left; reflexivity|right; left; reflexivity|left; reflexivity].
  - intros x [].
  - intros g x H Hx. cbn [In] in *. intuition (subst g; discriminate).
  - intros g x H Hx. cbn [In] in *. intuition (subst g; discriminate).
  - intros g fs H Hx. discriminate.
  - intros g fs H Hx. discriminate.
Qed.
Lemma subseq_filter {A} (f : A -> bool) l : subseq (filter f l) l.
Proof. induction l as [|a l IH]; [apply sub_nil|]. cbn [filter]. destruct (f a); [apply sub_keep, IH|apply sub_skip, IH]. Qed.
Lemma subseq_trans {A} (l m : list A) : subseq l m -> forall n, subseq m n -> subseq l n.
Proof.
  intros H n K. revert l H. induction K as [|x m n K IH|x m n K IH]; intros l H; [exact H|apply sub_skip, IH, H|]. inversion H; subst; [apply sub_skip, IH; assumption|apply sub_keep, IH; assumption].
Qed.
Lemma subseq_map {A B} (f : A -> B) l m : subseq l m -> subseq (map f l) (map f m).
Proof. induction 1; cbn [map]; [apply sub_nil|apply sub_skip|apply sub_keep]; assumption. Qed.
Lemma subseq_nodup {A} (l m : list A) : subseq l m -> NoDup m -> NoDup l.
Proof. induction 1 as [|x l m H IH|x l m H IH]; intros N; [constructor| |]; inversion N; subst; auto. constructor; auto. intros X. apply (subseq_in _ _ H) in X. contradiction. Qed.
Lemma overlay_in s g : In g (overlay_methods s) -> exists nm os, g = overlay_method s nm os /\ incl os (sp_overrides s) /\ subseq os (sp_overrides s).
Proof.
  unfold overlay_methods. destruct (sp_overrides s) as [|o os]; [intros []|]. intros H. apply in_app_or in H as [H|[<-|[]]].
  - destruct (filter _ (o :: os)) as [|o' os'] eqn:F; [destruct H|]. destruct H as [<-|[]]. exists "MarshalXML", (o' :: os'). split; [reflexivity|]. rewrite <- F. split; [intros x Hx; apply filter_In in Hx; apply Hx|apply subseq_filter].
  - exists "UnmarshalXML", (o :: os). split; [reflexivity|]. split; [apply incl_refl|]. clear. induction (o :: os); [apply sub_nil|apply sub_keep; assumption].
Qed.
Lemma fine_made helpers slices st s : made helpers slices st s -> fine helpers st s.
Proof.
  intros [(s0 & B & P)|(b & -> & _)]; [|apply fine_helper]. destruct (post_same _ _ _ _ P) as (Pn & Pt & Po & Ph).
  destruct B as [i d H1 H2 H3 H4 H5|i d H1 H2 H3 H6 H4 H5|i c fs H1 H2 H3 H4 H5 H6 H7].
  - assert (M : methods_of st s = list_methods s) by (unfold methods_of; rewrite Pt, H1, H2, H3; reflexivity). assert (F : helper_funcs s = []) by (unfold helper_funcs; rewrite Pt, H1; reflexivity).
    split; rewrite ?M, ?F; unfold list_methods.
    + intros g H; cbn [In] in H; intuition (subst g; reflexivity).
    + intros _; cbn [map fn_name]; repeat (constructor; [cbn [In]; intuition discriminate|]); constructor.
    + intros g x H Hx. cbn [In] in *. intuition (subst g; cbn [fn_calls In] in Hx; intuition).
    + intros g t m H Hx. cbn [In] in *. intuition (subst g; cbn [fn_methods In] in Hx; intuition).
    + intros g x H Hx. left. cbn [In] in *. intuition (subst g; cbn [fn_types In] in Hx; intuition).
    + intros x [].
    + intros g x H Hx. cbn [In] in *. intuition (subst g; discriminate).
    + intros g fs H Hx. left. cbn [In] in *. intuition (subst g; reflexivity).
  - assert (M : methods_of st s = match sp_helpers s with b :: _ => text_methods s b | [] => [] end) by (unfold methods_of; rewrite Pt, H1, H2, H3; reflexivity). assert (F : helper_funcs s = []) by (unfold helper_funcs; rewrite Pt, H1; reflexivity).
    destruct H5 as [H5|(b & H5 & H7 & _)]; rewrite Ph, H5 in M; split; rewrite ?M, ?F.
    + intros g [].
    + intros _. constructor.
    + intros g x [].
    + intros g t m [].
    + intros g x [].
    + intros x [].
    + intros g x [].
    + intros g fs [].
    + unfold text_methods. intros g H; cbn [In] in H; intuition (subst g; reflexivity).
    + unfold text_methods. intros _; cbn [map fn_name]; repeat (constructor; [cbn [In]; intuition discriminate|]); constructor.
    + unfold text_methods. intros g x H Hx. cbn [In] in *. intuition (subst g; cbn [fn_calls In] in Hx; intuition).
    + unfold text_methods. intros g t m H Hx. right. exists b. rewrite Ph, H5. split; [left; reflexivity|]. split; [exact H7|]. cbn [In] in *. intuition (subst g; cbn [fn_methods In] in Hx; intuition congruence).
    + unfold text_methods. intros g x H Hx. cbn [In] in H. assert (X : x = sp_name s \/ x = helper_name b) by (intuition (subst g; cbn [fn_types In] in Hx; intuition)). destruct X as [X|X]; [left; exact X|right; left]. exists b. rewrite Ph, H5. split; [left; reflexivity|auto].
    + intros x [].
    + unfold text_methods. intros g x H Hx. cbn [In] in *. intuition (subst g; discriminate).
    + unfold text_methods. intros g fs H Hx. left. cbn [In] in *. intuition (subst g; reflexivity).
  - assert (F : helper_funcs s = []) by (unfold helper_funcs; rewrite Pt, H1; reflexivity).
    assert (M : methods_of st s = (overlay_methods s ++ match sp_struct s with None => slice_methods s | Some _ => [] end)%list) by (unfold methods_of; rewrite Pt, H1, H2; reflexivity).
    assert (S : s = s0 \/ exists f e, fs = [f] /\ sf_expr f = EArr e /\ sp_struct s = None /\ sp_expr s = Some (EArr e)).
    { unfold SgGen.post in P. destruct slices; [|left; congruence]. unfold sliced in P. destruct (to_slice st s0) as [[sl|]| | |] eqn:T; cbn [andthen] in P; try discriminate; [|left; congruence]. right. injection P as <-.
      destruct (slice_shape _ _ _ T) as (_ & f & i' & c' & w & T1 & T2 & _). exists f, (sl_item sl). split; [congruence|]. split; [exact T2|]. split; reflexivity. }
    assert (I : forall e f, In f fs -> expr_id e = expr_id (sf_expr f) -> In (expr_id e) (spec_ids s)).
    { intros e f Hf He. unfold spec_ids. destruct S as [->|(f' & e' & -> & S2 & S3 & S4)]; [rewrite H3; apply in_or_app; left; rewrite He; exact (in_map (fun f => expr_id (sf_expr f)) _ _ Hf)|].
      rewrite S3, S4. destruct Hf as [<-|[]]. left. rewrite He, S2. reflexivity. }
    assert (G : forall g, In g (methods_of st s) -> (exists nm os, g = overlay_method s nm os /\ incl os (sp_overrides s) /\ subseq os (sp_overrides s)) \/ (sp_struct s = None /\ In g (slice_methods s))).
    { intros g. rewrite M. intros H. apply in_app_or in H as [H|H]; [left; apply overlay_in, H|]. destruct (sp_struct s); [destruct H|right; auto]. }
    split; rewrite ?F.
    + intros g H. apply G in H as [(nm & os & -> & _)|[_ H]]; [reflexivity|]. unfold slice_methods in H. cbn [In] in H. intuition (subst g; reflexivity).
    + intros N. rewrite M. unfold overlay_methods in *. destruct (sp_overrides s) as [|o os].
      * destruct (sp_struct s); [constructor|]. cbn [app map fn_name slice_methods]. repeat (constructor; [cbn [In]; intuition discriminate|]); constructor.
      * destruct (sp_struct s); [|destruct (N ltac:(discriminate)); reflexivity]. rewrite app_nil_r. destruct (filter _ (o :: os)); cbn [app map fn_name overlay_method]; repeat (constructor; [cbn [In]; intuition discriminate|]); constructor.
    + intros g x H Hx. apply G in H as [(nm & os & -> & _)|[_ H]]; [destruct Hx|]. unfold slice_methods in H. cbn [In] in H. destruct H as [<-|[<-|[]]]; destruct Hx.
    + intros g t m H Hx. apply G in H as [(nm & os & -> & _)|[_ H]]; [destruct Hx|]. unfold slice_methods in H. cbn [In] in H. destruct H as [<-|[<-|[]]]; destruct Hx.
    + intros g x H Hx. apply G in H as [(nm & os & -> & Hi & _)|[Hs H]].
      * destruct Hx as [<-|Hx]; [left; reflexivity|]. apply in_map_iff in Hx as (o & <- & Ho). apply Hi in Ho. rewrite Po in Ho. destruct (H6 o Ho) as [(e & f & E1 & E2 & E3) [E4|(b & E4 & E5)]].
        -- right. right. exists e. split; [congruence|]. exact (I e f E1 E3).
        -- right. left. exists b. rewrite Ph. split; [exact E4|]. split; [apply H7, E4|exact E5].
      * destruct S as [->|(f' & e' & -> & S2 & S3 & S4)]; [congruence|]. unfold slice_methods in H. rewrite S4 in H. cbn [In] in H.
        assert (X : x = sp_name s \/ x = expr_text e') by (intuition (subst g; cbn [fn_types In] in Hx; intuition)). destruct X as [X|X]; [left; exact X|right; right]. exists e'. split; [exact X|]. unfold spec_ids. rewrite S3, S4. left. reflexivity.
    + intros x [].
    + intros g x H Hx. apply G in H as [(nm & os & -> & _)|[_ H]]; [cbn [fn_alias overlay_method] in Hx; congruence|]. unfold slice_methods in H. cbn [In] in H. destruct H as [<-|[<-|[]]]; discriminate.
    + intros g fs0 H Hs. destruct S as [->|(f' & e' & -> & S2 & S3 & S4)]; [|congruence]. assert (fs0 = fs) by congruence. subst fs0. apply G in H as [(nm & os & -> & _ & Hq)|[Hn _]]; [|congruence]. right. exists (map ov_field os). split; [reflexivity|].
      exact (subseq_trans _ _ (subseq_map ov_field _ _ Hq) _ H5).
Qed.

(* ---------- the file ---------- *)
Lemma take_spec deps : forall avail got left, take avail deps = (got, left) -> NoDup avail -> NoDup got /\ NoDup left /\ incl got deps /\
  (forall x, In x avail <-> In x got \/ In x left) /\ (forall x, In x got -> ~ In x left) /\ forall x, In x deps -> ~ In x left.
Proof.
  induction deps as [|d deps IH]; intros avail got left; cbn [take].
  - intros [= <- <-] N. split; [constructor|]. split; [exact N|]. split; [intros x []|]. split; [intros x; cbn [In]; tauto|]. split; intros x [].
  - destruct (mem_str d avail) eqn:E.
    + destruct (take (filter (fun x => negb (String.eqb x d)) avail) deps) as [g l] eqn:T. intros [= <- <-] N. destruct (IH _ _ _ T (NoDup_filter _ N)) as (I1 & I2 & I3 & I4 & I5 & I6). apply mem_str_in in E.
      assert (D : ~ In d g /\ ~ In d l). { assert (X : ~ In d (filter (fun x => negb (String.eqb x d)) avail)) by (intros X; apply filter_In in X as [_ X]; rewrite String.eqb_refl in X; discriminate). rewrite I4 in X. tauto. }
      split; [constructor; [apply D|exact I1]|]. split; [exact I2|]. split; [intros x [<-|H]; [left; reflexivity|right; apply I3, H]|]. split; [|split].
      * intros x. specialize (I4 x). rewrite filter_In in I4. cbn [In]. destruct (string_dec x d) as [Ex|Nx]; [subst d; tauto|]. rewrite (proj2 (String.eqb_neq x d) Nx) in I4. cbn [negb] in I4. intuition congruence.
      * intros x [<-|H]; [apply D|apply I5, H].
      * intros x [<-|H]; [apply D|apply I6, H].
    + intros T N. destruct (IH _ _ _ T N) as (I1 & I2 & I3 & I4 & I5 & I6). split; [exact I1|]. split; [exact I2|]. split; [intros x H; right; apply I3, H|]. split; [exact I4|]. split; [exact I5|].
      intros x [<-|H]; [|apply I6, H]. apply mem_str_out in E. intros X. apply E, I4. right. exact X.
Qed.
Lemma blocks_in st l : forall avail n s fs, In (n, s, fs) (blocks st avail l) -> NoDup avail -> In (n, s) l /\ exists got, fs = (methods_of st s ++ map plain_func got)%list /\ incl got (helper_funcs s) /\ incl got avail.
Proof.
  induction l as [|[n0 s0] l IH]; intros avail n s fs; cbn [blocks]; [intros []|]. destruct (take avail (helper_funcs s0)) as [got left] eqn:T. intros H N. destruct (take_spec _ _ _ _ T N) as (T1 & T2 & T3 & T4 & T5 & T6).
  destruct H as [[= <- <- <-]|H].
  - split; [left; reflexivity|]. exists got. split; [reflexivity|]. split; [exact T3|]. intros x Hx. apply T4. left. exact Hx.
  - destruct (IH _ _ _ _ H T2) as (I1 & got' & I2 & I3 & I4). split; [right; exact I1|]. exists got'. split; [exact I2|]. split; [exact I3|]. intros x Hx. apply T4. right. apply I4, Hx.
Qed.
Lemma blocks_fst st l : forall avail, map fst (blocks st avail l) = l.
Proof. induction l as [|[n s] l IH]; intros avail; cbn [blocks]; [reflexivity|]. destruct (take avail (helper_funcs s)) as [got left]. cbn [map fst]. rewrite IH. reflexivity. Qed.
Lemma blocks_methods st l avail n s : In (n, s) l -> incl (methods_of st s) (funcs (blocks st avail l)).
Proof.
  intros H g Hg. unfold funcs. apply in_flat_map. revert avail. induction l as [|[n0 s0] l IH]; intros avail; [destruct H|]. cbn [blocks]. destruct (take avail (helper_funcs s0)) as [got left]. destruct H as [[= -> ->]|H].
  - eexists. split; [left; reflexivity|]. apply in_or_app. left. exact Hg.
  - destruct (IH H left) as (b & B1 & B2). exists b. split; [right; exact B1|exact B2].
Qed.
Lemma blocks_funcs st l : forall avail x n s, NoDup avail -> In x avail -> In (n, s) l -> In x (helper_funcs s) -> In (plain_func x) (funcs (blocks st avail l)).
Proof.
  unfold funcs. induction l as [|[n0 s0] l IH]; intros avail x n s N Hx H Hs; [destruct H|]. cbn [blocks]. destruct (take avail (helper_funcs s0)) as [got left] eqn:T. destruct (take_spec _ _ _ _ T N) as (T1 & T2 & T3 & T4 & T5 & T6).
  cbn [flat_map snd]. apply in_or_app. destruct (in_dec string_dec x got) as [G|G]; [left; apply in_or_app; right; apply in_map, G|]. right. assert (L : In x left) by (apply T4 in Hx; tauto).
  destruct H as [[= -> ->]|H]; [destruct (T6 _ Hs L)|]. exact (IH _ _ _ _ T2 L H Hs).
Qed.
Definition key (g : func) : option string * string := (fn_recv g, fn_name g).
Lemma blocks_keys st l : forall avail k, NoDup avail -> (forall n s g, In (n, s) l -> In g (methods_of st s) -> fn_recv g = Some n) ->
  In k (map key (funcs (blocks st avail l))) -> (exists n, fst k = Some n /\ In n (map fst l)) \/ (fst k = None /\ In (snd k) avail).
Proof.
  intros avail k N O H. apply in_map_iff in H as (g & <- & H). unfold funcs in H. apply in_flat_map in H as ([[n s] fs] & B & Hg). destruct (blocks_in _ _ _ _ _ _ B N) as (I1 & got & I2 & I3 & I4). cbn [snd] in Hg. rewrite I2 in Hg. apply in_app_or in Hg as [Hg|Hg].
  - left. exists n. split; [exact (O _ _ _ I1 Hg)|apply (in_map fst) in I1; exact I1].
  - right. apply in_map_iff in Hg as (x & <- & Hx). split; [reflexivity|apply I4, Hx].
Qed.
Lemma nodup_app {A} (l m : list A) : NoDup l -> NoDup m -> (forall x, In x l -> ~ In x m) -> NoDup (l ++ m)%list.
Proof. induction 1 as [|a l Ha N IH]; intros M D; [exact M|]. cbn [app]. constructor; [intros X; apply in_app_or in X as [X|X]; [contradiction|exact (D a (or_introl eq_refl) X)]|]. apply IH; auto. intros x Hx. apply D. right. exact Hx. Qed.
Lemma map_key_nodup (l : list func) : NoDup (map fn_name l) -> NoDup (map key l).
Proof. intros N. apply (NoDup_map_inv snd). rewrite map_map. exact N. Qed.
Lemma blocks_nodup st l : forall avail, NoDup avail -> NoDup (map fst l) -> (forall n s g, In (n, s) l -> In g (methods_of st s) -> fn_recv g = Some n) ->
  (forall n s, In (n, s) l -> NoDup (map fn_name (methods_of st s))) -> NoDup (map key (funcs (blocks st avail l))).
Proof.
  induction l as [|[n s] l IH]; intros avail N K O D; cbn [blocks]; [constructor|]. destruct (take avail (helper_funcs s)) as [got left] eqn:T. destruct (take_spec _ _ _ _ T N) as (T1 & T2 & T3 & T4 & T5 & T6). cbn [map fst] in K. inversion K as [|? ? Kn K']; subst.
  assert (O' : forall n s g, In (n, s) l -> In g (methods_of st s) -> fn_recv g = Some n) by (intros n' s' g H; apply (O n' s' g); right; exact H).
  unfold funcs. cbn [flat_map snd]. fold (funcs (blocks st left l)). rewrite !map_app. apply nodup_app; [apply nodup_app|apply IH; auto; intros n' s' H; apply (D n' s'); right; exact H|].
  - apply map_key_nodup, (D n s). left. reflexivity.
  - apply map_key_nodup. rewrite map_map. cbn [plain_func fn_name]. rewrite map_id. exact T1.
  - intros k H1 H2. apply in_map_iff in H1 as (g & <- & Hg). apply in_map_iff in H2 as (g' & E & Hg'). apply in_map_iff in Hg' as (x & <- & _). unfold key in E. rewrite (O n s g (or_introl eq_refl) Hg) in E. discriminate.
  - intros k H1 H2. apply (blocks_keys st l left k T2 O') in H2. apply in_app_or in H1 as [H1|H1]; apply in_map_iff in H1 as (g & <- & Hg).
    + unfold key in H2. rewrite (O n s g (or_introl eq_refl) Hg) in H2. cbn [fst] in H2. destruct H2 as [(n' & [= <-] & X)|[X _]]; [contradiction|discriminate].
    + apply in_map_iff in Hg as (x & <- & Hx). destruct H2 as [(n' & X & _)|[_ X]]; [discriminate|]. exact (T5 x Hx X).
Qed.
Lemma standard_nodup : NoDup standard_funcs.
Proof. repeat (constructor; [cbn [In]; intuition discriminate|]). constructor. Qed.

Section File.
  Variable public : xname -> string.
  Variable fa : option (attribute -> bool).
  Variable fe : option (element -> bool).
  Variable ft : option (xname -> bool).
  Variable allow : option (list xname).
  Variable helpers : list Z.
  Variables (slices : bool) (st : store) (schemas : list (list ty)) (c : code) (sort : list string -> list string).
  Hypothesis G : gen public fa fe ft allow helpers slices st schemas = Ret (inr c).
  Hypothesis So : sorts_strings sort.

  Lemma sget_unique {V} (m : list (string * V)) n v : NoDup (map fst m) -> (sget n m = Some v <-> In (n, v) m).
  Proof.
    intros N. split; [apply sget_in|]. induction m as [|[k w] m IH]; [intros []|]. cbn [map fst sget] in *. inversion N; subst. intros [[= -> ->]|H]; [rewrite String.eqb_refl; reflexivity|]. destruct (String.eqb k n) eqn:E; [|apply IH; auto].
    apply String.eqb_eq in E as ->. apply (in_map fst) in H. contradiction.
  Qed.
  Let l := gen_ast sort (co_decls c).
  Lemma file_decls n s : In (n, s) l <-> In (n, s) (co_decls c).
  Proof. unfold l. rewrite (gen_ast_in sort _ So). destruct (gen_made _ _ _ _ _ _ _ _ _ _ G) as (N & _). apply sget_unique, N. Qed.
  Lemma file_names : NoDup (map fst l) /\ Sorted le_str (map fst l) /\ forall n, In n (map fst l) <-> In n (map fst (co_decls c)).
  Proof.
    unfold l. rewrite (gen_ast_fst sort _ So). destruct (So (map fst (co_decls c))) as [P S]. destruct (gen_made _ _ _ _ _ _ _ _ _ _ G) as (N & _). split; [exact (Permutation_NoDup P N)|]. split; [exact S|]. intros n. split; intros H; [exact (Permutation_in n (Permutation_sym P) H)|exact (Permutation_in n P H)].
  Qed.
  Lemma decl_fine n s : In (n, s) l -> n = sp_name s /\ fine helpers (co_store c) s.
  Proof. intros H. apply file_decls in H. destruct (gen_made _ _ _ _ _ _ _ _ _ _ G) as (_ & M & _). destruct (M _ _ H) as [E K]. split; [exact E|]. exact (fine_made _ _ _ _ K). Qed.
  Lemma owned n s g : In (n, s) l -> In g (methods_of (co_store c) s) -> fn_recv g = Some n.
  Proof. intros H Hg. destruct (decl_fine n s H) as [-> F]. exact (fn_own _ _ _ F g Hg). Qed.
  Lemma file_in n s fs : In (n, s, fs) (file sort c) -> In (n, s) l /\ exists got, fs = (methods_of (co_store c) s ++ map plain_func got)%list /\ incl got (helper_funcs s).
  Proof. intros H. destruct (blocks_in _ _ _ _ _ _ H standard_nodup) as (H1 & got & H2 & H3 & _). eauto. Qed.
  Lemma func_in g : In g (funcs (file sort c)) -> (exists n s, In (n, s) l /\ In g (methods_of (co_store c) s)) \/ exists n s x, In (n, s) l /\ In x (helper_funcs s) /\ g = plain_func x.
  Proof.
    intros H. unfold funcs in H. apply in_flat_map in H as ([[n s] fs] & B & Hg). destruct (file_in _ _ _ B) as (H1 & got & -> & H2). cbn [snd] in Hg. apply in_app_or in Hg as [Hg|Hg]; [left; eauto|right]. apply in_map_iff in Hg as (x & <- & Hx). exists n, s, x. auto.
  Qed.
  Lemma file_types : types_in (file sort c) = map fst l.
  Proof. unfold types_in, file. fold l. rewrite <- (map_map fst fst). rewrite blocks_fst. reflexivity. Qed.
  Theorem file_placed : placed (file sort c).
  Proof.
    intros n s fs g H Hg. destruct (file_in _ _ _ H) as (H1 & got & -> & _). apply in_app_or in Hg as [Hg|Hg]; [left; exact (owned _ _ _ H1 Hg)|right]. apply in_map_iff in Hg as (x & <- & _). reflexivity.
  Qed.
  Theorem file_distinct : (forall n s, In (n, s) (co_decls c) -> sp_overrides s <> [] -> sp_struct s <> None) -> distinct_funcs (file sort c).
  Proof.
    intros H. apply (blocks_nodup (co_store c) l standard_funcs standard_nodup).
    - apply file_names.
    - exact owned.
    - intros n s Hn. destruct (decl_fine _ _ Hn) as [_ F]. apply (fn_once _ _ _ F). apply (H n s), file_decls, Hn.
  Qed.
  Theorem file_calls : calls_resolved (file sort c).
  Proof.
    intros g Hg. apply func_in in Hg as [(n & s & H & Hg)|(n & s & x & H & Hx & ->)]; [|split; [intros y []|intros t m []]]. destruct (decl_fine _ _ H) as [E F]. split.
    - intros x Hx. pose proof (fn_called _ _ _ F g x Hg Hx) as K. destruct (fn_needed _ _ _ F x K) as [K1 _]. exists (plain_func x). split; [exact (blocks_funcs _ _ _ _ _ _ standard_nodup K1 H K)|]. split; reflexivity.
    - intros t m Hm. destruct (fn_asked _ _ _ F g t m Hg Hm) as [[-> X]|(b & B1 & B2 & -> & B3)].
      + apply in_map_iff in X as (g' & <- & Hg'). exists g'. split; [exact (blocks_methods _ _ _ _ _ H g' Hg')|]. split; [exact (fn_own _ _ _ F g' Hg')|reflexivity].
      + destruct (gen_made _ _ _ _ _ _ _ _ _ _ G) as (_ & _ & M). apply file_decls in H. destruct (M _ _ _ H B1 B2) as (b' & M1 & M2). apply file_decls in M2.
        assert (X : exists g', In g' (helper_methods b') /\ fn_name g' = m) by (unfold helper_methods; destruct (time_type b'); destruct B3 as [->| ->]; eexists; (split; [|]); [left; reflexivity|reflexivity|right; left; reflexivity|reflexivity|left; reflexivity|reflexivity|right; left; reflexivity|reflexivity]).
        destruct X as (g' & X1 & X2). exists g'. split; [exact (blocks_methods _ _ _ _ _ M2 g' X1)|]. split; [|exact X2]. exact (owned _ _ g' M2 X1).
  Qed.
  Theorem file_used : funcs_used (file sort c).
  Proof.
    intros g Hg Hn. apply func_in in Hg as [(n & s & H & Hg)|(n & s & x & H & Hx & ->)]; [rewrite (owned _ _ _ H Hg) in Hn; discriminate|]. destruct (decl_fine _ _ H) as [E F]. destruct (fn_needed _ _ _ F x Hx) as (_ & g' & X1 & X2). exists g'. split; [exact (blocks_methods _ _ _ _ _ H g' X1)|exact X2].
  Qed.
  Theorem file_types_resolved : closed_code (co_decls c) -> types_resolved (file sort c).
  Proof.
    intros C g x Hg Hx. rewrite file_types. destruct file_names as (_ & _ & K). apply func_in in Hg as [(n & s & H & Hg)|(n & s & y & _ & _ & ->)]; [|destruct Hx]. destruct (decl_fine _ _ H) as [E F].
    destruct (fn_named _ _ _ F g x Hg Hx) as [->|[(b & B1 & B2 & ->)|(e & -> & He)]].
    - exists (EId (sp_name s)). split; [reflexivity|]. right. cbn [expr_id]. rewrite <- E. apply (in_map fst) in H. exact H.
    - exists (EId (helper_name b)). split; [reflexivity|]. right. cbn [expr_id]. destruct (gen_made _ _ _ _ _ _ _ _ _ _ G) as (_ & _ & M). apply file_decls in H. destruct (M _ _ _ H B1 B2) as (b' & M1 & M2). apply K. apply (in_map fst) in M2. exact M2.
    - exists e. split; [reflexivity|]. apply file_decls in H. destruct (C _ _ H) as [C1 _]. destruct (C1 _ He) as [X|X]; [left; exact X|right; apply K, X].
  Qed.
  Theorem file_locals n s fs g ff : In (n, s, fs) (file sort c) -> In g fs -> sp_struct s = Some ff -> n <> "T" -> NoDup ("T" :: map sf_name ff) -> locals_ok g.
  Proof.
    intros H Hg Hs Nn D. destruct (file_in _ _ _ H) as (H1 & got & -> & _). apply in_app_or in Hg as [Hg|Hg]; [|apply in_map_iff in Hg as (x & <- & _); split; [discriminate|constructor]]. destruct (decl_fine _ _ H1) as [E F]. split.
    - intros x Hx. rewrite (fn_aliased _ _ _ F g x Hg Hx). congruence.
    - destruct (fn_laid _ _ _ F g ff Hg Hs) as [->|(l0 & -> & L)]; [constructor|]. apply (subseq_nodup _ _ (sub_keep "T" _ _ L)), D.
  Qed.
  Theorem file_covered : covered (co_store c) (file sort c).
  Proof.
    intros n s fs H. destruct (file_in _ _ _ H) as (H1 & got & -> & _). pose proof (proj1 (file_decls n s) H1) as Hd. destruct (gen_made _ _ _ _ _ _ _ _ _ _ G) as (_ & M & _). destruct (M _ _ Hd) as [E K]. clear M.
    destruct K as [(s0 & B & P)|(b & -> & _)]; [|split; [intros o []|intros i d b' m X; discriminate X]]. destruct (post_same _ _ _ _ P) as (Pn & Pt & Po & Ph). split.
    - intros o Ho. rewrite Po in Ho. destruct B as [i d B1 B2 B3 B4 B5|i d B1 B2 B3 B6 B4 B5|i k ff B1 B2 B3 B4 B5 B6 B7]; [rewrite B4 in Ho; destruct Ho|rewrite B4 in Ho; destruct Ho|]. rewrite <- Po in Ho.
      assert (W : incl (overlay_methods s) (methods_of (co_store c) s ++ map plain_func got)%list) by (intros g Hg; apply in_or_app; left; unfold methods_of; rewrite Pt, B1, B2; apply in_or_app; left; exact Hg). unfold overlay_methods in W. split.
      + exists (overlay_method s "UnmarshalXML" (sp_overrides s)). split; [apply W; destruct (sp_overrides s); [destruct Ho|apply in_or_app; right; left; reflexivity]|]. split; [cbn [overlay_method fn_recv]; rewrite E; reflexivity|]. split; [reflexivity|].
        split; right; apply in_map, Ho.
      + intros Nt. assert (Hf : In o (filter (fun o => non_trivial_ty (ov_type o)) (sp_overrides s))) by (apply filter_In; auto). exists (overlay_method s "MarshalXML" (filter (fun o => non_trivial_ty (ov_type o)) (sp_overrides s))).
        split; [apply W; destruct (sp_overrides s) as [|o1 os]; [destruct Ho|]; apply in_or_app; left; destruct (filter _ (o1 :: os)); [destruct Hf|left; reflexivity]|]. split; [cbn [overlay_method fn_recv]; rewrite E; reflexivity|]. split; [reflexivity|].
        split; right; apply in_map, Hf.
    - intros i d b m X1 X2 Hb Hm. destruct B as [j d' B1 B2 B3 B4 B5|j d' B1 B2 B3 B6 B4 B5|j k ff B1 B2 B3 B4 B5 B6 B7]; [rewrite Ph, B5 in Hb; destruct Hb| |congruence]. destruct B5 as [B5|(b' & B5 & _)]; rewrite Ph, B5 in Hb; [destruct Hb|]. destruct Hb as [->|[]].
      assert (W : incl (text_methods s b) (methods_of (co_store c) s ++ map plain_func got)%list) by (intros g Hg; apply in_or_app; left; unfold methods_of; rewrite Pt, B1, B2, B3, Ph, B5; exact Hg).
      destruct Hm as [->| ->].
      + eexists. split; [apply W; left; reflexivity|]. split; [cbn [fn_recv]; rewrite E; reflexivity|]. split; [reflexivity|left; reflexivity].
      + eexists. split; [apply W; right; left; reflexivity|]. split; [cbn [fn_recv]; rewrite E; reflexivity|]. split; [reflexivity|left; reflexivity].
  Qed.
  Lemma method_name n s g : In (n, s) l -> In g (methods_of (co_store c) s) -> In (fn_name g) method_names.
  Proof.
    intros _. unfold method_names, methods_of, overlay_methods, slice_methods, list_methods, text_methods, helper_methods. destruct (sp_type s) as [|b| |i]; [intros []| |intros []|].
    - destruct (time_type b); cbn [In]; intros H; intuition (subst g; cbn [fn_name]; tauto).
    - destruct (nth_error (co_store c) i) as [[k|d]|]; [| |intros []].
      + intros H. apply in_app_or in H as [H|H].
        * destruct (sp_overrides s) as [|o os]; [destruct H|]. apply in_app_or in H as [H|H]; [destruct (filter _ (o :: os)); [destruct H|]|]; destruct H as [<-|[]]; cbn; tauto.
        * destruct (sp_struct s); [destruct H|]. cbn [In] in *. intuition (subst g; cbn [fn_name]; tauto).
      + destruct (sd_list d); [|destruct (sp_helpers s)]; cbn [In]; intros H; intuition (subst g; cbn [fn_name]; tauto).
  Qed.
  Theorem file_apart : (forall n s ff fd, In (n, s) (co_decls c) -> sp_struct s = Some ff -> In fd ff -> ~ In (sf_name fd) method_names) -> fields_apart (file sort c).
  Proof.
    intros A n s fs ff g fd H Hs Hg Hr Hf X. destruct (file_in _ _ _ H) as (H1 & got & -> & _). apply (A n s ff fd (proj1 (file_decls n s) H1) Hs Hf). rewrite X. apply in_app_or in Hg as [Hg|Hg]; [exact (method_name n s g H1 Hg)|]. apply in_map_iff in Hg as (x & <- & _). discriminate.
  Qed.
  Lemma no_slices : slices = false -> forall n s, In (n, s) (co_decls c) -> sp_overrides s <> [] -> sp_struct s <> None.
  Proof.
    intros ->. intros n s H. destruct (gen_made _ _ _ _ _ _ _ _ _ _ G) as (_ & M & _). destruct (M _ _ H) as [_ [(s0 & B & P)|(b & -> & _)]]; [|intros X; destruct (X eq_refl)]. cbn [SgGen.post] in P. injection P as ->. destruct B; congruence.
  Qed.
  Lemma helper_time b : non_trivial b = true -> sp_expr (helper_spec b) = Some (EId "time.Time") -> time_type b = true.
  Proof.
    intros N E. unfold non_trivial in N. apply existsb_exists in N as (z & N & Ez). apply Z.eqb_eq in Ez as ->. cbn [In] in N. repeat (destruct N as [<-|N]; [vm_compute in E; first [reflexivity|discriminate]|]). destruct N.
  Qed.
  Theorem file_helpers : helpers_work (file sort c).
  Proof.
    intros n s fs b H Hb. destruct (file_in _ _ _ H) as (H1 & got & -> & _). pose proof (proj1 (file_decls n s) H1) as Hd. destruct (gen_made _ _ _ _ _ _ _ _ _ _ G) as (_ & M & _). destruct (M _ _ Hd) as [-> K]. clear M.
    destruct K as [(s0 & B & P)|(b' & -> & _ & Nt)]; [destruct (post_same _ _ _ _ P) as (_ & Pt & _); destruct B; congruence|]. injection Hb as ->.
    assert (W : incl (helper_methods b) (methods_of (co_store c) (helper_spec b) ++ map plain_func got)%list) by (intros g Hg; apply in_or_app; left; exact Hg). pose proof (helper_time b Nt) as Tt. unfold helper_methods in W. destruct (time_type b).
    - split; [eexists; split; [apply W; left; reflexivity|]; repeat split; intros _; left; reflexivity|]. split; [eexists; split; [apply W; right; left; reflexivity|]; repeat split; intros _; left; reflexivity|].
      intros _ m [->| ->]; [eexists; split; [apply W; right; right; left; reflexivity|repeat split; left; reflexivity]|eexists; split; [apply W; right; right; right; left; reflexivity|repeat split; left; reflexivity]].
    - split; [eexists; split; [apply W; left; reflexivity|]; repeat split; intros X; discriminate (Tt X)|]. split; [eexists; split; [apply W; right; left; reflexivity|]; repeat split; intros X; discriminate (Tt X)|]. intros X. discriminate (Tt X).
  Qed.
End File.
Lemma methods_file (public : xname -> string) fa fe ft allow helpers slices st schemas c sort : gen public fa fe ft allow helpers slices st schemas = Ret (inr c) -> sorts_strings sort ->
  placed (file sort c) /\ calls_resolved (file sort c) /\ funcs_used (file sort c) /\ covered (co_store c) (file sort c) /\
  types_in (file sort c) = map fst (gen_ast sort (co_decls c)) /\ (closed_code (co_decls c) -> types_resolved (file sort c)) /\
  ((slices = false \/ forall n s, In (n, s) (co_decls c) -> sp_struct s = None -> sp_overrides s = []) -> distinct_funcs (file sort c)).
Proof.
  intros G So. split; [exact (file_placed _ _ _ _ _ _ _ _ _ _ _ G So)|]. split; [exact (file_calls _ _ _ _ _ _ _ _ _ _ _ G So)|]. split; [exact (file_used _ _ _ _ _ _ _ _ _ _ _ G So)|]. split; [exact (file_covered _ _ _ _ _ _ _ _ _ _ _ G So)|].
  split; [apply file_types|]. split; [exact (file_types_resolved _ _ _ _ _ _ _ _ _ _ _ G So)|]. intros H. apply (file_distinct _ _ _ _ _ _ _ _ _ _ _ G So). destruct H as [H|H]; [exact (no_slices _ _ _ _ _ _ _ _ _ _ G H)|].
  intros n s Hn Ho Hs. exact (Ho (H n s Hn Hs)).
Qed.
Lemma methods_go (public : xname -> string) fa fe ft allow helpers slices st schemas c sort : gen public fa fe ft allow helpers slices st schemas = Ret (inr c) -> sorts_strings sort ->
  (forall n s fs g ff, In (n, s, fs) (file sort c) -> In g fs -> sp_struct s = Some ff -> n <> "T" -> NoDup ("T" :: map sf_name ff) -> locals_ok g) /\
  ((forall n s ff fd, In (n, s) (co_decls c) -> sp_struct s = Some ff -> In fd ff -> ~ In (sf_name fd) method_names) -> fields_apart (file sort c)).
Proof. intros G So. split; [exact (file_locals _ _ _ _ _ _ _ _ _ _ _ G So)|exact (file_apart _ _ _ _ _ _ _ _ _ _ _ G So)]. Qed.
