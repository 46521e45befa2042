(* Namespaces without a schema. *)
From Coq Require Import Permutation.
From Verif Require Import Base SortLib ScopeModel TreeModel EqualModel BuiltinModel CodecModel XsdModel TypesModel TypesSpec TypesOrder TypesExamples GraphModel GenModel SgModel SgStruct SgDecl SgExamples SgFlatSpec SgExpandSpec SliceModel SgGen SgGenSpec SgGenExamples PipeModel PipeSpec PipeProofs PipeParse PipeExamples.
Local Open Scope string_scope.

Section Missing.
  Variables (public : xname -> string) (fa : option (attribute -> bool)) (fe : option (element -> bool)) (ft : option (xname -> bool)) (allow : option (list xname)) (helpers : list Z) (slices : bool).
  Variables (h : xname -> nat) (l : list rd) (namespaces targets ns : list string).
  Hypothesis D : documents h l.
  Hypothesis Im : imports_first l.
  Hypothesis Ens : namespaces = [] /\ ns = targets \/ namespaces <> [] /\ ns = namespaces.
  Lemma missing_ones ord ord' : any_order ord -> NoDup ns -> (exists s, In s ns /\ s <> schemaNS /\ ~ In s (map rd_tns l)) ->
    exists m, gen_code public fa fe ft allow helpers slices ord ord' namespaces targets l = Ret (Missing m) /\ NoDup m /\ forall s, In s m <-> In s ns /\ s <> schemaNS /\ ~ In s (map rd_tns l).
  Proof.
    intros O Nn (s0 & H0 & Hb & Ha). destruct (documents_parse h l D Im ord O) as (st & parsed & E). unfold gen_code. rewrite E.
    assert (U : used_namespaces namespaces targets = ns) by (unfold used_namespaces; destruct Ens as [[E1 E2]|[E1 E2]]; [rewrite E1; auto|]; rewrite E2; destruct namespaces; [contradiction|reflexivity]).
    set (ch := chosen_schemas namespaces targets l parsed). rewrite U.
    assert (C : map fst ch = filter (fun s => mem_str s ns) (map rd_tns l ++ [schemaNS])%list).
    { unfold ch, chosen_schemas. rewrite U. assert (F : forall (m : list (string * types)), map fst (filter (fun d => mem_str (fst d) ns) m) = filter (fun s => mem_str s ns) (map fst m)).
      { induction m as [|d m IH]; cbn [filter map]; auto. destruct (mem_str (fst d) ns); cbn [map]; rewrite IH; reflexivity. }
      rewrite F. unfold deps. rewrite map_app, map_map. cbn [map fst]. reflexivity. }
    assert (M : forall s, mem_str s (map fst ch) = true <-> In s ns /\ (In s (map rd_tns l) \/ s = schemaNS)).
    { intros s. rewrite mem_str_in, C, filter_In, mem_str_in, in_app_iff. cbn [In]. intuition. }
    assert (Nd : NoDup (map fst ch)).
    { rewrite C. apply NoDup_filter. pose proof (dc_spaces h l D) as X. assert (Y : ~ In schemaNS (map rd_tns l)) by (intros H; apply in_map_iff in H; destruct H as (r & H & Hr); exact (proj1 (dc_own h l D r Hr) H)).
      revert X Y. generalize (map rd_tns l). induction l0 as [|a l0 IH]; intros X Y; cbn [app]; [constructor; auto; constructor|]. inversion X; subst. constructor; [|apply IH; auto; intros H; apply Y; right; auto].
      intros H. apply in_app_or in H. destruct H as [H|[<-|[]]]; [contradiction|]. apply Y. left. reflexivity. }
    assert (Lt : List.length ch < List.length ns).
    { rewrite <- (map_length fst ch). assert (X : List.length (s0 :: map fst ch) <= List.length ns); [|exact X]. apply NoDup_incl_length.
      - constructor; [|exact Nd]. intros H. apply mem_str_in in H. apply M in H. destruct H as (_ & [H|H]); contradiction.
      - intros s [<-|H]; [exact H0|]. apply mem_str_in, M in H. exact (proj1 H). }
    apply Nat.ltb_lt in Lt. rewrite Lt. exists (filter (fun n => negb (mem_str n (map fst ch))) ns). split; [reflexivity|]. split; [apply NoDup_filter, Nn|].
    intros s. rewrite filter_In, negb_true_iff. split.
    - intros (Hs & N). split; [exact Hs|]. split; intros X; (assert (Y : mem_str s (map fst ch) = true); [|congruence]); apply M; auto.
    - intros (Hs & X & Y). split; [exact Hs|]. destruct (mem_str s (map fst ch)) eqn:Z; auto. apply M in Z. destruct Z as (_ & [Z|Z]); contradiction.
  Qed.
End Missing.

(* a second document for the same namespace makes up for the one that is missing; a namespace given twice is missed although it is there *)
Definition far_more := Eval vm_compute in get (rd_of (schema_ "urn:b" [restricts_ "Other" "xs:anyType" [attribute_ "id" "xs:int"]])) (mkRd "" [] []).
Lemma masked : code_names (gen_code pub None None None None all_helpers false as_is in_order ["urn:b"; "urn:c"] [] [far_base; far_more]) = [("Other", ["int"])] /\
  gen_code pub None None None None all_helpers false as_is in_order ["urn:b"; "urn:c"] [] [far_base] = Ret (Missing ["urn:c"]).
Proof. vm_compute. split; reflexivity. Qed.
Lemma repeated : In "urn:b" (map rd_tns [far_base]) /\ gen_code pub None None None None all_helpers false as_is in_order ["urn:b"; "urn:b"] [] [far_base] = Ret (Missing []).
Proof. vm_compute. split; [left|]; reflexivity. Qed.
