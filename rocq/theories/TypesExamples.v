(* Concrete schemas for type resolution, as trees that Normalize leaves as they are. *)
From Coq Require Import Permutation.
From Verif Require Import Base ScopeModel TreeModel BuiltinModel XsdModel TypesModel TypesSpec TypesProofs TypesMixed TypesOrder.
Local Open Scope string_scope.

Definition at_ (n v : string) := mkAttr (mkName "" n) v.
Definition scp : scope := [mkName schemaNS "xs"; mkName "urn:a" "a"; mkName "urn:b" "b"].
Definition x_ (n : string) (ats : list xattr) (kids : list elem) : elem := Elem (xs n) ats scp "" kids.
Definition extends_ (n base : string) (kids : list elem) := x_ "complexType" [at_ "name" n] [x_ "complexContent" [] [x_ "extension" [at_ "base" base] kids]].
Definition restricts_ (n base : string) (kids : list elem) := x_ "complexType" [at_ "name" n] [x_ "complexContent" [] [x_ "restriction" [at_ "base" base] kids]].
Definition schema_ (tns : string) (kids : list elem) := x_ "schema" [at_ "targetNamespace" tns] kids.
Definition rd_of (root : elem) : option rd :=
  read (fun _ => Some "") unit unit tt tt (fun _ => None) (fun _ => None) (fun _ => None) (fun _ => true) (fun _ => "") root.
Definition as_is (k : nat) (l : list (xname * ty)) := l.
Definition backwards (k : nat) (l : list (xname * ty)) := rev l.
Lemma as_is_order : any_order as_is.
Proof. intros k l. apply Permutation_refl. Qed.
Lemma backwards_order : any_order backwards.
Proof. intros k l. apply Permutation_rev. Qed.

(* a:A extends b:B, which extends b:C; C restricts anyType and has an element of type a:A *)
Definition doc_a := schema_ "urn:a" [extends_ "A" "b:B" []; x_ "element" [at_ "name" "root"; at_ "type" "a:A"] []].
Definition doc_b := schema_ "urn:b" [extends_ "B" "b:C" []; restricts_ "C" "xs:anyType" [x_ "element" [at_ "name" "e"; at_ "type" "a:A"] []]].
Definition get {A} (o : option A) (d : A) := match o with Some x => x | None => d end.
Definition rda := Eval vm_compute in get (rd_of doc_a) (mkRd "" [] []).
Definition rdb := Eval vm_compute in get (rd_of doc_b) (mkRd "" [] []).
Lemma rda_read : rd_of doc_a = Some rda.
Proof. vm_compute. reflexivity. Qed.
Lemma rdb_read : rd_of doc_b = Some rdb.
Proof. vm_compute. reflexivity. Qed.
(* the base first: resolved; the other way round: a panic *)
Definition result_ba := Eval vm_compute in match parse_rds as_is [rdb; rda] with Ok s => s | _ => ([], []) end.
Lemma parse_ba : parse_rds as_is [rdb; rda] = Ok result_ba.
Proof. vm_compute. reflexivity. Qed.
Lemma parse_ba_back : parse_rds backwards [rdb; rda] = Ok result_ba.
Proof. vm_compute. reflexivity. Qed.
Lemma parse_ab : parse_rds as_is [rda; rdb] = Panics.
Proof. vm_compute. reflexivity. Qed.
Lemma parse_a : parse_rds as_is [rda] = Err.
Proof. vm_compute. reflexivity. Qed.

(* a type that extends itself through another *)
Definition rdc := Eval vm_compute in get (rd_of (schema_ "urn:a" [extends_ "A" "a:B" []; extends_ "B" "a:A" []])) (mkRd "" [] []).
Definition result_c := Eval vm_compute in match parse_rds as_is [rdc] with Ok s => s | _ => ([], []) end.
Lemma parse_c : parse_rds as_is [rdc] = Ok result_c.
Proof. vm_compute. reflexivity. Qed.
Definition own_c := Eval vm_compute in get (sget "urn:a" (snd result_c)) [].
Lemma own_c_ok : sget "urn:a" (snd result_c) = Some own_c.
Proof. reflexivity. Qed.
Lemma cycle_runs fuel : find_type fuel (fst result_c) own_c (mkName "urn:a" "missing") = None.
Proof.
  unfold own_c. cbn [find_type snd]. rewrite find_type1_cycle; auto. intros u A.
  assert (G : forall t u, ancestor (fst result_c) t u -> (t = TPtr 0 \/ t = TPtr 1) -> u = TPtr 0 \/ u = TPtr 1).
  { clear. intros t u A. induction A as [t|t u Hn A IH]; auto. intros [-> | ->]; apply IH; cbv; auto. }
  destruct (G _ _ A (or_introl eq_refl)) as [-> | ->]; split; try discriminate; eexists; (split; [reflexivity|discriminate]).
Qed.

(* two documents of the same namespace *)
Definition rd1 := Eval vm_compute in get (rd_of (schema_ "urn:a" [restricts_ "A" "xs:anyType" []])) (mkRd "" [] []).
Definition rd2 := Eval vm_compute in get (rd_of (schema_ "urn:a" [restricts_ "B" "xs:anyType" []])) (mkRd "" [] []).
Definition result_12 := Eval vm_compute in match parse_rds as_is [rd1; rd2] with Ok s => s | _ => ([], []) end.
Lemma parse_12 : parse_rds as_is [rd1; rd2] = Ok result_12.
Proof. vm_compute. reflexivity. Qed.
Lemma lost_a ns own : sget ns (snd result_12) = Some own -> lookup (mkName "urn:a" "A") own = None.
Proof. unfold result_12. cbn [snd sget]. destruct (String.eqb "urn:a" ns); [|discriminate]. intros H. injection H as <-. reflexivity. Qed.

(* chains, computed *)
Fixpoint depth (fuel : nat) (st : store) (t : ty) : option nat :=
  match base_of st t with TNil => Some 0 | b => match fuel with 0 => None | S f => option_map S (depth f st b) end end.
Lemma depth_chain st : forall fuel t k, depth fuel st t = Some k -> chain st t k /\ k <= fuel.
Proof.
  induction fuel as [|f IH]; intros t k H.
  - cbn [depth] in H. destruct (base_of st t) eqn:E; try discriminate. injection H as <-. split; auto. apply ch_end. auto.
  - cbn [depth] in H. destruct (ty_dec (base_of st t) TNil) as [E|E].
    + rewrite E in H. injection H as <-. split; [apply ch_end; auto|lia].
    + assert (G : option_map S (depth f st (base_of st t)) = Some k) by (destruct (base_of st t); congruence).
      destruct (depth f st (base_of st t)) as [m|] eqn:Em; [|discriminate]. cbn [option_map] in G. injection G as <-. apply IH in Em as [A B].
      split; [apply ch_step; auto|lia].
Qed.
Lemma shallow_check st es : forallb (fun e => match depth 20 st (snd e) with Some _ => true | None => false end) es = true -> shallow st es.
Proof.
  intros H n t Ht. rewrite forallb_forall in H. specialize (H _ Ht). cbn [snd] in H. destruct (depth 20 st t) as [k|] eqn:E; [|discriminate].
  apply depth_chain in E as [A B]. exists k. split; auto. unfold max_depth. replace (N.to_nat 1001) with (20 + N.to_nat 981) by reflexivity. lia.
Qed.
