(* Shared definitions: xml.Name, attributes, strings and small list facts.
   Go strings are byte strings; they are modelled by Coq's [string] (a list of 8-bit
   characters), which is exactly that. *)
From Coq Require Export String Ascii List ZArith NArith Lia Bool Permutation.
From Coq Require Export ZifyBool ZifyNat ZifyN.
Export ListNotations.
Open Scope string_scope.
Open Scope nat_scope.
Open Scope list_scope.

(* encoding/xml: type Name struct { Space, Local string } *)
Record xname := mkName { nspace : string; nlocal : string }.

(* encoding/xml: type Attr struct { Name Name; Value string } *)
Record xattr := mkAttr { aname : xname; avalue : string }.

Definition xname_eqb (a b : xname) : bool :=
  String.eqb (nspace a) (nspace b) && String.eqb (nlocal a) (nlocal b).

Lemma xname_eqb_eq a b : xname_eqb a b = true <-> a = b.
Proof.
  destruct a as [s l], b as [s' l']; unfold xname_eqb; cbn.
  rewrite andb_true_iff, !String.eqb_eq. split; [intros [-> ->]|intros [= -> ->]]; auto.
Qed.

Lemma xname_eqb_neq a b : xname_eqb a b = false <-> a <> b.
Proof.
  rewrite <- (xname_eqb_eq a b). destruct (xname_eqb a b); split; congruence.
Qed.

Lemma xname_eqb_refl a : xname_eqb a a = true.
Proof. apply xname_eqb_eq; reflexivity. Qed.

Lemma xname_eq_dec (a b : xname) : {a = b} + {a <> b}.
Proof. decide equality; apply string_dec. Defined.

Lemma xattr_eq_dec (a b : xattr) : {a = b} + {a <> b}.
Proof. decide equality; [apply string_dec | apply xname_eq_dec]. Defined.

(* ---------- strings ---------- *)

Lemma sapp_nil_r (s : string) : (s ++ "")%string = s.
Proof. induction s; cbn; congruence. Qed.

Lemma sapp_assoc (a b c : string) : (a ++ (b ++ c))%string = ((a ++ b) ++ c)%string.
Proof. induction a; cbn; congruence. Qed.

Lemma slen_app (a b : string) : String.length (a ++ b) = String.length a + String.length b.
Proof. induction a; cbn; auto. Qed.

Lemma sapp_inj_l (a b c : string) : (a ++ b = a ++ c)%string -> b = c.
Proof. induction a; cbn; intros H; [auto|]. injection H; auto. Qed.

Lemma sapp_eq_nil (a b : string) : (a ++ b)%string = "" -> a = "" /\ b = "".
Proof. destruct a; cbn; [auto|discriminate]. Qed.

(* membership of a byte in a string *)
Fixpoint s_in (c : ascii) (s : string) : bool :=
  match s with
  | EmptyString => false
  | String d s' => Ascii.eqb c d || s_in c s'
  end.

Lemma s_in_app c a b : s_in c (a ++ b)%string = s_in c a || s_in c b.
Proof. induction a; cbn; auto. rewrite IHa, orb_assoc; auto. Qed.

(* all bytes satisfy a predicate *)
Fixpoint s_all (f : ascii -> bool) (s : string) : bool :=
  match s with
  | EmptyString => true
  | String d s' => f d && s_all f s'
  end.

Lemma s_all_app f a b : s_all f (a ++ b)%string = s_all f a && s_all f b.
Proof. induction a; cbn; auto. rewrite IHa, andb_assoc; auto. Qed.

Definition colon : ascii := ":"%char.

(* Split at the first occurrence of a byte: strings.SplitN(s, c, 2).
   None: no occurrence (one part). *)
Fixpoint cut (c : ascii) (s : string) : option (string * string) :=
  match s with
  | EmptyString => None
  | String d s' =>
      if Ascii.eqb d c then Some ("", s')
      else match cut c s' with
           | None => None
           | Some (a, b) => Some (String d a, b)
           end
  end.

Lemma cut_none c s : cut c s = None <-> s_in c s = false.
Proof.
  induction s as [|d s IH]; cbn; [tauto|].
  rewrite (Ascii.eqb_sym c d). destruct (Ascii.eqb d c) eqn:E; cbn; [split; discriminate|].
  rewrite <- IH. destruct (cut c s) as [[? ?]|]; split; congruence.
Qed.

Lemma cut_some c s a b :
  cut c s = Some (a, b) <-> s = (a ++ String c b)%string /\ s_in c a = false.
Proof.
  revert a b; induction s as [|d s IH]; cbn; intros a b.
  - split; [discriminate|]. intros [H _]. destruct a; discriminate.
  - destruct (Ascii.eqb d c) eqn:E.
    + apply Ascii.eqb_eq in E; subst d. split.
      * intros [= <- <-]; auto.
      * intros [H Ha]. destruct a as [|e a]; cbn in *.
        -- congruence.
        -- injection H as <- _. rewrite Ascii.eqb_refl in Ha; discriminate.
    + destruct (cut c s) as [[x y]|] eqn:Ec.
      * split.
        -- intros [= <- <-]. destruct (proj1 (IH x y) eq_refl) as [-> Hx].
           cbn. rewrite (Ascii.eqb_sym c d), E; auto.
        -- intros [H Ha]. destruct a as [|e a]; cbn in *.
           ++ injection H as -> _. rewrite Ascii.eqb_refl in E; discriminate.
           ++ injection H as -> Hs. apply orb_false_iff in Ha as [_ Ha].
              assert (Some (x, y) = Some (a, b)) as [= -> ->] by (apply IH; auto). auto.
      * split; [discriminate|]. intros [H Ha]. destruct a as [|e a]; cbn in *.
        -- injection H as -> _. rewrite Ascii.eqb_refl in E; discriminate.
        -- injection H as -> Hs. apply orb_false_iff in Ha as [_ Ha].
           assert (None = Some (a, b)) by (apply IH; auto). discriminate.
Qed.

Lemma cut_app c a b : s_in c a = false -> cut c (a ++ String c b)%string = Some (a, b).
Proof. intros H. apply cut_some; auto. Qed.

(* ---------- lexicographic order on byte strings: Go's string < ---------- *)
Fixpoint s_cmp (a b : string) : comparison :=
  match a, b with
  | EmptyString, EmptyString => Eq
  | EmptyString, _ => Lt
  | _, EmptyString => Gt
  | String x a', String y b' =>
      match N.compare (N_of_ascii x) (N_of_ascii y) with
      | Eq => s_cmp a' b'
      | c => c
      end
  end.

Definition s_ltb a b := match s_cmp a b with Lt => true | _ => false end.
Definition s_leb a b := match s_cmp a b with Gt => false | _ => true end.

Lemma N_of_ascii_inj x y : N_of_ascii x = N_of_ascii y -> x = y.
Proof. intros H. rewrite <- (ascii_N_embedding x), <- (ascii_N_embedding y), H; auto. Qed.

Lemma s_cmp_eq a b : s_cmp a b = Eq <-> a = b.
Proof.
  revert b; induction a as [|x a IH]; destruct b as [|y b]; cbn; split; try discriminate; auto.
  - destruct (N.compare_spec (N_of_ascii x) (N_of_ascii y)) as [E|E|E]; try discriminate.
    intros H. apply N_of_ascii_inj in E. apply IH in H. congruence.
  - intros [= -> ->]. rewrite N.compare_refl. apply IH; auto.
Qed.

Lemma s_cmp_antisym a b : s_cmp b a = CompOpp (s_cmp a b).
Proof.
  revert b; induction a as [|x a IH]; destruct b as [|y b]; cbn; auto.
  rewrite (N.compare_antisym (N_of_ascii x) (N_of_ascii y)).
  destruct (N.compare (N_of_ascii x) (N_of_ascii y)); cbn; auto.
Qed.

Lemma s_cmp_lt_trans a b c : s_cmp a b = Lt -> s_cmp b c = Lt -> s_cmp a c = Lt.
Proof.
  revert b c; induction a as [|x a IH]; destruct b as [|y b], c as [|z c]; cbn; try discriminate; auto.
  destruct (N.compare_spec (N_of_ascii x) (N_of_ascii y)) as [E1|E1|E1]; try discriminate;
  destruct (N.compare_spec (N_of_ascii y) (N_of_ascii z)) as [E2|E2|E2]; try discriminate;
  intros H1 H2;
  destruct (N.compare_spec (N_of_ascii x) (N_of_ascii z)) as [E3|E3|E3]; auto; try lia; eauto.
Qed.

Lemma s_leb_refl a : s_leb a a = true.
Proof. unfold s_leb. rewrite (proj2 (s_cmp_eq a a) eq_refl); auto. Qed.

Lemma s_leb_trans a b c : s_leb a b = true -> s_leb b c = true -> s_leb a c = true.
Proof.
  unfold s_leb.
  destruct (s_cmp a b) eqn:E1; try discriminate; destruct (s_cmp b c) eqn:E2; try discriminate; intros _ _.
  - apply s_cmp_eq in E1, E2; subst. rewrite (proj2 (s_cmp_eq c c) eq_refl); auto.
  - apply s_cmp_eq in E1; subst. rewrite E2; auto.
  - apply s_cmp_eq in E2; subst. rewrite E1; auto.
  - rewrite (s_cmp_lt_trans _ _ _ E1 E2); auto.
Qed.

Lemma s_leb_total a b : s_leb a b = true \/ s_leb b a = true.
Proof. unfold s_leb. rewrite (s_cmp_antisym a b). destruct (s_cmp a b); cbn; auto. Qed.

Lemma s_leb_antisym a b : s_leb a b = true -> s_leb b a = true -> a = b.
Proof.
  unfold s_leb. rewrite (s_cmp_antisym a b). destruct (s_cmp a b) eqn:E; cbn; try discriminate.
  intros _ _. apply s_cmp_eq; auto.
Qed.

Lemma s_leb_ltb a b : s_leb a b = negb (s_ltb b a).
Proof. unfold s_leb, s_ltb. rewrite (s_cmp_antisym a b). destruct (s_cmp a b); auto. Qed.

(* ---------- lists ---------- *)

Definition sublist_in {A} (l1 l2 : list A) := forall x, In x l1 -> In x l2.

(* find the last element satisfying f: the shape of every "for i := len-1; i >= 0; i--"
   loop in the code *)
Fixpoint find_last {A} (f : A -> bool) (l : list A) : option A :=
  match l with
  | [] => None
  | x :: l' => match find_last f l' with
               | Some y => Some y
               | None => if f x then Some x else None
               end
  end.

Lemma find_last_none {A} f (l : list A) :
  find_last f l = None <-> forall x, In x l -> f x = false.
Proof.
  induction l as [|a l IH]; cbn; [split; [intros _ ? []|auto]|].
  destruct (find_last f l) eqn:E.
  - split; [discriminate|]. intros H. assert (Some a0 = None) by (apply IH; auto). discriminate.
  - destruct (f a) eqn:Ea; split.
    + discriminate.
    + intros H. rewrite (H a) in Ea; [discriminate|auto].
    + intros _ x [<-|Hx]; auto. apply IH; auto.
    + auto.
Qed.

Lemma find_last_some {A} f (l : list A) x :
  find_last f l = Some x <->
  exists l1 l2, l = l1 ++ x :: l2 /\ f x = true /\ forall y, In y l2 -> f y = false.
Proof.
  revert x; induction l as [|a l IH]; cbn; intros x.
  - split; [discriminate|]. intros (l1 & l2 & H & _). destruct l1; discriminate.
  - destruct (find_last f l) as [y|] eqn:E.
    + split.
      * intros [= <-]. destruct (proj1 (IH y) eq_refl) as (l1 & l2 & -> & Hf & Hn).
        exists (a :: l1), l2; auto.
      * intros (l1 & l2 & H & Hf & Hn). destruct l1 as [|b l1]; cbn in H; injection H as -> ->.
        -- destruct (proj1 (IH y) eq_refl) as (l3 & l4 & -> & Hf' & _).
           rewrite Hn in Hf'; [discriminate|]. apply in_or_app; cbn; auto.
        -- f_equal. assert (Some y = Some x) as [= ->]; auto.
           apply IH. exists l1, l2; auto.
    + pose proof (proj1 (find_last_none f l) E) as Hl.
      destruct (f a) eqn:Ea; split.
      * intros [= <-]. exists [], l; auto.
      * intros (l1 & l2 & H & Hf & Hn). destruct l1 as [|b l1]; cbn in H; injection H as -> ->; auto.
        rewrite Hl in Hf; [discriminate|]. apply in_or_app; cbn; auto.
      * discriminate.
      * intros (l1 & l2 & H & Hf & Hn). destruct l1 as [|b l1]; cbn in H; injection H as -> ->; [congruence|].
        rewrite Hl in Hf; [discriminate|]. apply in_or_app; cbn; auto.
Qed.

Lemma find_last_app {A} f (l1 l2 : list A) :
  find_last f (l1 ++ l2) =
  match find_last f l2 with Some y => Some y | None => find_last f l1 end.
Proof.
  induction l1; cbn; [destruct (find_last f l2); auto|].
  rewrite IHl1. destruct (find_last f l2); auto.
Qed.
