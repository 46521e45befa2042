(* The texts of the errors about types that are not found. *)
From Verif Require Import Base ScopeModel TreeModel BuiltinModel XsdModel TypesModel GenModel SgTags MissModel MissSpec.
Local Open Scope string_scope.

Lemma in_app c (a b : string) : s_in c (a ++ b) = (s_in c a || s_in c b)%bool.
Proof. induction a as [|d a IH]; [reflexivity|]. cbn [append s_in]. rewrite IH, Bool.orb_assoc. reflexivity. Qed.
Lemma app_end (a b c : string) : a ++ c = b ++ c -> a = b.
Proof.
  assert (L : forall x y : string, String.length (x ++ y) = String.length x + String.length y) by (induction x; intros; cbn [append String.length]; [reflexivity|rewrite IHx; reflexivity]).
  revert b. induction a as [|d a IH]; intros [|e b] H; [reflexivity| | |].
  - apply (f_equal String.length) in H. rewrite !L in H. cbn [String.length] in H. lia.
  - apply (f_equal String.length) in H. rewrite !L in H. cbn [String.length] in H. lia.
  - cbn [append] in H. injection H as -> H. f_equal. auto.
Qed.
Lemma split_word a b : s_in " " a = false -> split_at " " (a ++ " " ++ b) = a :: split_at " " b.
Proof. exact (split_app " " a b). Qed.
(* the words of the text *)
Definition text_words (is_print : N -> bool) (pre : xname -> string) (m : miss) : list string :=
  match m with
  | MsType cx k ro n =>
      ([(if cx then "complexType" else "simpleType"); (nlocal k ++ ":")%string; "could"; "not"; "find"] ++
      match ro with
      | RBase => ["base"; "type"; nlocal n; "in"; "namespace"; nspace n]
      | RElement e => ["type"; ("""" ++ nlocal n ++ """")%string; "in"; "namespace"; nspace n; "for"; "element"; nlocal e]
      | RAttribute a => ["type"; nlocal n; "in"; "namespace"; nspace n; "for"; "attribute"; nlocal a]
      | RMember => ["union"; "memberType"; nlocal n; "in"; "namespace"; nspace n]
      end)%list
  | MsAlias e n => ["could"; "not"; "lookup"; "type"; pre n; "for"; "element"; pre e]
  end.
Lemma lit_app (a b c : string) : (a ++ b) ++ c = a ++ b ++ c.
Proof. induction a as [|d a IH]; [reflexivity|]. cbn [append]. rewrite IH. reflexivity. Qed.
Lemma text_split is_print pre m : clear is_print pre m -> split_at " " (miss_text is_print pre m) = text_words is_print pre m.
Proof.
  destruct m as [cx k ro n|e n]; cbn [clear miss_text text_words].
  - intros ((Kl & _ & _) & (Nl & Ns & Nq) & Hr).
    assert (K2 : s_in " " (nlocal k ++ ":") = false) by (rewrite in_app, Kl; reflexivity).
    assert (N2 : s_in " " ("""" ++ nlocal n ++ """") = false) by (rewrite !in_app, Nl; reflexivity).
    set (rest := match ro with RBase => _ | _ => _ end).
    transitivity ((if cx then "complexType" else "simpleType") :: (nlocal k ++ ":") :: "could" :: "not" :: "find" :: split_at " " rest).
    { replace ((if cx then "complexType " else "simpleType ") ++ nlocal k ++ ": could not find " ++ rest)
        with ((if cx then "complexType" else "simpleType") ++ " " ++ (nlocal k ++ ":") ++ " " ++ "could" ++ " " ++ "not" ++ " " ++ "find" ++ " " ++ rest).
      2:{ rewrite lit_app. destruct cx; reflexivity. }
      rewrite split_word by (destruct cx; reflexivity). rewrite (split_word (nlocal k ++ ":")) by exact K2. rewrite !split_word by reflexivity. reflexivity. }
    cbn [List.app]. repeat f_equal. subst rest. destruct ro as [|e|a|].
    + change ("base type " ++ nlocal n ++ " in namespace " ++ nspace n) with ("base" ++ " " ++ "type" ++ " " ++ nlocal n ++ " " ++ "in" ++ " " ++ "namespace" ++ " " ++ nspace n).
      rewrite !(split_word "base"), !(split_word "type"), (split_word (nlocal n)), (split_word "in"), (split_word "namespace"), split_none by (assumption || reflexivity). reflexivity.
    + rewrite Nq. destruct Hr as (El & _).
      change ("type " ++ ("""" ++ nlocal n ++ """") ++ " in namespace " ++ nspace n ++ " for element " ++ nlocal e)
        with ("type" ++ " " ++ ("""" ++ nlocal n ++ """") ++ " " ++ "in" ++ " " ++ "namespace" ++ " " ++ nspace n ++ " " ++ "for" ++ " " ++ "element" ++ " " ++ nlocal e).
      rewrite (split_word "type"), (split_word ("""" ++ nlocal n ++ """")), (split_word "in"), (split_word "namespace"), (split_word (nspace n)), (split_word "for"), (split_word "element"), split_none by (assumption || reflexivity). reflexivity.
    + destruct Hr as (El & _).
      change ("type " ++ nlocal n ++ " in namespace " ++ nspace n ++ " for attribute " ++ nlocal a)
        with ("type" ++ " " ++ nlocal n ++ " " ++ "in" ++ " " ++ "namespace" ++ " " ++ nspace n ++ " " ++ "for" ++ " " ++ "attribute" ++ " " ++ nlocal a).
      rewrite (split_word "type"), (split_word (nlocal n)), (split_word "in"), (split_word "namespace"), (split_word (nspace n)), (split_word "for"), (split_word "attribute"), split_none by (assumption || reflexivity). reflexivity.
    + change ("union memberType " ++ nlocal n ++ " in namespace " ++ nspace n) with ("union" ++ " " ++ "memberType" ++ " " ++ nlocal n ++ " " ++ "in" ++ " " ++ "namespace" ++ " " ++ nspace n).
      rewrite (split_word "union"), (split_word "memberType"), (split_word (nlocal n)), (split_word "in"), (split_word "namespace"), split_none by (assumption || reflexivity). reflexivity.
  - intros (He & Hn).
    change ("could not lookup type " ++ pre n ++ " for element " ++ pre e) with ("could" ++ " " ++ "not" ++ " " ++ "lookup" ++ " " ++ "type" ++ " " ++ pre n ++ " " ++ "for" ++ " " ++ "element" ++ " " ++ pre e).
    rewrite (split_word "could"), (split_word "not"), (split_word "lookup"), (split_word "type"), (split_word (pre n)), (split_word "for"), (split_word "element"), split_none by (assumption || reflexivity). reflexivity.
Qed.
Lemma name_eq (a b : xname) : nlocal a = nlocal b -> nspace a = nspace b -> a = b.
Proof. destruct a, b. cbn. congruence. Qed.
Theorem text_tells is_print pre a b : clear is_print pre a -> clear is_print pre b -> miss_text is_print pre a = miss_text is_print pre b -> same_told pre a b.
Proof.
  intros Ca Cb H. apply (f_equal (split_at " ")) in H. rewrite !text_split in H by assumption.
  destruct a as [cx k ro n|e n], b as [cx' k' ro' n'|e' n']; cbn [text_words List.app] in H.
  - injection H as Hx Hk Hr. cbn [same_told]. split; [destruct cx, cx'; congruence|]. split; [exact (app_end _ _ _ Hk)|].
    destruct ro, ro'; cbn [same_role]; try discriminate Hr.
    + injection Hr. intros. split; auto. apply name_eq; auto.
    + injection Hr. intros Ee Es El. split; auto. apply name_eq; auto. apply (app_end _ _ """"). exact El.
    + injection Hr. intros. split; auto. apply name_eq; auto.
    + injection Hr. intros. split; auto. apply name_eq; auto.
  - exfalso. injection H. intros. destruct cx; discriminate.
  - exfalso. injection H. intros. destruct cx'; discriminate.
  - injection H. intros. cbn [same_told]. auto.
Qed.
