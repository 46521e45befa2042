From Verif Require Import Base ScopeModel TreeModel ParseModel GenModel GenSpec GenProofs BuiltinModel XsdModel SgModel SgStruct OptModel WsdlModel ShowModel ShowSpec ShowProofs.
Local Open Scope string_scope.

Definition tn (s : string) := mkName "urn:t" s.
Definition xi := mkName schemaNS "int".
Definition calc_def (result : xname) : definition :=
  mkDefinition "" [mkPort "A" "http://a/?x=1 2" "POST" [mkOperation "" "urn:add" (tn "add") (tn "addRequest") (tn "addResponse"); mkOperation "" "" (tn "stop") (tn "stopRequest") (tn "none")]; mkPort "B" "" "GET" []]
    [(tn "addRequest", mkMessage (tn "addRequest") [mkPart "a" xi (mkName "" ""); mkPart "b" xi (mkName "" "")]); (tn "addResponse", mkMessage (tn "addResponse") [mkPart "sum" result (mkName "" "")])] "urn:t".
Lemma calc_shown : show (calc_def xi) = "Namespace:  urn:t
Port A http://a/?x=1 2
	add(int, int) -> int
	stop() -> 
Port B 
".
Proof. reflexivity. Qed.
Ltac clear_of := let c := fresh in let I := fresh in intros c I; simpl in I; apply has_false; repeat (destruct I as [<-|I]; [reflexivity|]); destruct I.
Lemma calc_readable r : nlocal r <> "" -> without [","%char; ")"%char; "010"%char] (nlocal r) -> readable (calc_def r).
Proof.
  intros N W. constructor.
  - clear_of.
  - intros p I. simpl in I. repeat (destruct I as [<-|I]; [split; clear_of|]). destruct I.
  - intros p o I J. simpl in I. destruct I as [<-|[<-|[]]]; simpl in J; repeat (destruct J as [<-|J]; [clear_of|]); destruct J.
  - intros n m p I J. simpl in I. destruct I as [[= <- <-]|[[= <- <-]|[]]]; simpl in J.
    + repeat (destruct J as [<-|J]; [split; [discriminate|clear_of]|]). destruct J.
    + destruct J as [<-|[]]. split; assumption.
Qed.
Lemma calc_case : readable (calc_def xi) /\ readable (calc_def (mkName schemaNS "long")) /\ ~ same_told (calc_def xi) (calc_def (mkName schemaNS "long")) /\ show (calc_def xi) <> show (calc_def (mkName schemaNS "long")).
Proof.
  assert (A : readable (calc_def xi)) by (apply calc_readable; [discriminate|clear_of]). assert (B : readable (calc_def (mkName schemaNS "long"))) by (apply calc_readable; [discriminate|clear_of]).
  assert (N : show (calc_def xi) <> show (calc_def (mkName schemaNS "long"))) by (vm_compute; discriminate).
  split; [exact A|]. split; [exact B|]. split; [|exact N]. intros S. apply N. apply (show_tells _ _ A B). exact S.
Qed.
(* a message with a part that is an element, and a message with no parts *)
Definition one_op (parts : list part) : definition :=
  mkDefinition "" [mkPort "A" "http://a" "POST" [mkOperation "" "" (tn "buy") (tn "buyRequest") (tn "none")]] [(tn "buyRequest", mkMessage (tn "buyRequest") parts)] "urn:t".
Lemma element_untold : show (one_op [mkPart "order" (mkName "" "") (tn "order")]) = show (one_op []) /\ ~ same_told (one_op [mkPart "order" (mkName "" "") (tn "order")]) (one_op []).
Proof.
  split; [reflexivity|]. intros [_ F]. inversion F as [|p p' l l' (_ & _ & O) _]; subst. inversion O as [|o o' m m' (_ & (x & P & P') & _) _]; subst. apply parts_one in P, P'. subst. discriminate.
Qed.
