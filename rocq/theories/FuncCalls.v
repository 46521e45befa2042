(* A function put together by a sequence of calls of its methods. *)
From Verif Require Import Base GenModel FuncModel.
Local Open Scope string_scope.

Section Calls.
  Variables (Val Err : Type).
  Variable template : string -> Val -> string + Err.
  Inductive call := CBody (s : string) | CTmpl (t : string) (v : Val) | CReturns (l : list string) | CComment (s : string) | CArgs (l : list string) | CReceiver (s : string).
  Definition do (f : func Err) (c : call) : func Err :=
    match c with
    | CBody s => Body Err s f | CTmpl t v => BodyTmpl Val Err template t v f | CReturns l => Returns Err l f
    | CComment s => Comment Err s f | CArgs l => Args Err l f | CReceiver s => Receiver Err s f
    end.
  (* what the last call that says something says, or z *)
  Definition says {A} (g : call -> option A) (z : A) (l : list call) (x : A) : Prop :=
    (x = z /\ forall c, In c l -> g c = None) \/ exists a c b, l = (a ++ c :: b)%list /\ g c = Some x /\ forall c', In c' b -> g c' = None.
  Definition body_said (c : call) : option string := match c with CBody s => Some s | CTmpl t v => match template t v with inl s => Some s | inr _ => None end | _ => None end.
  Definition error_said (c : call) : option (option Err) := match c with CTmpl t v => match template t v with inl _ => None | inr e => Some (Some e) end | _ => None end.
  Definition args_said (c : call) := match c with CArgs l => Some l | _ => None end.
  Definition returns_said (c : call) := match c with CReturns l => Some l | _ => None end.
  Definition comment_said (c : call) := match c with CComment s => Some s | _ => None end.
  Definition receiver_said (c : call) := match c with CReceiver s => Some s | _ => None end.
  Lemma says_fold {A} (g : call -> option A) (get : func Err -> A) f : (forall f c, get (do f c) = match g c with Some x => x | None => get f end) -> forall l, says g (get f) l (get (fold_left do l f)).
  Proof.
    intros H l. induction l as [|c l IH] using rev_ind; [left; split; [reflexivity|intros c []]|]. rewrite fold_left_app. cbn [fold_left]. rewrite H. destruct (g c) as [x|] eqn:G.
    - right. exists l, c, []. split; [reflexivity|]. split; [exact G|intros c' []].
    - destruct IH as [[E N]|(a & c1 & b & E & E1 & N)].
      + left. split; [exact E|]. intros c' Hc. apply in_app_iff in Hc as [Hc|[<-|[]]]; auto.
      + right. exists a, c1, (b ++ [c])%list. split; [rewrite E, <- app_assoc; reflexivity|]. split; [exact E1|]. intros c' Hc. apply in_app_iff in Hc as [Hc|[<-|[]]]; auto.
  Qed.
  Theorem made name l f : f = fold_left do l (Func Err name) -> fn_name _ f = name /\ says body_said "" l (fn_body _ f) /\ says error_said None l (fn_err _ f) /\
    says args_said [] l (fn_args _ f) /\ says returns_said [] l (fn_returns _ f) /\ says comment_said "" l (fn_godoc _ f) /\ says receiver_said "" l (fn_receiver _ f).
  Proof.
    intros ->. split.
    - assert (H : forall f c, fn_name _ (do f c) = fn_name _ f) by (intros f [s|t v|r|s|a|s]; cbn [do]; try reflexivity; unfold BodyTmpl; destruct (template t v); reflexivity).
      induction l as [|c l IH] using rev_ind; [reflexivity|]. rewrite fold_left_app. cbn [fold_left]. rewrite H. exact IH.
    - repeat split; match goal with |- says ?g ?z l (?get (fold_left do l ?f)) => apply (says_fold g get f) end; intros f [s|t v|r|s|a|s]; cbn [do]; try reflexivity; unfold BodyTmpl; cbn [body_said error_said args_said returns_said comment_said receiver_said]; destruct (template t v); reflexivity.
  Qed.
End Calls.
