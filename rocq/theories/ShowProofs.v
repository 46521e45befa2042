From Verif Require Import Base ScopeModel TreeModel ParseModel GenModel GenSpec GenProofs BuiltinModel XsdModel SgModel SgStruct OptModel WsdlModel ShowModel ShowSpec.
Local Open Scope string_scope.

Lemma sapp_assoc (a b c : string) : (a ++ b) ++ c = a ++ (b ++ c).
Proof. induction a; simpl; congruence. Qed.
Lemma not_occurs_cons c x s : ~ occurs c (String x s) -> x <> c /\ ~ occurs c s.
Proof. intros H. split. - intros ->. apply H. exists "", s. reflexivity. - intros (a & b & ->). apply H. exists (String x a), b. reflexivity. Qed.
(* what comes before the first c *)
Lemma split_eq c a : forall b x y, ~ occurs c a -> ~ occurs c b -> a ++ String c x = b ++ String c y -> a = b /\ x = y.
Proof.
  induction a as [|h a IH]; intros [|k b] x y A B E; simpl in E.
  - injection E as E. auto.
  - injection E as E1 E2. subst. apply not_occurs_cons in B. tauto.
  - injection E as E1 E2. subst. apply not_occurs_cons in A. tauto.
  - injection E as -> E. apply not_occurs_cons in A, B. destruct (IH b x y (proj2 A) (proj2 B) E) as [-> ->]. auto.
Qed.
Lemma occurs_app c a b : occurs c (a ++ b) <-> occurs c a \/ occurs c b.
Proof. rewrite <- !has_occurs. induction a as [|h a IH]; simpl; [intuition discriminate|]. rewrite !orb_true_iff, IH. tauto. Qed.
Lemma occurs_nil c : ~ occurs c "".
Proof. rewrite <- has_occurs. discriminate. Qed.
Lemma occurs_one c x s : occurs c (String x s) <-> x = c \/ occurs c s.
Proof. split. - intros ([|h a] & b & E); injection E as E; [left|right]; auto. exists a, b. auto. - intros [->|(a & b & ->)]; [exists "", s|exists (String x a), b]; reflexivity. Qed.

(* parts *)
Lemma xname_eqb_spec a b : reflect (a = b) (xname_eqb a b).
Proof. apply iff_reflect. symmetry. apply xname_eqb_eq. Qed.
Definition types_of (d : definition) (n : xname) : list string := map (fun p => nlocal (pa_type p)) (ms_parts (message_of d n)).
Lemma parts_types d n : parts_are d n (types_of d n).
Proof.
  unfold types_of, message_of. destruct (lookup n (df_messages d)) as [m|] eqn:L.
  - enough (exists l l', df_messages d = (l ++ (n, m) :: l')%list /\ ~ In n (map fst l)) as (l & l' & E & N) by (eapply pa_there; eauto).
    revert L. generalize (df_messages d). induction l as [|[k v] l IH]; simpl; [discriminate|]. destruct (xname_eqb_spec k n) as [->|N].
    + intros [= ->]. exists [], l. split; [reflexivity|intros []].
    + intros L. destruct (IH L) as (a & b & -> & Q). exists ((k, v) :: a), b. split; [reflexivity|]. intros [<-|I]; [apply N; reflexivity|exact (Q I)].
  - simpl. apply pa_missing. revert L. generalize (df_messages d). induction l as [|[k v] l IH]; simpl; [tauto|]. destruct (xname_eqb_spec k n) as [->|N]; [discriminate|]. intros L [E|I]; [exact (N E)|exact (IH L I)].
Qed.
Lemma parts_one d n l : parts_are d n l -> l = types_of d n.
Proof.
  intros P. unfold types_of, message_of. destruct P as [a m b E N|N].
  - rewrite E. clear E. assert (L : lookup n (a ++ (n, m) :: b) = Some m).
    { induction a as [|[k v] a IH]; simpl. - destruct (xname_eqb_spec n n) as [_|Q]; [reflexivity|destruct (Q eq_refl)]. - destruct (xname_eqb_spec k n) as [->|Q]; [destruct N; left; reflexivity|apply IH; intros I; apply N; right; exact I]. }
    rewrite L. reflexivity.
  - destruct (lookup n (df_messages d)) as [m|] eqn:L; [|reflexivity]. destruct N. revert L. generalize (df_messages d). induction l as [|[k v] l IH]; simpl; [discriminate|].
    destruct (xname_eqb_spec k n) as [->|Q]; [left; reflexivity|right; auto].
Qed.
Lemma types_readable d n : readable d -> forall s, In s (types_of d n) -> s <> "" /\ without [","%char; ")"%char; "010"%char] s.
Proof.
  intros R s I. unfold types_of in I. apply in_map_iff in I. destruct I as (p & <- & I). unfold message_of in I. destruct (lookup n (df_messages d)) as [m|] eqn:L; [|destruct I].
  apply (rd_parts d R n m p); [|exact I]. revert L. generalize (df_messages d). induction l as [|[k v] l IH]; simpl; [discriminate|]. destruct (xname_eqb_spec k n) as [->|Q]; [intros [= ->]; left; reflexivity|right; auto].
Qed.
Definition fits (s : string) : Prop := s <> "" /\ without [","%char; ")"%char; "010"%char] s.
Lemma fits_c c s : In c [","%char; ")"%char; "010"%char] -> fits s -> ~ occurs c s.
Proof. intros I [_ W]. exact (W c I). Qed.
Lemma joined_without c l : c = ")"%char \/ c = "010"%char -> (forall s, In s l -> fits s) -> ~ occurs c (joined l).
Proof.
  intros C. induction l as [|x [|y l] IH]; intros F.
  - apply occurs_nil.
  - apply fits_c; [destruct C as [-> | ->]; simpl; auto|]. apply F. left. reflexivity.
  - change (joined (x :: y :: l)) with (x ++ ", " ++ joined (y :: l)). rewrite occurs_app. intros [O|O].
    + revert O. apply fits_c; [destruct C as [-> | ->]; simpl; auto|]. apply F. left. reflexivity.
    + change (", " ++ joined (y :: l)) with (String "," (String " " (joined (y :: l)))) in O. rewrite !occurs_one in O. destruct O as [O|[O|O]]; [destruct C; subst; discriminate|destruct C; subst; discriminate|].
      revert O. apply IH. intros s I. apply F. right. exact I.
Qed.
Lemma joined_inj l : forall l', (forall s, In s l -> fits s) -> (forall s, In s l' -> fits s) -> joined l = joined l' -> l = l'.
Proof.
  induction l as [|x l IH]; intros [|x' l'] F F' E.
  - reflexivity.
  - exfalso. destruct (F' x' (or_introl eq_refl)) as [N _]. destruct l'; simpl in E; destruct x'; try discriminate; apply N; reflexivity.
  - exfalso. destruct (F x (or_introl eq_refl)) as [N _]. destruct l; simpl in E; destruct x; try discriminate; apply N; reflexivity.
  - pose proof (fits_c "," x (or_introl eq_refl) (F x (or_introl eq_refl))) as X. pose proof (fits_c "," x' (or_introl eq_refl) (F' x' (or_introl eq_refl))) as X'.
    destruct l as [|y l], l' as [|y' l'].
    + simpl in E. congruence.
    + exfalso. apply X. simpl in E. subst. exists x', (String " " (joined (y' :: l'))). reflexivity.
    + exfalso. apply X'. simpl in E. subst. exists x, (String " " (joined (y :: l))). reflexivity.
    + change (x ++ String "," (String " " (joined (y :: l))) = x' ++ String "," (String " " (joined (y' :: l')))) in E.
      destruct (split_eq _ _ _ _ _ X X' E) as [-> E']. injection E' as E'. f_equal. apply IH; auto; intros s I; [apply F|apply F']; right; exact I.
Qed.

Definition no_tab (s : string) : Prop := match s with String c _ => c <> "009"%char | "" => True end.
Lemma show_op_app d o s : show_op d o ++ s = String "009" (nlocal (op_name o) ++ String "(" (show_message (message_of d (op_input o)) ++ String ")" (" -> " ++ show_message (message_of d (op_output o)) ++ String "010" s))).
Proof. unfold show_op. simpl. rewrite !sapp_assoc. simpl. rewrite !sapp_assoc. simpl. rewrite !sapp_assoc. reflexivity. Qed.
Lemma ops_inj d d' : readable d -> readable d' -> forall l l' s s', no_tab s -> no_tab s' ->
  (forall o, In o l -> without ["("%char; "010"%char] (nlocal (op_name o))) -> (forall o, In o l' -> without ["("%char; "010"%char] (nlocal (op_name o))) ->
  show_ops d l ++ s = show_ops d' l' ++ s' -> Forall2 (same_op d d') l l' /\ s = s'.
Proof.
  intros R R'. induction l as [|o l IH]; intros [|o' l'] s s' N N' W W' E.
  - simpl in E. auto.
  - exfalso. change (s = (show_op d' o' ++ show_ops d' l') ++ s') in E. rewrite sapp_assoc, show_op_app in E. subst s. apply N. reflexivity.
  - exfalso. change ((show_op d o ++ show_ops d l) ++ s = s') in E. rewrite sapp_assoc, show_op_app in E. subst s'. apply N'. reflexivity.
  - change ((show_op d o ++ show_ops d l) ++ s = (show_op d' o' ++ show_ops d' l') ++ s') in E. rewrite !sapp_assoc, !show_op_app in E. injection E as E.
    destruct (split_eq "(" _ _ _ _ (W o (or_introl eq_refl) _ (or_introl eq_refl)) (W' o' (or_introl eq_refl) _ (or_introl eq_refl)) E) as [EN E1].
    pose proof (types_readable d (op_input o) R) as F1. pose proof (types_readable d' (op_input o') R') as F1'.
    pose proof (types_readable d (op_output o) R) as F2. pose proof (types_readable d' (op_output o') R') as F2'.
    destruct (split_eq ")" _ _ _ _ (joined_without ")" _ (or_introl eq_refl) F1) (joined_without ")" _ (or_introl eq_refl) F1') E1) as [EI E2].
    simpl in E2. injection E2 as E2.
    destruct (split_eq "010" _ _ _ _ (joined_without "010" _ (or_intror eq_refl) F2) (joined_without "010" _ (or_intror eq_refl) F2') E2) as [EO E3].
    destruct (IH l' s s' N N' (fun x I => W x (or_intror I)) (fun x I => W' x (or_intror I)) E3) as [G ->]. split; [|reflexivity]. constructor; [|exact G].
    split; [exact EN|]. split.
    + exists (types_of d (op_input o)). split; [apply parts_types|]. rewrite (joined_inj _ _ F1 F1' EI). apply parts_types.
    + exists (types_of d (op_output o)). split; [apply parts_types|]. rewrite (joined_inj _ _ F2 F2' EO). apply parts_types.
Qed.
Definition show_ports (d : definition) (l : list port) : string := fold_right (fun p s => show_port d p ++ s) "" l.
Lemma show_port_app d p s : show_port d p ++ s = "Port " ++ po_name p ++ String " " (po_address p ++ String "010" (show_ops d (po_ops p) ++ s)).
Proof. unfold show_port. simpl. rewrite !sapp_assoc. simpl. rewrite !sapp_assoc. simpl. reflexivity. Qed.
Lemma ports_no_tab d l : no_tab (show_ports d l).
Proof. destruct l as [|p l]; simpl; [exact I|discriminate]. Qed.
Lemma ports_inj d d' : readable d -> readable d' -> forall l l', incl l (df_ports d) -> incl l' (df_ports d') -> show_ports d l = show_ports d' l' -> Forall2 (same_port d d') l l'.
Proof.
  intros R R'. induction l as [|p l IH]; intros [|p' l'] U U' E; [constructor|discriminate|discriminate|].
  change (show_port d p ++ show_ports d l = show_port d' p' ++ show_ports d' l') in E. rewrite !show_port_app in E. simpl in E. injection E as E.
  pose proof (U p (or_introl eq_refl)) as Q. pose proof (U' p' (or_introl eq_refl)) as Q'.
  destruct (rd_ports d R p Q) as [A B], (rd_ports d' R' p' Q') as [A' B'].
  destruct (split_eq " " _ _ _ _ (A _ (or_introl eq_refl)) (A' _ (or_introl eq_refl)) E) as [E1 E2].
  destruct (split_eq "010" _ _ _ _ (B _ (or_introl eq_refl)) (B' _ (or_introl eq_refl)) E2) as [E3 E4].
  destruct (ops_inj d d' R R' _ _ _ _ (ports_no_tab d l) (ports_no_tab d' l') (fun o => rd_ops d R p o Q) (fun o => rd_ops d' R' p' o Q') E4) as [G E5].
  constructor; [split; auto|]. apply IH; auto; intros x I; [apply U|apply U']; right; exact I.
Qed.
Lemma same_types d d' n n' : (exists l, parts_are d n l /\ parts_are d' n' l) -> show_message (message_of d n) = show_message (message_of d' n').
Proof. intros (l & P & P'). apply parts_one in P, P'. unfold show_message. change (joined (types_of d n) = joined (types_of d' n')). congruence. Qed.
Lemma shows_same d d' : same_told d d' -> show d = show d'.
Proof.
  intros [E F]. unfold show. rewrite E. do 3 f_equal. change (show_ports d (df_ports d) = show_ports d' (df_ports d')).
  induction F as [|p p' l l' (N & A & O) F IH]; [reflexivity|]. change (show_port d p ++ show_ports d l = show_port d' p' ++ show_ports d' l'). rewrite IH. f_equal. unfold show_port. rewrite N, A. do 5 f_equal.
  clear -O. induction O as [|o o' l l' (N & I & R) O IH]; [reflexivity|]. change (show_op d o ++ show_ops d l = show_op d' o' ++ show_ops d' l'). rewrite IH. f_equal.
  unfold show_op. rewrite N, (same_types _ _ _ _ I), (same_types _ _ _ _ R). reflexivity.
Qed.
Theorem show_tells d d' : readable d -> readable d' -> (show d = show d' <-> same_told d d').
Proof.
  intros R R'. split; [|apply shows_same]. intros E. unfold show in E. simpl in E. injection E as E.
  destruct (split_eq "010" _ _ _ _ (rd_tns d R _ (or_introl eq_refl)) (rd_tns d' R' _ (or_introl eq_refl)) E) as [E1 E2].
  split; [exact E1|]. exact (ports_inj d d' R R' _ _ (fun x I => I) (fun x I => I) E2).
Qed.

(* the lines *)
Lemma joined_list l : comma_list l (joined l).
Proof. induction l as [|x [|y l] IH]; [constructor|constructor|]. change (joined (x :: y :: l)) with (x ++ ", " ++ joined (y :: l)). constructor. exact IH. Qed.
Lemma line_first a s ls : ~ occurs "010" a -> lines s ls -> lines (a ++ String "010" s) (a :: ls).
Proof. intros N L. constructor; assumption. Qed.
Lemma ops_lines d : readable d -> forall l s ls, (forall o, In o l -> without ["("%char; "010"%char] (nlocal (op_name o))) -> lines s ls ->
  exists ol, Forall2 (op_line d) l ol /\ lines (show_ops d l ++ s) (ol ++ ls)%list.
Proof.
  intros R. induction l as [|o l IH]; intros s ls W L; [exists []; split; [constructor|exact L]|].
  destruct (IH s ls (fun x I => W x (or_intror I)) L) as (ol & F & G).
  exists (String "009" (nlocal (op_name o) ++ "(" ++ show_message (message_of d (op_input o)) ++ ") -> " ++ show_message (message_of d (op_output o))) :: ol). split.
  - constructor; [|exact F]. exists (types_of d (op_input o)), (types_of d (op_output o)), (show_message (message_of d (op_input o))), (show_message (message_of d (op_output o))).
    split; [apply parts_types|]. split; [apply parts_types|]. split; [apply joined_list|]. split; [apply joined_list|]. reflexivity.
  - change (show_ops d (o :: l)) with (show_op d o ++ show_ops d l). rewrite sapp_assoc. 
    replace (show_op d o ++ (show_ops d l ++ s)) with (String "009" (nlocal (op_name o) ++ "(" ++ show_message (message_of d (op_input o)) ++ ") -> " ++ show_message (message_of d (op_output o))) ++ String "010" (show_ops d l ++ s)).
    2:{ rewrite show_op_app. simpl. rewrite !sapp_assoc. simpl. rewrite !sapp_assoc. simpl. reflexivity. }
    apply line_first; [|exact G]. rewrite occurs_one. intros [O|O]; [discriminate|]. rewrite occurs_app in O. destruct O as [O|O]; [exact (W o (or_introl eq_refl) _ (or_intror (or_introl eq_refl)) O)|].
    simpl in O. rewrite occurs_one in O. destruct O as [O|O]; [discriminate|]. rewrite occurs_app in O. destruct O as [O|O]; [exact (joined_without "010" _ (or_intror eq_refl) (types_readable d (op_input o) R) O)|].
    simpl in O. rewrite !occurs_one in O. repeat (destruct O as [O|O]; [discriminate|]). exact (joined_without "010" _ (or_intror eq_refl) (types_readable d (op_output o) R) O).
Qed.
Lemma ports_lines d : readable d -> forall l, incl l (df_ports d) -> exists pl, Forall2 (port_lines d) l pl /\ lines (show_ports d l) (List.concat pl).
Proof.
  intros R. induction l as [|p l IH]; intros U; [exists []; split; constructor|].
  destruct (IH (fun x I => U x (or_intror I))) as (pl & F & G). pose proof (U p (or_introl eq_refl)) as Q. destruct (rd_ports d R p Q) as [A B].
  destruct (ops_lines d R (po_ops p) _ _ (fun o => rd_ops d R p o Q) G) as (ol & F' & G').
  exists ((("Port " ++ po_name p ++ " " ++ po_address p) :: ol) :: pl). split; [constructor; [constructor; exact F'|exact F]|].
  change (show_ports d (p :: l)) with (show_port d p ++ show_ports d l).
  replace (show_port d p ++ show_ports d l) with (("Port " ++ po_name p ++ " " ++ po_address p) ++ String "010" (show_ops d (po_ops p) ++ show_ports d l)).
  2:{ rewrite show_port_app. simpl. rewrite !sapp_assoc. simpl. reflexivity. }
  simpl List.concat. apply (line_first ("Port " ++ po_name p ++ " " ++ po_address p)); [|exact G']. intros O. change ("Port " ++ po_name p ++ " " ++ po_address p) with (String "P" (String "o" (String "r" (String "t" (String " " (po_name p ++ String " " (po_address p))))))) in O.
  rewrite !occurs_one in O. repeat (destruct O as [O|O]; [discriminate|]). rewrite occurs_app, occurs_one in O. destruct O as [O|[O|O]]; [exact (A _ (or_intror (or_introl eq_refl)) O)|discriminate|exact (B _ (or_introl eq_refl) O)].
Qed.
Theorem show_lines d : readable d -> exists pl, Forall2 (port_lines d) (df_ports d) pl /\ lines (show d) (("Namespace:  " ++ df_tns d) :: List.concat pl).
Proof.
  intros R. destruct (ports_lines d R (df_ports d) (fun x I => I)) as (pl & F & G). exists pl. split; [exact F|].
  change (show d) with (("Namespace:  " ++ (df_tns d ++ String "010" (show_ports d (df_ports d))))). rewrite <- sapp_assoc. apply line_first; [|exact G].
  intros O. simpl in O. rewrite !occurs_one in O. repeat (destruct O as [O|O]; [discriminate|]). exact (rd_tns d R _ (or_introl eq_refl) O).
Qed.
