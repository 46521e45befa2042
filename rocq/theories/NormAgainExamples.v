(* Concrete schemas for normalising again. *)
From Verif Require Import Base GraphModel ScopeModel ScopeSpec ScopeProofs TreeModel TreeSpec TreeProofs BuiltinModel XsdModel XsdProofs NormModel NormMem NormOps NormPath NormSpec NormHoistSpec NormRefSpec NormIndex NormRefs NormFlatten NormBuild NormExamples NormFixed NormAgain.
Local Open Scope string_scope.

Definition plainb (e : elem) : bool :=
  let ds := flat_map subs (e_children e) in
  xname_eqb (e_name e) (xs "schema") &&
  forallb (fun d => existsb (fun n => String.eqb (nspace n) schemaNS) (e_scope d)) ds &&
  forallb (fun d => negb (xname_eqb (e_name d) (xs "complexType")) || forallb (fun k => negb (xname_eqb (e_name k) (xs "complexType"))) (e_children d)) (subs e) &&
  forallb (fun d => negb (has_anon_el d)) ds && forallb (fun d => String.eqb (attr d "" "ref") "") ds && forallb (fun d => negb (has_groups d)) ds.
Lemma plainb_ok e : plainb e = true -> plain e.
Proof.
  unfold plainb. rewrite !andb_true_iff, !forallb_forall. intros (((((A & B) & C) & D) & E) & F). constructor.
  - apply xname_eqb_eq, A.
  - intros q d Hd. specialize (B d (descendant_subs e q d Hd)). apply existsb_exists in B. destruct B as (n & Hn & B). apply String.eqb_eq in B. exists (nlocal n). rewrite <- B. destruct n; exact Hn.
  - intros q d k Hq N Hk. specialize (C d (sub_subs q e d Hq)). apply orb_true_iff in C. destruct C as [C|C]; [apply negb_true_iff, xname_eqb_neq in C; contradiction|]. rewrite forallb_forall in C. specialize (C k Hk). apply negb_true_iff, xname_eqb_neq in C. exact C.
  - intros q d k Hd Hk N Z. specialize (D d (descendant_subs e q d Hd)). apply negb_true_iff in D. assert (X : has_anon_el d = true); [|congruence]. apply existsb_exists. exists k. split; [exact Hk|]. unfold anon_el, type_el. rewrite Z. cbn [String.eqb]. rewrite andb_true_r. apply orb_true_iff. rewrite !xname_eqb_eq. exact N.
  - intros q d Hd. apply String.eqb_eq. exact (E d (descendant_subs e q d Hd)).
  - intros q d k Hd Hk. specialize (F d (descendant_subs e q d Hd)). apply negb_true_iff in F. split; intros N; (assert (X : has_groups d = true); [|congruence]); apply existsb_exists; exists k; (split; [exact Hk|]); unfold group_el; apply orb_true_iff; rewrite !xname_eqb_eq; auto.
Qed.

Definition plain_schema : elem :=
  schema_el [xel "element" [("name", "p")] []; xel "complexType" [("name", "t")] [xel "choice" [] [xel "element" [("name", "q"); ("type", "xs:int")] []; xel "sequence" [] [xel "element" [("name", "r")] []]]; xel "attribute" [("name", "u")] []]].
Definition plain_result : elem :=
  schema_el [xel "element" [("name", "p"); ("type", "xs:anyType")] [];
    xel "complexType" [("name", "t")] [xel "complexContent" [] [xel "restriction" [("base", "xs:anyType")]
      [xel "choice" [] [xel "element" [("name", "q"); ("type", "xs:int"); ("minOccurs", "0")] []; xel "sequence" [] [xel "element" [("name", "r"); ("type", "xs:anyType"); ("minOccurs", "0")] []]];
       xel "attribute" [("name", "u"); ("type", "xs:anySimpleType")] []]]]].
Lemma plain_schema_ok : 3 * height plain_schema <= 20 /\ plain plain_schema /\ normalized [plain_schema] = Done [Some plain_result] /\ normalized [plain_result] = Done [Some plain_result].
Proof. split; [vm_compute; lia|]. split; [apply plainb_ok; vm_compute; reflexivity|]. split; vm_compute; reflexivity. Qed.

(* a group in a choice: its members are unpacked after choices have been looked at *)
Definition group_choice : elem :=
  schema_el [xel "group" [("name", "g")] [xel "sequence" [] [xel "element" [("name", "q"); ("type", "xs:int")] []]];
             xel "complexType" [("name", "t")] [xel "choice" [] [xel "group" [("ref", "a:g")] []; xel "element" [("name", "r"); ("type", "xs:int")] []]]].
Definition outcome (e : elem) : elem := match normalized [e] with Done [Some e'] => e' | _ => schema_el [] end.
Lemma group_required : exists e' d d2, normalized [group_choice] = Done [Some e'] /\ normalized [e'] <> Done [Some e'] /\
  sub e' [1; 0; 0; 0] = Some d /\ e_name d = xs "choice" /\ sub e' [1; 0; 0; 0; 0; 0] = Some d2 /\ e_name d2 = xs "element" /\ attr d2 "" "name" = "q" /\ attr d2 "" "minOccurs" = "".
Proof.
  exists (outcome group_choice). eexists. eexists. split; [vm_compute; reflexivity|]. split.
  - intros H. assert (X : outcome (outcome group_choice) = outcome group_choice) by (unfold outcome at 1; rewrite H; reflexivity). vm_compute in X. discriminate X.
  - split; [vm_compute; reflexivity|]. split; [reflexivity|]. split; [vm_compute; reflexivity|]. split; [reflexivity|]. split; reflexivity.
Qed.

(* a plain schema beside one with groups *)
Lemma beside_groups : 3 * height plain_schema <= 20 /\ plain plain_schema /\ exists e', normalized [group_choice; plain_schema] = Done [Some e'; Some plain_result].
Proof. split; [vm_compute; lia|]. split; [apply plainb_ok; vm_compute; reflexivity|]. eexists. vm_compute. reflexivity. Qed.
