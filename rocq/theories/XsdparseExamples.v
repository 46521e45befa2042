(* xsdparse on a definition of a service with two schemas in it. *)
From Verif Require Import Base ScopeModel TreeModel TreeSpec ParseModel DecodeModel ParseSpec ParseProofs MarshalModel IndentExamples.
From Verif Require Import GraphModel BuiltinModel XsdModel NormModel NormMem NormOps NormSpec NormFixed NormExamples NormRefSpec NormIndex NormStart NormDocs XsdparseModel XsdparseSpec XsdparseProofs StdSchema.
Local Open Scope string_scope.

Definition service : string := "<definitions><types>" ++
  "<schema xmlns=""http://www.w3.org/2001/XMLSchema"" xmlns:t=""urn:a"" targetNamespace=""urn:a""><complexType name=""T""><sequence><element name=""x""/></sequence></complexType></schema>" ++
  "<schema xmlns=""http://www.w3.org/2001/XMLSchema"" targetNamespace=""urn:b""><attribute name=""y"" /></schema></types></definitions>".
Definition told (s : string) : option elem := parse_text isort_ns decode s.
Definition known (l : list string) : list elem := flat_map (fun s => match told s with Some e => [e] | None => [] end) l.
Definition std_trees : list elem := Eval vm_compute in known standard_schema.
Definition service_trees : list elem := Eval vm_compute in known [service].
Notation run_xsdparse := (xsdparse isort_ns decode dbl dbl pow2 pow2 standard_schema 30).

Lemma std_told : Forall2 (fun s e => told s = Some e) standard_schema std_trees.
Proof. unfold standard_schema, std_trees. repeat apply Forall2_cons; try apply Forall2_nil; match goal with |- told ?s = Some ?e => vm_cast_no_check (eq_refl (Some e)) end. Qed.
Lemma service_told : Forall2 (fun s e => told s = Some e) [service] service_trees.
Proof. unfold service_trees. repeat apply Forall2_cons; try apply Forall2_nil; match goal with |- told ?s = Some ?e => vm_cast_no_check (eq_refl (Some e)) end. Qed.

Definition workable_b (fuel : nat) (e : elem) : bool := Nat.leb (height e) fuel && (is_schema e || forallb (fun d => negb (is_schema d) || match search_func_elems is_schema d with [] => true | _ => false end) (subs e)).
Lemma sub_subs : forall q e d, sub e q = Some d -> In d (subs e).
Proof.
  induction q as [|i q IH]; intros e d H; rewrite subs_eq; cbn [sub] in H; [injection H as <-; left; auto|]. destruct (nth_error (e_children e) i) as [k|] eqn:E; [|discriminate].
  right. apply in_flat_map. exists k. split; [eapply nth_error_In; eauto|auto].
Qed.
Lemma workable_ok fuel docs : forallb (workable_b fuel) docs = true -> workable fuel docs.
Proof.
  intros H. apply Forall_forall. intros e He. rewrite forallb_forall in H. specialize (H e He). unfold workable_b in H. apply andb_prop in H. destruct H as [H1 H2]. split; [apply Nat.leb_le; auto|].
  intros Hs q d Hd Hg. rewrite Hs in H2. cbn [orb] in H2. rewrite forallb_forall in H2. specialize (H2 d (sub_subs q e d Hd)). rewrite Hg in H2. cbn [negb orb] in H2. destruct (search_func_elems is_schema d); [auto|discriminate].
Qed.
Lemma service_workable : workable 30 (service_trees ++ std_trees).
Proof. apply workable_ok. vm_compute. reflexivity. Qed.

Definition service_out : string :=
"<schema targetNamespace=""urn:a"" xmlns=""http://www.w3.org/2001/XMLSchema"" xmlns:t=""urn:a"">
  <complexType name=""T"">
    <complexContent>
      <restriction base=""anyType"">
        <sequence>
          <element name=""x"" type=""anyType"" />
        </sequence>
      </restriction>
    </complexContent>
  </complexType>
</schema>

<schema targetNamespace=""urn:b"" xmlns=""http://www.w3.org/2001/XMLSchema"">
  <attribute name=""y"" type=""anySimpleType"" />
</schema>

".
Lemma service_exits : run_xsdparse "" [Some service] = Exits service_out.
Proof. vm_cast_no_check (eq_refl (Exits service_out)). Qed.
Lemma not_there ns l : forallb (fun s => negb (String.eqb (namespace_of s) ns)) l = true -> forall s, In s l -> namespace_of s <> ns.
Proof. intros H s Hs E. rewrite forallb_forall in H. specialize (H s Hs). rewrite E, String.eqb_refl in H. discriminate. Qed.
Lemma a_not_there : forall s, In s std_trees -> namespace_of s <> "urn:a".
Proof. apply not_there. vm_cast_no_check (eq_refl true). Qed.
Lemma service_a : run_xsdparse "urn:a" [Some service] = Exits service_out.
Proof. exact (eq_trans (ns_ignored isort_ns decode dbl dbl pow2 pow2 standard_schema 30 "urn:a" [Some service] std_trees std_told a_not_there) service_exits). Qed.
Lemma service_shown : map namespace_of (filter (shown "urn:a" std_trees) (flat_map schemas_of (service_trees ++ std_trees))) = ["urn:a"; "urn:b"].
Proof. vm_compute. reflexivity. Qed.
Lemma service_shown_xml : map namespace_of (filter (shown "http://www.w3.org/XML/1998/namespace" std_trees) (flat_map schemas_of (service_trees ++ std_trees))) = ["urn:a"; "urn:b"; "http://www.w3.org/XML/1998/namespace"].
Proof. vm_compute. reflexivity. Qed.
Lemma alike_namespaces : forall es ts, Forall2 alike es ts -> map namespace_of ts = map namespace_of es.
Proof. induction 1 as [|e t es ts H F IH]; cbn [map]; auto. rewrite IH. f_equal. destruct H as (_ & H & _). unfold namespace_of, attr. rewrite H. reflexivity. Qed.
Lemma service_both : exists trees t, service_out = printed trees /\ In t trees /\ namespace_of t <> "urn:a".
Proof.
  destruct (output isort_ns decode dbl dbl pow2 pow2 standard_schema 30 "urn:a" [service] service_trees std_trees service_out service_told std_told service_workable service_a) as (trees & E & F).
  apply alike_namespaces in F. rewrite service_shown in F. destruct trees as [|t [|u trees]]; try discriminate. exists (t :: u :: trees), u. split; [auto|]. split; [right; left; auto|]. cbn [map] in F. injection F as _ F _. rewrite F. discriminate.
Qed.
