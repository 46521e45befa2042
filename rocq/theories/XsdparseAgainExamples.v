(* A schema that xsdparse prints, and prints again. *)
From Verif Require Import Base ScopeModel ScopeSpec TreeModel TreeSpec TreeProofs ParseModel DecodeModel ParseSpec ParseProofs MarshalModel MarshalSpec MarshalProofs IndentExamples.
From Verif Require UnmExamples.
From Verif Require Import GraphModel BuiltinModel XsdModel NormModel NormMem NormOps NormSpec NormFixed NormExamples NormAgain NormAgainExamples NormStart NormDocs NormAmong NormPlainDocs NormRereadNormal XsdparseModel XsdparseSpec XsdparseProofs StdSchema XsdparseExamples XsdparseAgain.
From Coq Require Import Sorted.
Local Open Scope string_scope.

Fixpoint tidyb (ps : scope) (e : elem) : bool :=
  match e with
  | Elem n a s c ch =>
      let ds := skipn (List.length ps) s in
      (if list_eq_dec xname_eq_dec s (ps ++ ds)%list then true else false) &&
      (fix go (l : scope) : bool := match l with [] => true | d :: l' => forallb (fun x => s_ltb (nspace d ++ nlocal d) (nspace x ++ nlocal x)) l' && go l' end) ds && forallb (tidyb s) ch
  end.
Lemma tidyb_ok : forall e ps, tidyb ps e = true -> tidy ps e.
Proof.
  induction e as [n a s c ch IH] using elem_ind'. intros ps H. cbn [tidyb] in H. rewrite !andb_true_iff in H. destruct H as ((H1 & H2) & H3). destruct (list_eq_dec xname_eq_dec s _) as [E|]; [|discriminate]. apply tidy_iff. cbn [e_scope e_children]. split.
  - exists (skipn (List.length ps) s). split; [exact E|]. revert H2. generalize (skipn (List.length ps) s). clear. induction l as [|d l IH]; intros H; constructor; apply andb_true_iff in H; destruct H as [A B]; [auto|]. rewrite forallb_forall in A. apply Forall_forall. exact A.
  - rewrite forallb_forall in H3. intros k Hk. apply IH; auto.
Qed.

Definition orders : string := "<schema targetNamespace='urn:a' xmlns='http://www.w3.org/2001/XMLSchema' xmlns:t='urn:a'><complexType name='T'>" ++
  "<choice><element name='x'/><sequence><element name='y' type='int'/></sequence></choice><attribute name='z'/></complexType></schema>".
Definition orders_tree : elem := Eval vm_compute in match told orders with Some e => e | None => Elem (mkName "" "") [] [] "" [] end.
Definition orders_out : string :=
"<schema targetNamespace=""urn:a"" xmlns=""http://www.w3.org/2001/XMLSchema"" xmlns:t=""urn:a"">
  <complexType name=""T"">
    <complexContent>
      <restriction base=""anyType"">
        <choice>
          <element name=""x"" type=""anyType"" minOccurs=""0"" />
          <sequence>
            <element name=""y"" type=""int"" minOccurs=""0"" />
          </sequence>
        </choice>
        <attribute name=""z"" type=""anySimpleType"" />
      </restriction>
    </complexContent>
  </complexType>
</schema>

".
Notation run_deep := (xsdparse isort_ns decode dbl dbl pow2 pow2 standard_schema 60).
Lemma orders_told : parse_text isort_ns decode orders = Some orders_tree.
Proof. vm_cast_no_check (eq_refl (Some orders_tree)). Qed.
Lemma orders_good : plain orders_tree /\ printable [] orders_tree /\ tidy [] orders_tree /\ 9 * height orders_tree <= 60 /\ 3 * height orders_tree <= 3000.
Proof.
  split; [apply plainb_ok; vm_compute; reflexivity|]. split; [apply UnmExamples.printableb_ok; vm_compute; reflexivity|]. split; [apply tidyb_ok; vm_compute; reflexivity|].
  assert (H : Nat.leb (9 * height orders_tree) 60 = true) by (vm_compute; reflexivity). apply Nat.leb_le in H. lia.
Qed.
Lemma std_workable : workable 60 std_trees.
Proof. apply workable_ok. vm_compute. reflexivity. Qed.
Lemma std_apart : forall s, In s std_trees -> e_name s = xs "schema" /\ namespace_of s <> namespace_of orders_tree /\ namespace_of s <> "".
Proof.
  assert (H : forallb (fun s => xname_eqb (e_name s) (xs "schema") && negb (String.eqb (namespace_of s) (namespace_of orders_tree)) && negb (String.eqb (namespace_of s) "")) std_trees = true) by (vm_compute; reflexivity).
  intros s Hs. rewrite forallb_forall in H. specialize (H s Hs). rewrite !andb_true_iff, !negb_true_iff, !String.eqb_neq in H. destruct H as ((A & B) & C). apply xname_eqb_eq in A. auto.
Qed.
Lemma orders_run : run_deep "" [Some orders] = Exits orders_out.
Proof. vm_cast_no_check (eq_refl (Exits orders_out)). Qed.
Lemma orders_rerun : run_deep "" [Some orders_out] = Exits orders_out.
Proof. vm_cast_no_check (eq_refl (Exits orders_out)). Qed.
