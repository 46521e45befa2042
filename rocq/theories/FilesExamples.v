(* Files that import files: cases and counterexamples. *)
From Verif Require Import Base ScopeModel TreeModel TreeSpec EqualModel BuiltinModel XsdModel XsdSpec XsdProofs TypesModel GenModel SgModel SgStruct FilesModel FilesSpec FilesProofs.
Local Open Scope string_scope.

Definition imp (loc : string) : elem := Elem (xs "import") (if String.eqb loc "" then [] else [mkAttr (mkName "" "schemaLocation") loc]) [] "" [].
Definition schema_of (ns : string) (l : list string) : elem := Elem (xs "schema") [mkAttr (mkName "" "targetNamespace") ns] [] "" (map imp l).
Definition disk (l : list (string * elem)) (f : string) : option elem := sget f l.
Definition diamond := disk [("a.xsd", schema_of "a" ["b.xsd"; "c.xsd"]); ("b.xsd", schema_of "b" ["d.xsd"]); ("c.xsd", schema_of "c" ["d.xsd"]); ("d.xsd", schema_of "d" [])].
Definition ns_of (r : run (list elem)) : list string := match r with Ret l => map (fun e => attr e "" "targetNamespace") l | _ => [] end.
Lemma diamond_read : ns_of (read_files elem diamond Some 5 true ["a.xsd"]) = ["d"; "b"; "d"; "c"; "a"].
Proof. vm_compute. reflexivity. Qed.
Lemma diamond_twice : exists k l x l1 l2 l3, read_files elem diamond Some k true ["a.xsd"] = Ret l /\ l = (l1 ++ x :: l2 ++ x :: l3)%list.
Proof. exists 5. eexists. exists (schema_of "d" []), [], [schema_of "b" ["d.xsd"]], [schema_of "c" ["d.xsd"]; schema_of "a" ["b.xsd"; "c.xsd"]]. split; vm_compute; reflexivity. Qed.
Lemma disk_uses l f g : uses elem (disk l) Some g f <-> exists d, sget f l = Some d /\ In g (locs d).
Proof. split; intros [d [H C]]; exists d; (split; [exact H|]); apply (cites_locs elem Some d d g eq_refl) in C || apply (cites_locs elem Some d d g eq_refl); exact C. Qed.
Lemma diamond_acc f : In f ["a.xsd"] -> Acc (uses elem diamond Some) f.
Proof.
  assert (forall f, (forall g, uses elem diamond Some g f -> Acc (uses elem diamond Some) g) -> Acc (uses elem diamond Some) f) as A by (intros; constructor; auto).
  assert (Acc (uses elem diamond Some) "d.xsd") as Hd by (apply A; intros g U; apply disk_uses in U as [d [[= <-] I]]; vm_compute in I; destruct I).
  assert (Acc (uses elem diamond Some) "b.xsd") as Hb by (apply A; intros g U; apply disk_uses in U as [d [[= <-] I]]; vm_compute in I; destruct I as [<-|[]]; exact Hd).
  assert (Acc (uses elem diamond Some) "c.xsd") as Hc by (apply A; intros g U; apply disk_uses in U as [d [[= <-] I]]; vm_compute in I; destruct I as [<-|[]]; exact Hd).
  intros [<-|[]]. apply A. intros g U. apply disk_uses in U as [d [[= <-] I]]. vm_compute in I. destruct I as [<-|[<-|[]]]; assumption.
Qed.
Definition ring := disk [("a.xsd", schema_of "a" ["b.xsd"]); ("b.xsd", schema_of "b" ["a.xsd"])].
Lemma ring_needed f : needed elem ring Some ["a.xsd"] f -> f = "a.xsd" \/ f = "b.xsd".
Proof.
  induction 1 as [f [<-|[]]|f g N IH U]; [left; reflexivity|]. apply disk_uses in U as [d [E I]]. destruct IH as [->| ->]; injection E as <-; vm_compute in I; destruct I as [<-|[]]; auto.
Qed.
Lemma ring_ok : (forall f, needed elem ring Some ["a.xsd"] f -> readable elem ring Some f) /\ needed elem ring Some ["a.xsd"] "a.xsd" /\ cyclic elem ring Some "a.xsd" "a.xsd".
Proof.
  split; [|split].
  - intros f N. apply ring_needed in N as [->| ->]; eexists; eexists; split; reflexivity.
  - apply ne_given. left. reflexivity.
  - apply (cy_more elem ring Some "a.xsd" "b.xsd"); [apply cy_one|]; apply disk_uses; eexists; (split; [reflexivity|]); vm_compute; left; reflexivity.
Qed.
(* an import without a location *)
Definition bare_import := disk [("a.xsd", schema_of "a" [""])].
Lemma bare_import_fails k : read_files elem bare_import Some (S (S k)) true ["a.xsd"] = Fail.
Proof. vm_compute. reflexivity. Qed.
(* GenAST on files that cannot be read *)
Lemma error_lost {D A} (fs : string -> option D) tree (gen_code : list D -> run A) files : (forall f, In f files -> Acc (uses D fs tree) f) ->
  (exists f, needed D fs tree files f /\ ~ readable D fs tree f) ->
  exists K, forall k, K <= k -> gen_ast_files D fs tree A gen_code k true files = gen_code [].
Proof.
  intros H N. destruct (read_returns D fs tree files H) as [K G]. exists K. intros k L. unfold gen_ast_files. rewrite (proj2 (G k L) N). reflexivity.
Qed.
Lemma nothing_found deps tree : check_namespaces (lookup_target_ns elem tree []) deps = inr [].
Proof. unfold check_namespaces, primaries. cbn. induction deps as [|d deps IH]; [reflexivity|]. cbn. exact IH. Qed.
