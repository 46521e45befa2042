(* From documents to the values of the types generated from them. *)
From Coq Require Import Permutation.
From Verif Require Import Base SortLib ScopeModel TreeModel EqualModel BuiltinModel CodecModel XsdModel XsdProofs TypesModel TypesSpec TypesProofs TypesMixed TypesParse TypesFinal TypesOrder GenModel SgModel SgStruct SgDecl SgFlatSpec SgExpandSpec SliceModel SgGen SgGenSpec SgOrderSpec SgShapeSpec SgShape BindModel BindSpec BindGenSpec BindDecode BindDecodeEx WholeSpec WholeBind PipeModel PipeSpec PipeProofs PipeParse PipeWholeSpec.
Local Open Scope string_scope.

Section Store.
  Variable h : xname -> nat.
  Variable l : list rd.
  Hypothesis D : documents h l.
  Variable ord : nat -> list (xname * ty) -> list (xname * ty).
  Hypothesis O : any_order ord.
  Variables (st : store) (parsed : list (string * types)).
  Hypothesis E : parse_rds ord l = Ok (st, parsed).
  Variable fa : option (attribute -> bool).
  Hypothesis Hfa : forall a t, filtered fa (retype_at a t) = filtered fa a.
  (* a complex type of the result and what it was declared as *)
  Lemma was_complex i c : nth_error st i = Some (DC c) -> exists n c0, nth_error (decls l) i = Some (n, DC c0) /\ PipeSpec.declares l n (DC c0) /\ resolved (TypesSpec.target l parsed) (DC c0) (DC c) /\ became l (ct_base c0) (ct_base c).
  Proof.
    intros H. destruct (st_nth h l D ord O st parsed E i _ H) as (n & d0 & Hi & _ & Re). destruct (st_base h l D ord O st parsed E i _ H) as (m & e & Hm & B). assert (X : (m, e) = (n, d0)) by congruence. injection X as -> ->.
    destruct d0 as [c0|s0]; [|destruct Re]. exists n, c0. split; [exact Hi|]. split; [apply declares_in; exact (nth_error_In _ _ Hi)|]. auto.
  Qed.
  Lemma store_wild : wild_declared l -> wild_named st.
  Proof.
    intros W i c e H He. destruct (was_complex i c H) as (n & c0 & _ & Dn & (_ & Es & _) & _). destruct (forall2_in_r _ _ _ Es e He) as (e0 & He0 & _ & Ee). rewrite Ee. cbn [retype_el el_wild el_name]. exact (W n c0 e0 Dn He0).
  Qed.
  Lemma store_firm : firm_declared fa l -> firm fa st.
  Proof.
    intros F i j (c & Hi & Eb & Cj). unfold complex_at in Cj. destruct Cj as (b & Hj). destruct (was_complex i c Hi) as (n & c0 & _ & Dn & _ & B). destruct (was_complex j b Hj) as (m & b0 & Nj & Dm & Rb & Bb).
    rewrite Eb in B. destruct (ct_base c0) as [|z|k|k] eqn:E0; cbn [became] in B; try contradiction; try discriminate. destruct B as (k' & e & X & Hk). injection X as <-. assert (X : (k, e) = (m, DC b0)) by congruence. injection X as -> ->.
    destruct (F n c0 m b0 Dn E0 Dm) as [Od|(N1 & N2 & N3)].
    - left. exact (own_stays h l D ord O st parsed E fa Hfa m (DC b0) j Nj Od).
    - right. destruct Rb as (_ & Es & As & _). rewrite N1 in Es. rewrite N2 in As. assert (E1 : ct_elems b = []) by (inversion Es; reflexivity). assert (E2 : ct_attrs b = []) by (inversion As; reflexivity).
      replace (@nil element) with (ct_elems b) by exact E1. replace (@nil attribute) with (ct_attrs b) by exact E2. apply inh_root; [exact Hj|]. intros k (b' & Hb' & Ek & (x & Hx)). assert (b' = b) as -> by congruence. rewrite Ek in Bb.
      destruct (was_complex k x Hx) as (q & x0 & Hq & Dq & _). destruct (ct_base b0) as [|z|w|w] eqn:E3; cbn [became] in Bb; try contradiction; try discriminate. destruct Bb as (k' & e & X & Hk'). injection X as <-. assert (X : (w, e) = (q, DC x0)) by congruence. injection X as -> ->.
      exact (N3 q x0 eq_refl Dq).
  Qed.
End Store.
Section Documents.
  Variables (public : xname -> string) (fa : option (attribute -> bool)) (fe : option (element -> bool)) (ft : option (xname -> bool)) (allow : option (list xname)) (helpers : list Z).
  Variables (h : xname -> nat) (l : list rd) (namespaces targets ns : list string).
  Hypothesis Hn : forall b, non_trivial b = true -> memb b helpers = true.
  Hypothesis Hfa : forall a t, filtered fa (retype_at a t) = filtered fa a.
  Hypothesis Hfe : forall e t, filtered fe (retype_el e t) = filtered fe e.
  Hypothesis D : documents h l.
  Hypothesis Hh : forall n, h n <= N.to_nat 1000.
  Hypothesis Im : imports_first l.
  Hypothesis Wd : wild_declared l.
  Hypothesis Fd : firm_declared fa l.
  Hypothesis Ens : namespaces = [] /\ ns = targets \/ namespaces <> [] /\ ns = namespaces.
  Hypothesis Nn : NoDup ns.
  Hypothesis Hns : forall s, In s ns -> exists r, In r l /\ rd_tns r = s.
  Variables (ord : nat -> list (xname * ty) -> list (xname * ty)) (ord' : string -> list (xname * ty) -> list (xname * ty)).
  Hypothesis O : any_order ord.
  Hypothesis O' : forall s m, Permutation m (ord' s m).
  Lemma to_store : exists st parsed, parse_rds ord l = Ok (st, parsed) /\ generable (rank h l) st /\ wild_named st /\ firm fa st /\ (forall i, rank h l i <= N.to_nat 1000) /\
    (forall types t, In types (chosen_types ord' namespaces targets l parsed) -> In t types -> known st t) /\
    forall c, gen public fa fe ft allow helpers false st (chosen_types ord' namespaces targets l parsed) = Ret (inr c) -> gen_code public fa fe ft allow helpers false ord ord' namespaces targets l = Ret (Coded c).
  Proof.
    destruct (documents_parse h l D Im ord O) as (st & parsed & E). exists st, parsed. pose proof (used_is namespaces targets ns Ens) as U. pose proof (ns_incl l ns Hns) as I. pose proof Nn as N. rewrite <- U in I, N.
    split; [exact E|]. split; [exact (st_generable h l D ord O st parsed E Hh)|]. split; [exact (store_wild h l D ord O st parsed E Wd)|]. split; [exact (store_firm h l D ord O st parsed E fa Hfa Fd)|].
    split; [exact (rank_bound h l Hh)|]. split; [exact (chosen_known h l D ord O st parsed E ord' namespaces targets O' I)|].
    intros c Ec. unfold gen_code. rewrite E, (enough h l D ord O st parsed E namespaces targets N I), Ec. reflexivity.
  Qed.
  Theorem documents_shape : exists st parsed c, parse_rds ord l = Ok (st, parsed) /\ gen_code public fa fe ft allow helpers false ord ord' namespaces targets l = Ret (Coded c) /\
    forall x sp, In (x, sp) (co_decls c) -> (exists i, shape public fa fe st i sp /\ x = sp_name sp) \/ exists b, non_trivial b = true /\ x = helper_name b /\ sp = helper_spec b.
  Proof.
    destruct to_store as (st & parsed & E & G & W & F & R & K & Gc). destruct (gen_shape public fa fe ft allow helpers (rank h l) st _ Hn Hfa Hfe G W F R K) as (c & Ec & P). exists st, parsed, c. auto.
  Qed.
  Variables (exported : string -> bool) (decl_attr : xattr -> bool).
  Hypothesis Gn : go_names public.
  Theorem documents_round_trip : exists st parsed c, parse_rds ord l = Ok (st, parsed) /\ gen_code public fa fe ft allow helpers false ord ord' namespaces targets l = Ret (Coded c) /\
    (clear_code public exported decl_attr fa fe st (co_decls c) ->
    forall (Leaf : Type) (print : string -> Leaf -> string) (read : string -> Leaf -> string -> option Leaf) (zero_leaf : string -> Leaf) (is_empty : string -> Leaf -> bool) (zero : gexpr -> val Leaf) (good : string -> Leaf -> Prop) (clean : string -> string),
    zero_ok (structs_of (co_decls c)) Leaf zero_leaf zero ->
    (forall from to x, marshaled_as from to -> good to x -> read to (zero_leaf from) (clean (print to x)) = Some x) ->
    (forall t x, good t x -> is_empty t x = true -> x = zero_leaf t) ->
    forall n v name d, has_type (structs_of (co_decls c)) Leaf good (EId n) v ->
      exists y, marshal exported (structs_of (co_decls c)) Leaf print is_empty v name (EId n) = [y] /\
        forall y', reads_back decl_attr clean d y y' -> unmarshal exported (structs_of (co_decls c)) Leaf read zero y' (EId n) (zero (EId n)) = Some v).
  Proof.
    destruct to_store as (st & parsed & E & G & W & F & R & K & Gc). destruct (whole_round_trip public exported decl_attr fa fe ft allow helpers (rank h l) st _ Hn Hfa Hfe G W F R K Gn) as (c & Ec & P). exists st, parsed, c. auto.
  Qed.
  Theorem documents_decoded : exists st parsed c, parse_rds ord l = Ok (st, parsed) /\ gen_code public fa fe ft allow helpers false ord ord' namespaces targets l = Ret (Coded c) /\
    (clear_code public exported decl_attr fa fe st (co_decls c) ->
    forall (Leaf : Type) (read : string -> Leaf -> string -> option Leaf) (zero : gexpr -> val Leaf) n s i ct es ats,
    structs_of (co_decls c) n = Some s -> sp_type s = TPtr i -> nth_error st i = Some (DC ct) -> inherits st i es ats -> one_wildcard (filter (fun e => negb (filtered fe e)) es) ->
    exists els ats' fs t, Forall2 (el_for fa st) (filter (fun e => negb (filtered fe e)) es) els /\ Forall2 (at_for fa st) (filter (fun a => negb (filtered fa a)) ats) ats' /\ sp_struct s = Some fs /\
    List.length fs = t + List.length els + List.length ats' /\ t <= 1 /\ (ct_mixed ct = false -> t = 0) /\
    forall m attrs kids old v, List.length old = List.length fs ->
      (unmarshal exported (structs_of (co_decls c)) Leaf read zero (NElem m attrs kids) (EId n) (VStruct _ old) = Some v <->
       exists new, v = VStruct _ new /\ List.length new = List.length old /\
         forall j sl f w, nth_error (slots t els ats') j = Some sl -> nth_error fs j = Some f -> nth_error old j = Some w ->
           exists w', nth_error new j = Some w' /\ slot_value exported (structs_of (co_decls c)) Leaf read zero els attrs kids (as_type s f) sl w = Some w')).
  Proof.
    destruct to_store as (st & parsed & E & G & W & F & R & K & Gc). destruct (whole_read public exported decl_attr fa fe ft allow helpers (rank h l) st _ Hn Hfa Hfe G W F R K Gn) as (c & Ec & P). exists st, parsed, c. auto.
  Qed.
End Documents.
