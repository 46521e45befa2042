(* Values of all generated types: written and read back, which elements are written, what is read. *)
From Verif Require Import Base SortLib ScopeModel TreeModel EqualModel BuiltinModel XsdModel XsdProofs TypesModel TypesSpec TypesProofs GraphModel GenModel SgModel SgStruct SgProofs SgTags SgFlatSpec SgFlatten SgExpandSpec SgExpand SgExpandFields SgGen SgGenSpec SgOrderSpec SgShapeSpec SgShape BindModel BindSpec BindProofs BindGen BindGenSpec BindStruct BindDecode BindExamples BindDecodeEx WholeSpec WholeProofs.
Local Open Scope string_scope.

Section Bind.
  Variable public : xname -> string.
  Variable exported : string -> bool.
  Variable declares : xattr -> bool.
  Variable fa : option (attribute -> bool).
  Variable fe : option (element -> bool).
  Variable ft : option (xname -> bool).
  Variable allow : option (list xname).
  Variable helpers : list Z.
  Variable h : nat -> nat.
  Variable st : store.
  Variable schemas : list (list ty).
  Hypothesis Hh : forall b, non_trivial b = true -> memb b helpers = true.
  Hypothesis Hfa : forall a t, filtered fa (retype_at a t) = filtered fa a.
  Hypothesis Hfe : forall e t, filtered fe (retype_el e t) = filtered fe e.
  Hypothesis G : generable h st.
  Hypothesis W : wild_named st.
  Hypothesis Fm : firm fa st.
  Hypothesis Hb : forall i, h i <= N.to_nat 1000.
  Hypothesis K : forall types t, In types schemas -> In t types -> known st t.
  Hypothesis Gn : go_names public.
  Lemma whole_round_trip : exists c, gen public fa fe ft allow helpers false st schemas = Ret (inr c) /\ (clear_code public exported declares fa fe st (co_decls c) ->
    forall (Leaf : Type) (print : string -> Leaf -> string) (read : string -> Leaf -> string -> option Leaf) (zero_leaf : string -> Leaf) (is_empty : string -> Leaf -> bool) (zero : gexpr -> val Leaf) (good : string -> Leaf -> Prop) (clean : string -> string),
    zero_ok (structs_of (co_decls c)) Leaf zero_leaf zero ->
    (forall from to x, marshaled_as from to -> good to x -> read to (zero_leaf from) (clean (print to x)) = Some x) ->
    (forall t x, good t x -> is_empty t x = true -> x = zero_leaf t) ->
    forall n v name d, has_type (structs_of (co_decls c)) Leaf good (EId n) v ->
      exists y, marshal exported (structs_of (co_decls c)) Leaf print is_empty v name (EId n) = [y] /\
        forall y', reads_back declares clean d y y' -> unmarshal exported (structs_of (co_decls c)) Leaf read zero y' (EId n) (zero (EId n)) = Some v).
  Proof.
    destruct (gen_bound public exported declares fa fe ft allow helpers h st schemas Hh Hfa Hfe G W Fm Hb K) as (c & Ec & B). exists c. split; [exact Ec|]. intros Cl Leaf print read zero_leaf is_empty zero good clean. destruct (B Gn Cl) as [Nf Or].
    apply (generated_round_trip public fa fe helpers exported (structs_of (co_decls c)) declares); [exact Nf|]. intros n s E. destruct (Or n s E) as (i & _ & _ & _ & st2 & ck & _ & _ & _ & Gf & _). exists st2, i, ck. exact Gf.
  Qed.
  (* the elements and attributes of a type, those ignored left out *)
  Notation shown_e := (filter (fun e => negb (filtered fe e))).
  Notation shown_a := (filter (fun a => negb (filtered fa a))).
  Lemma whole_written : exists c, gen public fa fe ft allow helpers false st schemas = Ret (inr c) /\ (clear_code public exported declares fa fe st (co_decls c) ->
    forall (Leaf : Type) (print : string -> Leaf -> string) (is_empty : string -> Leaf -> bool) (good : string -> Leaf -> Prop) n s i ct es ats l name,
    structs_of (co_decls c) n = Some s -> sp_type s = TPtr i -> nth_error st i = Some (DC ct) -> ct_mixed ct = false -> inherits st i es ats ->
    has_type (structs_of (co_decls c)) Leaf good (EId n) (VStruct Leaf l) ->
    exists els fs attrs blocks, Forall2 (el_for fa st) (shown_e es) els /\ sp_struct s = Some fs /\ marshal exported (structs_of (co_decls c)) Leaf print is_empty (VStruct Leaf l) name (EId n) = [NElem name attrs (concat blocks)] /\
      Forall2 (block_of Leaf is_empty) (fields_last (combine (combine els fs) l)) blocks).
  Proof.
    destruct (gen_bound public exported declares fa fe ft allow helpers h st schemas Hh Hfa Hfe G W Fm Hb K) as (c & Ec & B). exists c. split; [exact Ec|]. intros Cl Leaf print is_empty good n s i ct es ats l name Es Et Ei Mx J T. destruct (B Gn Cl) as [Nf Or].
    assert (Ag : all_generated public exported (structs_of (co_decls c)) declares fa fe helpers) by (intros m s' E; destruct (Or m s' E) as (i' & _ & _ & _ & st2 & ck & _ & _ & _ & Gf & _); exists st2, i', ck; exact Gf).
    destruct (Or n s Es) as (i' & c0 & es' & ats' & st2 & ck & Et' & Ei' & J' & Gf & Mx' & F). assert (i' = i) as -> by congruence. assert (c0 = ct) as -> by congruence. destruct (inherits_det _ _ _ _ J _ _ J') as [-> ->].
    pose proof (generated_written public fa fe helpers exported (structs_of (co_decls c)) declares Leaf print is_empty good Nf Ag st2 i ck n s l name Es Gf (eq_trans Mx' Mx) T) as R.
    destruct (filter_fields fa fe (inherit st2 ck)) as [ats2 els2]. destruct F as [F1 F2]. destruct R as (fs & attrs & blocks & R1 & R2 & R3). exists els2, fs, attrs, blocks. auto.
  Qed.
  Lemma one_wild es els : Forall2 (el_for fa st) es els -> one_wildcard es -> one_wildcard els.
  Proof.
    intros F O a b e e' Ea Eb Wa Wb. destruct (Forall2_nth _ _ _ F a e Ea) as (x & Ex & _ & Qx). destruct (Forall2_nth _ _ _ F b e' Eb) as (y & Ey & _ & Qy). apply (O a b x y Ex Ey); [rewrite Qx in Wa; exact Wa|rewrite Qy in Wb; exact Wb].
  Qed.
  Lemma whole_read : exists c, gen public fa fe ft allow helpers false st schemas = Ret (inr c) /\ (clear_code public exported declares fa fe st (co_decls c) ->
    forall (Leaf : Type) (read : string -> Leaf -> string -> option Leaf) (zero : gexpr -> val Leaf) n s i ct es ats,
    structs_of (co_decls c) n = Some s -> sp_type s = TPtr i -> nth_error st i = Some (DC ct) -> inherits st i es ats -> one_wildcard (shown_e es) ->
    exists els ats' fs t, Forall2 (el_for fa st) (shown_e es) els /\ Forall2 (at_for fa st) (shown_a ats) ats' /\ sp_struct s = Some fs /\
    List.length fs = t + List.length els + List.length ats' /\ t <= 1 /\ (ct_mixed ct = false -> t = 0) /\
    forall m attrs kids old v, List.length old = List.length fs ->
      (unmarshal exported (structs_of (co_decls c)) Leaf read zero (NElem m attrs kids) (EId n) (VStruct _ old) = Some v <->
       exists new, v = VStruct _ new /\ List.length new = List.length old /\
         forall j sl f w, nth_error (slots t els ats') j = Some sl -> nth_error fs j = Some f -> nth_error old j = Some w ->
           exists w', nth_error new j = Some w' /\ slot_value exported (structs_of (co_decls c)) Leaf read zero els attrs kids (as_type s f) sl w = Some w')).
  Proof.
    destruct (gen_bound public exported declares fa fe ft allow helpers h st schemas Hh Hfa Hfe G W Fm Hb K) as (c & Ec & B). exists c. split; [exact Ec|]. intros Cl Leaf read zero n s i ct es ats Es Et Ei J O. destruct (B Gn Cl) as [Nf Or].
    destruct (Or n s Es) as (i' & c0 & es' & ats' & st2 & ck & Et' & Ei' & J' & Gf & Mx' & F). assert (i' = i) as -> by congruence. assert (c0 = ct) as -> by congruence. destruct (inherits_det _ _ _ _ J _ _ J') as [-> ->].
    pose proof (decoded exported (structs_of (co_decls c)) Leaf read zero public fa fe helpers declares Nf n s st2 i ck Es Gf) as R.
    destruct (filter_fields fa fe (inherit st2 ck)) as [ats2 els2]. destruct F as [F1 F2]. destruct (R (one_wild _ _ F1 O)) as (fs & t & R1 & R2 & R3 & R4 & R5). exists els2, ats2, fs, t. rewrite Mx' in R4. auto 10.
  Qed.
End Bind.
