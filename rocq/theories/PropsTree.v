(* C07, C08: element accessors and searches. *)
From Verif Require Import Base ScopeModel TreeModel TreeSpec TreeProofs.
From Coq Require Import Sorted.

(* C07: Attr returns the value of the first match, or "" *)
Theorem C07_attr_first_match :
  forall e space local,
  (exists l1 a l2, e_attrs e = l1 ++ a :: l2 /\ matches space local (aname a) /\
     (forall b, In b l1 -> ~ matches space local (aname b)) /\ attr e space local = avalue a) \/
  ((forall b, In b (e_attrs e) -> ~ matches space local (aname b)) /\ attr e space local = "").
Proof. exact get_spec. Qed.
Print Assumptions C07_attr_first_match.

(* C07: SetAttr writes exactly one attribute: the first match, or a new one at the end *)
Theorem C07_setattr :
  forall e space local v,
  let e' := set_attr e space local v in
  e_name e' = e_name e /\ e_scope e' = e_scope e /\ e_content e' = e_content e /\
  e_children e' = e_children e /\ attr e' space local = v /\
  ((exists l1 a l2, e_attrs e = l1 ++ a :: l2 /\ matches space local (aname a) /\
      (forall b, In b l1 -> ~ matches space local (aname b)) /\
      e_attrs e' = l1 ++ mkAttr (aname a) v :: l2) \/
   ((forall b, In b (e_attrs e) -> ~ matches space local (aname b)) /\
      e_attrs e' = e_attrs e ++ [mkAttr (mkName space local) v])).
Proof. exact set_spec. Qed.
Print Assumptions C07_setattr.

Theorem C07_setattr_leaves_others :
  forall e space local v s' l',
  (l' <> local \/ (space <> "" /\ s' <> "" /\ s' <> space)) ->
  attr (set_attr e space local v) s' l' = attr e s' l'.
Proof. exact set_other. Qed.
Print Assumptions C07_setattr_leaves_others.

Definition el0 := Elem (mkName "u" "r")
  [mkAttr (mkName "" "a") "1"; mkAttr (mkName "ns" "a") "2"; mkAttr (mkName "" "b") "3"] [] "" [].
Example attr_example :
  attr el0 "" "a" = "1" /\ attr el0 "ns" "a" = "2" /\ attr el0 "zz" "a" = "" /\
  e_attrs (set_attr el0 "ns" "a" "9") =
    [mkAttr (mkName "" "a") "1"; mkAttr (mkName "ns" "a") "9"; mkAttr (mkName "" "b") "3"] /\
  e_attrs (set_attr el0 "q" "b" "9") = e_attrs el0 ++ [mkAttr (mkName "q" "b") "9"].
Proof. vm_compute. tauto. Qed.

(* C08 *)
Theorem C08_searchfunc_exact :
  forall fn root q, In q (search_func fn root) <-> exists e, descendant root q e /\ fn e = true.
Proof. exact search_func_spec. Qed.
Print Assumptions C08_searchfunc_exact.

Theorem C08_searchfunc_document_order :
  forall fn root, StronglySorted doc_before (search_func fn root).
Proof. exact search_func_sorted. Qed.
Print Assumptions C08_searchfunc_document_order.

Theorem C08_searchfunc_once : forall fn root, NoDup (search_func fn root).
Proof. exact search_func_nodup. Qed.
Print Assumptions C08_searchfunc_once.

Theorem C08_flatten_all_descendants :
  forall root q, In q (flatten_el root) <-> exists e, descendant root q e.
Proof. exact flatten_spec. Qed.
Print Assumptions C08_flatten_all_descendants.

Theorem C08_search_by_name :
  forall space local root q,
  In q (search space local root) <-> exists e, descendant root q e /\
     nlocal (e_name e) = local /\ (space = "" \/ nspace (e_name e) = space).
Proof. exact search_spec. Qed.
Print Assumptions C08_search_by_name.

(* document order is a strict order, so C08_searchfunc_document_order determines the list *)
Theorem C08_document_order_is_strict :
  (forall p, ~ doc_before p p) /\ (forall p q r, doc_before p q -> doc_before q r -> doc_before p r).
Proof. exact (conj doc_before_irrefl doc_before_trans). Qed.
Print Assumptions C08_document_order_is_strict.

Definition tree0 :=
  Elem (mkName "u" "a") [] [] "" [
    Elem (mkName "u" "b") [] [] "" [Elem (mkName "v" "a") [] [] "" []; Elem (mkName "u" "c") [] [] "" []];
    Elem (mkName "u" "a") [] [] "" []].
Example search_example :
  search "" "a" tree0 = [[0; 0]; [1]] /\ search "u" "a" tree0 = [[1]] /\
  flatten_el tree0 = [[0]; [0; 0]; [0; 1]; [1]].
Proof. vm_compute. auto. Qed.
