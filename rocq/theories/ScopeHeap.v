(* Backing arrays of Scopes: xmltree.go:73-75 (JoinScope), 164-188 (pushNS) and the copy of
   el.Scope into each child at line 265. A slice header is (array, len, cap) with offset 0
   (all the slicing in these functions starts at 0). append follows the Go rule: it writes
   into the existing array when there is room, otherwise allocates a new array with
   capacity [grow oldcap needed] and copies. *)
From Verif Require Import Base.

Record header := mkHdr { h_arr : nat; h_len : nat; h_cap : nat }.

(* the heap: array number -> cells; unwritten cells hold the zero xml.Name *)
Definition heap := list (list xname).
Definition zero_name := mkName "" "".

Definition arr_get (hp : heap) (a : nat) : list xname := nth a hp [].

Fixpoint list_upd {A} (l : list A) (i : nat) (x : A) : list A :=
  match l, i with
  | [], _ => []
  | _ :: l', O => x :: l'
  | y :: l', S i' => y :: list_upd l' i' x
  end.

(* write xs into cells from, from+1, ... *)
Fixpoint write_at (cells : list xname) (from : nat) (xs : list xname) : list xname :=
  match xs with
  | [] => cells
  | x :: xs' => write_at (list_upd cells from x) (S from) xs'
  end.

(* what a reader of the slice sees *)
Definition contents (hp : heap) (s : header) : list xname := firstn (h_len s) (arr_get hp (h_arr s)).

Section Grow.
  (* capacity chosen by append when it reallocates; the Go specification only says it is
     large enough *)
  Variable grow : nat -> nat -> nat.

  (* append(s, xs...) *)
  Definition go_append (hp : heap) (s : header) (xs : list xname) : heap * header :=
    let need := h_len s + List.length xs in
    if need <=? h_cap s then
      (list_upd hp (h_arr s) (write_at (arr_get hp (h_arr s)) (h_len s) xs),
       mkHdr (h_arr s) need (h_cap s))
    else
      let cap := grow (h_cap s) need in
      (hp ++ [contents hp s ++ xs ++ repeat zero_name (cap - need)],
       mkHdr (List.length hp) need cap).

  (* s[:len(s):len(s)] *)
  Definition clip (s : header) : header := mkHdr (h_arr s) (h_len s) (h_len s).

  (* operations on a growing table of Scope values *)
  Inductive op :=
  | ONew                                  (* the zero Scope (root element) *)
  | OCopy (i : nat)                       (* child := Element{..., Scope: el.Scope}, line 265 *)
  | OPush (i : nat) (decls : list xname)  (* scope i .pushNS, lines 180-186 *)
  | OJoin (i j : nat).                    (* new := i.JoinScope(j), line 74 *)

  (* a nil slice: no array, length and capacity 0 *)
  Definition nil_hdr := mkHdr 0 0 0.

  Record state := mkState { st_heap : heap; st_tab : list header }.
  Definition get (st : state) (i : nat) : header := nth i (st_tab st) nil_hdr.

  Definition step (st : state) (o : op) : state :=
    match o with
    | ONew => mkState (st_heap st) (st_tab st ++ [nil_hdr])
    | OCopy i => mkState (st_heap st) (st_tab st ++ [get st i])
    | OPush i decls =>
        if 0 <? List.length decls then
          let (hp, s) := go_append (st_heap st) (get st i) decls in
          mkState hp (list_upd (st_tab st) i (clip s))
        else st
    | OJoin i j =>
        let (hp, s) := go_append (st_heap st) (get st i) (contents (st_heap st) (get st j)) in
        mkState hp (st_tab st ++ [s])
    end.

  Definition run (ops : list op) : state := fold_left step ops (mkState [[]] []).

  (* the contents of every Scope value ever created *)
  Definition observe (st : state) : list (list xname) := map (contents (st_heap st)) (st_tab st).
End Grow.

(* ---- the intended value semantics: every Scope value is an independent list ---- *)
Definition vstep (tab : list (list xname)) (o : op) : list (list xname) :=
  match o with
  | ONew => tab ++ [[]]
  | OCopy i => tab ++ [nth i tab []]
  | OPush i decls => list_upd tab i (nth i tab [] ++ decls)
  | OJoin i j => tab ++ [nth i tab [] ++ nth j tab []]
  end.
Definition vrun (ops : list op) : list (list xname) := fold_left vstep ops [].

(* a history is well-formed if it only mentions existing scopes; it is [join_free] if no
   JoinScope result (or copy of one) is used as the receiver of a push or join *)
Fixpoint safe_from (tainted : list bool) (ops : list op) : bool :=
  match ops with
  | [] => true
  | ONew :: r => safe_from (tainted ++ [false]) r
  | OCopy i :: r => (i <? List.length tainted) && safe_from (tainted ++ [nth i tainted true]) r
  | OPush i _ :: r => (i <? List.length tainted) && negb (nth i tainted true) && safe_from tainted r
  | OJoin i j :: r => (i <? List.length tainted) && (j <? List.length tainted) &&
                      negb (nth i tainted true) && safe_from (tainted ++ [true]) r
  end.
Definition safe (ops : list op) : bool := safe_from [] ops.
