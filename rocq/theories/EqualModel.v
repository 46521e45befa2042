(* Model of xmltree/compare.go. The two arguments are disjoint trees (no shared arrays);
   Equal reorders Children in place, so the model returns both trees as left by the call. *)
From Verif Require Import Base ScopeModel TreeModel ParseModel.

(* bytes.TrimSpace: white space as in unicode.IsSpace, UTF-8 encoded; all other bytes,
   including invalid UTF-8, are kept *)
Definition s1 (c : ascii) : string := String c "".
Definition bytes (l : list N) : string := fold_right (fun n s => String (ascii_of_N n) s) "" l.
Definition white : list string :=
  map bytes [[9]; [10]; [11]; [12]; [13]; [32]; [194; 133]; [194; 160]; [225; 154; 128];
    [226; 128; 128]; [226; 128; 129]; [226; 128; 130]; [226; 128; 131]; [226; 128; 132]; [226; 128; 133];
    [226; 128; 134]; [226; 128; 135]; [226; 128; 136]; [226; 128; 137]; [226; 128; 138]; [226; 128; 168];
    [226; 128; 169]; [226; 128; 175]; [226; 129; 159]; [227; 128; 128]]%N.

Fixpoint s_drop (k : nat) (s : string) : string :=
  match k, s with S k', String _ s' => s_drop k' s' | _, _ => s end.
Fixpoint s_rev_onto (s acc : string) : string :=
  match s with EmptyString => acc | String c s' => s_rev_onto s' (String c acc) end.
Definition s_rev (s : string) : string := s_rev_onto s "".

Fixpoint trim_front (ws : list string) (fuel : nat) (s : string) : string :=
  match fuel with
  | O => s
  | S fuel' => match find (fun w => String.prefix w s) ws with
               | Some w => trim_front ws fuel' (s_drop (String.length w) s)
               | None => s
               end
  end.
Definition trim_left (s : string) : string := trim_front white (String.length s) s.
Definition trim_right (s : string) : string := s_rev (trim_front (map s_rev white) (String.length s) (s_rev s)).
Definition trim_space (s : string) : string := trim_right (trim_left s).

(* compare.go:47-68. attrs[a.Name] = a.Value keeps the last value of a repeated name *)
Definition attr_map (l : list xattr) (n : xname) : option string :=
  match find_last (fun a => xname_eqb (aname a) n) (filter (fun a => negb (is_decl a)) l) with
  | Some a => Some (avalue a)
  | None => None
  end.
Definition equal_element (a b : elem) : bool :=
  xname_eqb (e_name a) (e_name b) &&
  forallb (fun x => match attr_map (e_attrs a) (aname x) with
                    | Some v => String.eqb v (avalue x)
                    | None => false
                    end) (filter (fun x => negb (is_decl x)) (e_attrs b)).

(* compare.go:18-20 *)
Definition ekey (e : elem) : string := (nspace (e_name e) ++ nlocal (e_name e))%string.

Section Equal.
  (* sort.Sort sees the elements only through Less, so the permutation it performs is a
     function of the sequence of keys: the result's i-th element is number (nth i) *)
  Variable sortp : list string -> list nat.
  Definition sort_by_name (l : list elem) : list elem :=
    flat_map (fun i => match nth_error l i with Some e => [e] | None => [] end) (sortp (map ekey l)).

  (* compare.go:23-45. levels = maxDepth + 1 - depth *)
  Fixpoint equal (levels : nat) (a b : elem) : bool * elem * elem :=
    match levels with
    | O => (false, a, b)
    | S levels' =>
        if negb (equal_element a b) then (false, a, b)
        else if negb (List.length (e_children a) =? List.length (e_children b)) then (false, a, b)
        else match e_children a with
             | [] => (String.eqb (trim_space (e_content a)) (trim_space (e_content b)), a, b)
             | _ =>
                 let '(r, la, lb) :=
                   (fix loop (la lb : list elem) {struct la} : bool * list elem * list elem :=
                      match la, lb with
                      | x :: la', y :: lb' =>
                          let '(r, x', y') := equal levels' x y in
                          if r then let '(r', la'', lb'') := loop la' lb' in (r', x' :: la'', y' :: lb'')
                          else (false, x' :: la', y' :: lb')
                      | _, _ => (true, la, lb)
                      end) (sort_by_name (e_children a)) (sort_by_name (e_children b)) in
                 (r, with_children a la, with_children b lb)
             end
    end.

  (* compare.go:11-13; maxDepth = 1000 *)
  Definition equal_top (a b : elem) : bool * elem * elem := equal (N.to_nat 1001) a b.
  Definition Equal (a b : elem) : bool := fst (fst (equal_top a b)).
End Equal.
