(* Model of HandleSOAPArrayType: parseSOAPArrayType and overrideWildcardType (xsdgen/config.go:500-592),
   run over the types of a schema as a pre-processing step (xsdgen/xsdgen.go:157-176). Log output is
   left out. Lists are values; the copy of a base (config.go:540) shares the array of its Elements with
   the base, and what is written to that array later shows in the copy: see soap_step. *)
From Verif Require Import Base ScopeModel TreeModel EqualModel BuiltinModel XsdModel TypesModel GenModel SgModel.
Local Open Scope string_scope.

(* config.go:502 *)
Definition soap_wsdlNS : string := "http://schemas.xmlsoap.org/wsdl/".
(* strings.TrimSuffix *)
Definition trim_suffix (suf s : string) : string :=
  if String.prefix (s_rev suf) (s_rev s) then s_rev (s_drop (String.length suf) (s_rev s)) else s.

Definition is_array_attr (a : attribute) : bool := String.eqb (nlocal (at_name a)) "arrayType".
(* config.go:509-523: the attributes before the first called arrayType, and that one: both loops
   are left at the break *)
Fixpoint upto_array (l : list attribute) : list attribute * option attribute :=
  match l with
  | [] => ([], None)
  | v :: l' => if is_array_attr v then ([], Some v) else let (p, a) := upto_array l' in (v :: p, a)
  end.
(* config.go:514-520; the zero Name if there is none *)
Definition item_type (v : attribute) : xname :=
  match find (fun a => xname_eqb (aname a) (mkName soap_wsdlNS "arrayType")) (at_attr v) with
  | Some a => resolve (at_scope v) (avalue a)
  | None => mkName "" ""
  end.
(* config.go:527-528 *)
Definition item_name (n : xname) : xname := mkName (nspace n) (trim_suffix "[]" (trim_space (nlocal n))).

(* config.go:559-573: None is a return without effect *)
Fixpoint find_wild (fuel : nat) (st : store) (x : ty) : run (option element) :=
  match base_of st x with
  | TNil => Ret None
  | b => match x with
         | TPtr i => match get_c st i with
                     | None => Ret None
                     | Some c => match find el_wild (ct_elems c) with
                                 | Some v => Ret (Some v)
                                 | None => match fuel with 0 => Loops | S f => find_wild f st b end
                                 end
                     end
         | _ => Ret None
         end
  end.
(* config.go:580-591 *)
Definition replace_wild (el : element) (l : list element) : list element :=
  if existsb el_wild l then map (fun v => if el_wild v then el else v) l else (l ++ [el])%list.
(* config.go:555-592 *)
Definition override_wildcard (st : store) (i : nat) (b : ty) : run store :=
  andthen (find_wild (List.length st) st (TPtr i)) (fun o =>
    match o, get_c st i with
    | Some el, Some c => Ret (put_c st i (set_fields c (replace_wild (with_ty_e el b) (ct_elems c)) (ct_attrs c)))
    | _, _ => Ret st
    end).
(* config.go:500-553; es: the types of the schema in the order FindType ranges over them. A type
   without a name, on which FindType panics, counts as Loops *)
Definition soap_array (st : store) (es : list (xname * ty)) (t : ty) : run store :=
  match t with
  | TPtr i =>
      match get_c st i with
      | None => Ret st
      | Some c =>
          match upto_array (ct_attrs c) with
          | (_, None) => Ret st
          | (pre, Some v) =>
              if String.eqb (nlocal (item_type v)) "" then Ret st else
              match find_type (List.length st) st es (item_name (item_type v)) with
              | None => Loops
              | Some found =>
                  andthen (match found with Some b => override_wildcard st i b | None => Ret st end) (fun st =>
                  match get_c st i with
                  | None => Panic
                  | Some c =>
                      match ct_base c with
                      | TPtr j =>
                          match get_c st j with
                          | Some b =>
                              (* make with a negative capacity panics *)
                              match ct_attrs b with
                              | [] => Panic
                              | _ => let base := set_fields b (ct_elems b) (filter (fun v => negb (is_array_attr v)) (ct_attrs b)) in
                                     Ret (put_c st i (set_base (set_fields c (ct_elems c) pre) (TPtr (List.length st))) ++ [DC base])%list
                              end
                          | None => Ret st
                          end
                      | _ => Ret st
                      end
                  end)
              end
          end
      end
  | _ => Ret st
  end.
(* The copies made so far, each with the type it was copied from. Line 583 writes to the array of
   i.Elements, and the copies of i, whose slices begin at the same place and keep their lengths, see it;
   append (589) leaves what they see as it was. No other slice is shared, and Elements of a copy is never
   assigned to. *)
Definition shares := list (nat * nat).
Definition sees (i : nat) (st : store) (p : nat * nat) : store :=
  if Nat.eqb (snd p) i then
    match get_c st i, get_c st (fst p) with
    | Some c, Some b => put_c st (fst p) (set_fields b (firstn (List.length (ct_elems b)) (ct_elems c)) (ct_attrs b))
    | _, _ => st
    end
  else st.
Definition soap_step (s : store * shares) (es : list (xname * ty)) (t : ty) : run (store * shares) :=
  andthen (soap_array (fst s) es t) (fun st =>
    match t with
    | TPtr i => Ret (fold_left (sees i) (snd s) st,
                     if Nat.ltb (List.length (fst s)) (List.length st)
                     then match base_of (fst s) t with TPtr j => (List.length (fst s), j) :: snd s | _ => snd s end
                     else snd s)
    | _ => Ret (st, snd s)
    end).
(* xsdgen.go:157-176 with cfg.preprocessType = parseSOAPArrayType: it returns t itself, so the
   map is not changed. Each type comes with the order in which FindType ranges over all types for it *)
Definition soap_arrays (st : store) (l : list (list (xname * ty) * ty)) : run store :=
  andthen (foldr (fun s p => soap_step s (fst p) (snd p)) (st, []) l) (fun s => Ret (fst s)).
