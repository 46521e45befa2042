(* Model of gen and of Code.NameOf as a whole (xsdgen/xsdgen.go:92-225), of genTypeSpec (525-546) and of
   genSimpleListSpec (937-1136) up to the bodies of its methods. Schemas are given by the lists of their
   types, in the order in which Go ranges over the maps; the pre-processing of types has been done.
   Methods and helper functions are left out, see C73 and C74; log output is left out, except where
   computing its arguments panics. *)
From Verif Require Import Base ScopeModel TreeModel EqualModel BuiltinModel CodecModel XsdModel TypesModel GraphModel GenModel SgModel SgStruct SliceModel.
Local Open Scope string_scope.

Section Gen.
  Variable public : xname -> string.
  Variable fa : option (attribute -> bool).
  Variable fe : option (element -> bool).
  Variable ft : option (xname -> bool).
  Variable allow : option (list xname).
  (* the built-ins that have an entry in cfg.helperTypes *)
  Variable helpers : list Z.

  (* xsdgen.go:957-960 *)
  Fixpoint root_base (fuel : nat) (st : store) (t : ty) : run ty :=
    match base_of st t with
    | TNil => Ret t
    | b => match fuel with 0 => Loops | S f => root_base f st b end
    end.
  (* xsdgen.go:937-1136; the documentation is not copied *)
  Definition gen_simple_list (st : store) (i : nat) (s : sdef) : run (list spec) :=
    andthen (expr_of public st (sd_base s)) (fun e =>
    andthen (root_base (S (List.length st)) st (sd_base s)) (fun r =>
      match r with
      | TB b => match list_codec b with
                | Some c => if body_parses c then Ret [mkSpec (public (sd_name s)) "" None (Some (EArr e)) [] (TPtr i) []] else Fail
                | None => Fail
                end
      | _ => Panic
      end)).
  (* xsdgen.go:525-546 *)
  Definition gen_type (st : store) (t : ty) : run (store * list spec) :=
    match t with
    | TNil => Panic
    | TPtr i =>
        match nth_error st i with
        | Some (DS s) => andthen (if sd_list s then gen_simple_list st i s else gen_simple public helpers st i s) (fun l => Ret (st, l))
        | Some (DC c) => gen_complex public fa fe helpers st i c
        | None => Panic
        end
    | _ => Ret (st, [])
    end.
  (* what an error of genComplexType leaves behind: 650-673 come before the fields *)
  Definition after_error (st : store) (t : ty) : store :=
    match t with
    | TPtr i => match get_c st i with
                | Some c => match chardata public helpers st c with Ret _ => put_c st i (inherit st c) | _ => st end
                | None => st
                end
    | _ => st
    end.
  (* the types so far, the names of those with errors, the specs *)
  Definition gstep := (store * list xname * list spec)%type.
  (* xsdgen.go:182-194 *)
  Definition gen_step (g : gstep) (t : ty) : run gstep :=
    let '(st, errs, specs) := g in
    match gen_type st t with
    | Ret (st', l) => Ret (st', errs, specs ++ l)%list
    | Fail => match type_name st t with Some n => Ret (after_error st t, errs ++ [n], specs)%list | None => Panic end
    | Panic => Panic
    | Loops => Loops
    end.
  (* xsdgen.go:178-195 *)
  Definition gen_schema (g : gstep) (types : list ty) : run gstep :=
    let '(st, errs, specs) := g in
    andthen (flatten_types fa ft allow st types) (fun sl =>
    andthen (expand_types (fst sl) (snd sl)) (fun st => foldr gen_step (st, errs, specs) (snd sl))).
  (* config.go:738-866 on a declaration *)
  Definition sliced (st : store) (s : spec) : run spec :=
    andthen (to_slice st s) (fun o =>
      Ret match o with Some sl => mkSpec (sp_name s) (sp_doc s) None (Some (EArr (sl_item sl))) (sp_overrides s) (sp_type s) (sp_helpers s) | None => s end).
  Definition post (slices : bool) (st : store) (s : spec) : run spec := if slices then sliced st s else Ret s.
  (* config.go:632-636, 681-685, 708-712 *)
  Definition helper_spec (b : Z) : spec :=
    mkSpec (helper_name b) "" None (match builtin_expr b with Returns (Some g) => Some (of_gotype g) | _ => None end) [] (TB b) [].
  (* xsdgen.go:208-216 *)
  Definition add_helpers (decls : list (string * spec)) : list (string * spec) :=
    fold_left (fun m b => if memb b helpers then sset (helper_name b) (helper_spec b) m else m) (flat_map (fun p => sp_helpers (snd p)) decls) decls.
  Record code := mkCode { co_store : store; co_names : list (xname * string); co_decls : list (string * spec) }.
  (* xsdgen.go:134-225: the types with errors, or the code *)
  Definition gen (slices : bool) (st : store) (schemas : list (list ty)) : run (list xname + code) :=
    andthen (foldr gen_schema (st, [], []) schemas) (fun g =>
      let '(st, errs, specs) := g in
      match errs with
      | _ :: _ => Ret (inl errs)
      | [] =>
          andthen (foldr (fun m s => match type_name st (sp_type s) with Some n => Ret (mset n (sp_name s) m) | None => Panic end) [] specs) (fun names =>
          andthen (foldr (fun m p => andthen (post slices st (snd p)) (fun s => Ret (m ++ [(fst p, s)])%list)) [] (declare [] (map (fun s => (sp_name s, s)) specs))) (fun decls =>
            Ret (inr (mkCode st names (add_helpers decls)))))
      end).

End Gen.

Section Name.
  Variable public : xname -> string.
  Variable fa : option (attribute -> bool).
  Variable fe : option (element -> bool).
  Variable helpers : list Z.
  (* xsdgen.go:208-216: helper types that have been declared are deleted from cfg.helperTypes *)
  Definition unused_helpers (c : code) : list Z := filter (fun b => negb (existsb (fun p => memb b (sp_helpers (snd p))) (co_decls c))) helpers.
  (* xsdgen.go:92-132: the name and the code after it; all: code.types. That the names of built-ins are
     remembered is left out *)
  Definition builtin_id (b : Z) (n : xname) : run string :=
    match builtin_expr b with BuiltinModel.Panics => Panic | Returns None => Ret ("ERROR" ++ nlocal n) | Returns (Some g) => Ret (expr_text (of_gotype g)) end.
  Definition name_of (all : list (xname * ty)) (c : code) (n : xname) : run (code * string) :=
    match lookup n (co_names c) with
    | Some id => Ret (c, id)
    | None =>
        match parse_builtin n with
        | Some b => andthen (builtin_id b n) (fun id => Ret (c, id))
        | None =>
            match lookup n all with
            | None => Ret (c, "NOTFOUND" ++ nlocal n)
            | Some t =>
                andthen (flatten1 fa max_depth (co_store c) t) (fun r =>
                  let '(st, _, v) := r in
                  match v with
                  | TB b => match lookup (b_name b) (co_names c) with
                            | Some id => Ret (mkCode st (co_names c) (co_decls c), id)
                            | None => match parse_builtin (b_name b) with
                                      | Some b' => andthen (builtin_id b' (b_name b)) (fun id => Ret (mkCode st (co_names c) (co_decls c), id))
                                      | None => Ret (mkCode st (co_names c) (co_decls c), "NOTFOUND" ++ nlocal (b_name b))
                                      end
                            end
                  | _ =>
                      match gen_type public fa fe (unused_helpers c) st t with
                      | Fail => Ret (mkCode (after_error public (unused_helpers c) st t) (co_names c) (co_decls c), "ERROR" ++ nlocal n)
                      | Panic => Panic
                      | Loops => Loops
                      | Ret (st, specs) =>
                          andthen (foldr (fun m s => match type_name st (sp_type s) with Some n => Ret (mset n (sp_name s) m) | None => Panic end) (co_names c) specs) (fun names =>
                            Ret (mkCode st names (co_decls c), match lookup n names with Some id => id | None => "NOTFOUND" ++ nlocal n end))
                      end
                  end)
            end
        end
    end.
End Name.
