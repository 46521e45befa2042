(* The errors of xsdgen's gen (xsdgen/xsdgen.go:134-195) with what they tell. SgGen has the same
   functions with errors that tell the name of the type only. *)
From Verif Require Import Base ScopeModel TreeModel EqualModel Utf8 Decimal BuiltinModel CodecModel XsdModel TypesModel GraphModel GenModel SgModel SgStruct SliceModel SgGen.
Local Open Scope string_scope.

Inductive lack :=
| LUnknownValue (base : xname) (b : Z)              (* config.go:446 within xsdgen.go:613 *)
| LValue (b : Z)                                    (* xsdgen.go:637 *)
| LUnknownElement (el : xname) (b : Z) | LElement (el : xname)       (* 690, 714 *)
| LUnknownAttr (at_ : xname) (b : Z) | LAttr (at_ : xname)           (* 748, 758 *)
| LUnknownBase (base : xname) (b : Z) | LBase (b : Z)                (* 888, 913 *)
| LUnknownItem (b : Z) | LItem (b : Z)                               (* 941, 1121 *)
| LBody (name : string).                                             (* 1126: go/parser's error follows *)

Section Lack.
  Variable public : xname -> string.
  Variable fa : option (attribute -> bool).
  Variable fe : option (element -> bool).
  Variable ft : option (xname -> bool).
  Variable allow : option (list xname).
  Variable helpers : list Z.

  Definition unknown (b : Z) : bool := match builtin_expr b with Returns None => true | _ => false end.
  Definition unhelped (b : Z) : bool := (non_trivial b && negb (memb b helpers))%bool.
  (* what is returned for a type t: u if it is a built-in without a Go type, h if it needs a helper
     type that is not there *)
  Definition lacks {A} (t : ty) (u h : Z -> A) : option A :=
    match t with TB b => if unknown b then Some (u b) else if unhelped b then Some (h b) else None | _ => None end.
  Fixpoint first {A B} (f : A -> option B) (l : list A) : option B := match l with [] => None | a :: l' => match f a with Some b => Some b | None => first f l' end end.
  Definition or_else {A} (a b : option A) : option A := match a with Some x => Some x | None => b end.
  Definition local_of (st : store) (t : ty) : xname := match type_name st t with Some n => n | None => mkName "" "" end.
  (* xsdgen.go:600-640 *)
  Definition value_lack (st : store) (c : complexT) : option lack :=
    if ct_mixed c then
      match drill (S (List.length st)) st (ct_base c) with
      | Ret (TB b) => if (b =? 0)%Z then None else lacks (TB b) (LUnknownValue (local_of st (ct_base c))) LValue
      | _ => None
      end
    else None.
  (* xsdgen.go:679-767, in the order of the fields *)
  Definition complex_lack (st : store) (c : complexT) : option lack :=
    let f := filter_fields fa fe (inherit st c) in
    or_else (value_lack st c)
      (or_else (first (fun e => lacks (el_type e) (LUnknownElement (el_name e)) (fun _ => LElement (el_name e))) (snd f))
               (first (fun a => lacks (at_type a) (LUnknownAttr (at_name a)) (fun _ => LAttr (at_name a))) (fst f))).
  (* xsdgen.go:937-941, 1118-1127 *)
  Definition list_lack (st : store) (s : sdef) : option lack :=
    or_else (match sd_base s with TB b => if unknown b then Some (LUnknownItem b) else None | _ => None end)
      match root_base (S (List.length st)) st (sd_base s) with
      | Ret (TB b) => match list_codec b with Some c => if body_parses c then None else Some (LBody (public (sd_name s))) | None => Some (LItem b) end
      | _ => None
      end.
  (* xsdgen.go:868-915 *)
  Definition simple_lack (st : store) (s : sdef) : option lack :=
    match sd_union s with _ :: _ => None | [] => lacks (sd_base s) (LUnknownBase (local_of st (sd_base s))) LBase end.
  (* xsdgen.go:525-546; the error of a type for which genTypeSpec returns one *)
  Definition type_lack (st : store) (t : ty) : option lack :=
    match t with
    | TPtr i => match nth_error st i with
                | Some (DS s) => if sd_list s then list_lack st s else simple_lack st s
                | Some (DC c) => complex_lack st c
                | None => None
                end
    | _ => None
    end.
  Definition lstep := (store * list (xname * lack) * list spec)%type.
  (* xsdgen.go:182-194; that there is an error to tell is C109_reported *)
  Definition step_told (g : lstep) (t : ty) : run lstep :=
    let '(st, errs, specs) := g in
    match gen_type public fa fe helpers st t with
    | Ret (st', l) => Ret (st', errs, specs ++ l)%list
    | Fail => match type_name st t, type_lack st t with
              | Some n, Some e => Ret (after_error public helpers st t, errs ++ [(n, e)], specs)%list
              | _, _ => Panic
              end
    | Panic => Panic
    | Loops => Loops
    end.
  (* xsdgen.go:178-195 *)
  Definition schema_told (g : lstep) (types : list ty) : run lstep :=
    let '(st, errs, specs) := g in
    andthen (flatten_types fa ft allow st types) (fun sl =>
    andthen (expand_types (fst sl) (snd sl)) (fun st => foldr step_told (st, errs, specs) (snd sl))).
  Definition errors_told (st : store) (schemas : list (list ty)) : run (list (xname * lack)) :=
    andthen (foldr schema_told (st, [], []) schemas) (fun g => Ret (snd (fst g))).
End Lack.

(* the formats of the lines above; %v of a Builtin is its String method *)
Definition shown (n : xname) : string := "{" ++ nspace n ++ " " ++ nlocal n ++ "}".
Section Text.
  Variable is_print : N -> bool.
  Variable parser : string.
  Definition unknown_text (b : Z) : string := "Unknown built-in type " ++ quote is_print (nlocal (b_name b)).
  Definition lack_text (t : xname) (e : lack) : string :=
    match e with
    | LUnknownValue n b => nlocal t ++ " base type " ++ nlocal n ++ ": " ++ unknown_text b
    | LValue b => "missing helper type for " ++ b_string b
    | LUnknownElement n b => nlocal t ++ " element " ++ nlocal n ++ ": " ++ unknown_text b
    | LElement n => "no helper type for type " ++ shown t ++ " element " ++ shown n
    | LUnknownAttr n b => nlocal t ++ " attribute " ++ nlocal n ++ ": " ++ unknown_text b
    | LAttr n => "no helper type for type " ++ shown t ++ " attribute " ++ shown n
    | LUnknownBase n b => "simpleType " ++ nlocal t ++ ": base type " ++ nlocal n ++ ": " ++ unknown_text b
    | LBase b => "no helper type for " ++ b_string b
    | LUnknownItem b => unknown_text b
    | LItem b => "don't know how to marshal/unmarshal <list> of " ++ b_string b
    | LBody n => "MarshalText " ++ n ++ ": " ++ parser
    end.
  (* xsdgen.go:187 *)
  Definition line_text (p : xname * lack) : string := "gen type " ++ quote is_print (nlocal (fst p)) ++ ": " ++ lack_text (fst p) (snd p).
  (* xsdgen.go:34-40 *)
  Definition list_text (l : list (xname * lack)) : string := String.concat "" (map (fun p => line_text p ++ String "010" "") l).
End Text.
