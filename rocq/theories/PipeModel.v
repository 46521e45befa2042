(* Model of Config.GenCode (xsdgen/cli.go:19-52) as a whole: xsd.Parse on the normalised schemas,
   the choice of schemas by target namespace, and gen. The documents have been read and normalised;
   addStandardHelpers is the list of helper types. *)
From Verif Require Import Base SortLib ScopeModel TreeModel EqualModel BuiltinModel CodecModel XsdModel TypesModel GenModel SgModel SgStruct SliceModel SgGen.
Local Open Scope string_scope.

(* the Schemas that Parse returns (parse.go:164-175): one for each tree, and the Builtins *)
Definition deps (l : list rd) (parsed : list (string * types)) : list (string * types) :=
  (map (fun r => (rd_tns r, match sget (rd_tns r) parsed with Some own => own | None => [] end)) l ++
   [(schemaNS, map (fun p => (fst p, TB (snd p))) builtin_schema)])%list.
(* an error of Parse, namespaces without a schema, errors of gen, or the code *)
Inductive coded := Unparsed | Missing (l : list string) | Errors (l : list xname) | Coded (c : code).

Section GenCode.
  Variable public : xname -> string.
  Variable fa : option (attribute -> bool).
  Variable fe : option (element -> bool).
  Variable ft : option (xname -> bool).
  Variable allow : option (list xname).
  Variable helpers : list Z.
  Variable slices : bool.
  (* the orders in which Parse and flatten range over the maps *)
  Variable ord : nat -> list (xname * ty) -> list (xname * ty).
  Variable ord' : string -> list (xname * ty) -> list (xname * ty).
  (* cfg.namespaces, and the target namespaces of the documents *)
  Variables (namespaces targets : list string).
  (* cli.go:20-23 *)
  Definition used_namespaces : list string := match namespaces with [] => targets | _ => namespaces end.
  Definition chosen_schemas (l : list rd) (parsed : list (string * types)) : list (string * types) :=
    filter (fun d => mem_str (fst d) used_namespaces) (deps l parsed).
  (* the types of each, as flatten meets them *)
  Definition chosen_types (l : list rd) (parsed : list (string * types)) : list (list ty) :=
    map (fun d => map snd (ord' (fst d) (snd d))) (chosen_schemas l parsed).
  (* cli.go:24-51 *)
  Definition gen_code (l : list rd) : run coded :=
    match parse_rds ord l with
    | Err => Ret Unparsed
    | Panics => Panic
    | Ok (st, parsed) =>
        let primaries := chosen_schemas l parsed in
        if Nat.ltb (List.length primaries) (List.length used_namespaces)
        then Ret (Missing (filter (fun n => negb (mem_str n (map fst primaries))) used_namespaces))
        else andthen (gen public fa fe ft allow helpers slices st (chosen_types l parsed)) (fun r =>
               Ret match r with inl e => Errors e | inr c => Coded c end)
    end.
End GenCode.
