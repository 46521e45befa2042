(* Model of the methods and functions of a generated file: genComplexTypeMethods (xsdgen/xsdgen.go:780-866),
   addSpecMethods (905-935), the methods of lists (943-950, 1123-1135), those written by soapArrayToSlice
   (config.go:787-864), the helper types and functions (config.go:594-733), how helper functions get into the
   file (xsdgen.go:212-224) and in which order GenAST writes all of it (229-260). Of a body we keep what it
   refers to in the same file. *)
From Verif Require Import Base ScopeModel TreeModel EqualModel BuiltinModel XsdModel TypesModel GraphModel GenModel SgModel SgStruct SliceModel SgGen.
Local Open Scope string_scope.

(* fn_recv: the type of the receiver, None for a function; fn_types: the types it names, other than Go's own;
   fn_calls: the functions it calls; fn_methods: the methods it calls, with their receivers; fn_alias: the
   type X in a local declaration  type T X;  fn_overlay: the fields of the local struct *)
Record func := mkFunc { fn_recv : option string; fn_name : string; fn_types : list string; fn_calls : list string;
                        fn_methods : list (string * string); fn_alias : option string; fn_overlay : list string }.

(* xsdgen.go:798-866; the two results change places in the return statement and when assigned (782) *)
Definition overlay_method (s : spec) (name : string) (os : list override) : func :=
  mkFunc (Some (sp_name s)) name (sp_name s :: map ov_to os) [] [] (Some (sp_name s)) ("T" :: map ov_field os).
Definition overlay_methods (s : spec) : list func :=
  match sp_overrides s with
  | [] => []
  | os => (match filter (fun o => non_trivial_ty (ov_type o)) os with [] => [] | os' => [overlay_method s "MarshalXML" os'] end ++ [overlay_method s "UnmarshalXML" os])%list
  end.
(* config.go:787-864 *)
Definition slice_methods (s : spec) : list func :=
  let item := match sp_expr s with Some (EArr e) => expr_text e | _ => "" end in
  [mkFunc (Some (sp_name s)) "MarshalXML" [sp_name s; item] [] [] None []; mkFunc (Some (sp_name s)) "UnmarshalXML" [sp_name s; item] [] [] None []].
(* xsdgen.go:919-932 *)
Definition text_methods (s : spec) (b : Z) : list func :=
  [mkFunc (Some (sp_name s)) "UnmarshalText" [sp_name s; helper_name b] [] [(helper_name b, "UnmarshalText")] None [];
   mkFunc (Some (sp_name s)) "MarshalText" [sp_name s; helper_name b] [] [(helper_name b, "MarshalText")] None []].
(* xsdgen.go:949-955, 1134 *)
Definition list_methods (s : spec) : list func :=
  [mkFunc (Some (sp_name s)) "MarshalText" [sp_name s] [] [] None []; mkFunc (Some (sp_name s)) "UnmarshalText" [sp_name s] [] [] None []].
(* config.go:620-629 *)
Definition time_type (b : Z) : bool := memb b [16; 17; 22; 23; 24; 25; 26; 39]%Z.
(* config.go:638-677, 686-704, 712-731 *)
Definition helper_methods (b : Z) : list func :=
  let n := helper_name b in
  if time_type b then
    [mkFunc (Some n) "UnmarshalText" [n] ["_unmarshalTime"] [] None [];
     mkFunc (Some n) "MarshalText" [n] ["_marshalTime"] [] None [];
     mkFunc (Some n) "MarshalXML" [n] [] [(n, "MarshalText")] None [];
     mkFunc (Some n) "MarshalXMLAttr" [n] [] [(n, "MarshalText")] None []]
  else [mkFunc (Some n) "UnmarshalText" [n] [] [] None []; mkFunc (Some n) "MarshalText" [n] [] [] None []].
(* the methods of a declaration. The store tells what the type is: a helper type is a built-in; complex
   types that are no longer structs are slices *)
Definition methods_of (st : store) (s : spec) : list func :=
  match sp_type s with
  | TB b => helper_methods b
  | TPtr i =>
      match nth_error st i with
      | Some (DS d) => if sd_list d then list_methods s else match sp_helpers s with b :: _ => text_methods s b | [] => [] end
      | Some (DC _) => (overlay_methods s ++ match sp_struct s with None => slice_methods s | Some _ => [] end)%list
      | None => []
      end
  | _ => []
  end.
(* spec.helperFuncs: config.go:677 *)
Definition helper_funcs (s : spec) : list string :=
  match sp_type s with TB b => if time_type b then ["_unmarshalTime"; "_marshalTime"] else [] | _ => [] end.
(* config.go:595-617 *)
Definition standard_funcs : list string := ["_unmarshalTime"; "_marshalTime"].
Definition plain_func (n : string) : func := mkFunc None n [] [] [] None [].
(* xsdgen.go:215-222: what is taken, and what is left *)
Fixpoint take (avail deps : list string) : list string * list string :=
  match deps with
  | [] => ([], avail)
  | d :: deps' => if mem_str d avail then let (got, left) := take (filter (fun x => negb (String.eqb x d)) avail) deps' in (d :: got, left)
                  else take avail deps'
  end.
(* xsdgen.go:212-224 on the declarations in the order of their names, and GenAST: the blocks of the file *)
Fixpoint blocks (st : store) (avail : list string) (l : list (string * spec)) : list (string * spec * list func) :=
  match l with
  | [] => []
  | (n, s) :: l' => let (got, left) := take avail (helper_funcs s) in
                    (n, s, methods_of st s ++ map plain_func got)%list :: blocks st left l'
  end.
Definition file (sort : list string -> list string) (c : code) : list (string * spec * list func) :=
  blocks (co_store c) standard_funcs (gen_ast sort (co_decls c)).
Definition funcs (f : list (string * spec * list func)) : list func := flat_map snd f.
