(* The errors of resolvePartialTypes and addElementTypeAliases (xsd/parse.go:503-525, 1017-1098)
   with what they tell. TypesModel has the same functions with errors that tell nothing. *)
From Verif Require Import Base ScopeModel TreeModel BuiltinModel XsdModel TypesModel GenModel.
Local Open Scope string_scope.

(* what a type refers to another for *)
Inductive role := RBase | RElement (n : xname) | RAttribute (n : xname) | RMember.
(* a type registered under a key that refers to something that is not found, or a top-level
   element whose type is not found *)
Inductive miss := MsType (cx : bool) (key : xname) (ro : role) (ref : xname) | MsAlias (el ref : xname).
Inductive got (A : Type) := Got (a : A) | Missing (m : miss).
Arguments Got {A} a.
Arguments Missing {A} m.

Definition bind {A B} (x : got A) (f : A -> got B) : got B := match x with Got a => f a | Missing m => Missing m end.
(* a loop that returns at the first error *)
Fixpoint mapg {A B} (f : A -> got B) (l : list A) : got (list B) :=
  match l with [] => Got [] | a :: l' => bind (f a) (fun b => bind (mapg f l') (fun bs => Got (b :: bs))) end.
Fixpoint foldg {A B} (f : A -> B -> got A) (a : A) (l : list B) : got A :=
  match l with [] => Got a | b :: l' => bind (f a b) (fun a' => foldg f a' l') end.

(* parse.go:1029-1037 and the like *)
Definition resolve_one (look : xname -> option ty) (cx : bool) (key : xname) (ro : role) (t : ty) : got ty :=
  match t with
  | TLink n => match look n with Some u => Got u | None => Missing (MsType cx key ro n) end
  | _ => Got t
  end.
(* parse.go:1041-1053 and 1054-1066, the bodies of the loops *)
Definition element_told (look : xname -> option ty) (key : xname) (e : element) : got element :=
  bind (resolve_one look true key (RElement (el_name e)) (el_type e)) (fun t =>
    Got (mkElement (el_doc e) (el_name e) (el_wild e) t (el_abstract e) (el_plural e) (el_optional e)
    (el_nillable e) (el_default e) (el_attr e) (el_scope e))).
Definition attribute_told (look : xname -> option ty) (key : xname) (a : attribute) : got attribute :=
  bind (resolve_one look true key (RAttribute (at_name a)) (at_type a)) (fun t =>
    Got (mkAttribute (at_name a) (at_doc a) t (at_default a) (at_optional a) (at_attr a) (at_scope a))).
(* parse.go:1027-1061 and 1062-1088, in the order of the code *)
Definition resolve_told (look : xname -> option ty) (key : xname) (d : def) : got def :=
  match d with
  | DC c =>
      bind (resolve_one look true key RBase (ct_base c)) (fun b =>
      bind (mapg (element_told look key) (ct_elems c)) (fun es =>
      bind (mapg (attribute_told look key) (ct_attrs c)) (fun ats =>
      Got (DC (mkComplex (ct_doc c) (ct_name c) b (ct_anon c) es ats (ct_abstract c) (ct_extends c) (ct_mixed c))))))
  | DS s =>
      bind (resolve_one look false key RBase (sd_base s)) (fun b =>
      bind (mapg (resolve_one look false key RMember) (sd_union s)) (fun un =>
      Got (DS (mkSdef (sd_name s) b un (sd_list s) (sd_anon s) (sd_doc s) (sd_enum s) (sd_pattern s)
                (sd_len s) (sd_minlen s) (sd_maxlen s) (sd_rdoc s)))))
  end.
(* parse.go:1018-1098 *)
Definition entry_told (look : xname -> option ty) (st : store) (e : xname * ty) : got store :=
  match snd e with
  | TPtr i => match nth_error st i with
              | Some d => bind (resolve_told look (fst e) d) (fun d' => Got (set_nth i d' st))
              | None => Got st
              end
  | _ => Got st
  end.
(* parse.go:513-521 *)
Definition alias_told (global : types) (own : types) (a : xname * xname) : got types :=
  match lookup (fst a) own with
  | Some _ => Got own
  | None => match lookup_type global own (snd a) with
            | Some t => Got (mset (fst a) t own)
            | None => Missing (MsAlias (fst a) (snd a))
            end
  end.
Inductive told (A : Type) := TOk (a : A) | TErr (m : miss) | TPanics.
Arguments TOk {A} a.
Arguments TErr {A} m.
Arguments TPanics {A}.
(* parse.go:164-175 *)
Definition one_told (global : types) (ord : list (xname * ty) -> list (xname * ty)) (r : rd)
    (s : store * list (string * types)) : told (store * list (string * types)) :=
  let (st, parsed) := s in
  match sget (rd_tns r) parsed with
  | None => TPanics
  | Some own =>
      match foldg (entry_told (lookup_type global own)) st (ord own) with
      | Missing m => TErr m
      | Got st =>
          match foldg (alias_told global) own (rd_aliases r) with
          | Missing m => TErr m
          | Got own =>
              match propagate_all (ord own) st with
              | None => TPanics
              | Some st => TOk (st, sset (rd_tns r) own parsed)
              end
          end
      end
  end.
Fixpoint finish_told (global : types) (ord : nat -> list (xname * ty) -> list (xname * ty)) (k : nat) (l : list rd)
    (s : store * list (string * types)) : told (store * list (string * types)) :=
  match l with
  | [] => TOk s
  | r :: l' => match one_told global (ord k) r s with
               | TOk s' => finish_told global ord (S k) l' s' | TErr m => TErr m | TPanics => TPanics
               end
  end.
Definition parse_told (ord : nat -> list (xname * ty) -> list (xname * ty)) (l : list rd) : told (store * list (string * types)) :=
  let (st, parsed) := alloc_all [] [] l in
  finish_told (index_types st (ord 0 (all_entries parsed))) ord 1 l (st, parsed).

(* the formats of parse.go:1034-1035, 1048-1049, 1059-1060, 1071-1072, 1086-1087 and 515-516;
   pre is the Prefix method of the element that is read *)
Definition miss_text (is_print : N -> bool) (pre : xname -> string) (m : miss) : string :=
  match m with
  | MsType cx k ro n =>
      (if cx then "complexType " else "simpleType ") ++ nlocal k ++ ": could not find " ++
      match ro with
      | RBase => "base type " ++ nlocal n ++ " in namespace " ++ nspace n
      | RElement e => "type " ++ quote is_print (nlocal n) ++ " in namespace " ++ nspace n ++ " for element " ++ nlocal e
      | RAttribute a => "type " ++ nlocal n ++ " in namespace " ++ nspace n ++ " for attribute " ++ nlocal a
      | RMember => "union memberType " ++ nlocal n ++ " in namespace " ++ nspace n
      end
  | MsAlias e n => "could not lookup type " ++ pre n ++ " for element " ++ pre e
  end.
