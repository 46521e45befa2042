(* Documents code can be generated from, in terms of what they declare. *)
From Verif Require Import Base ScopeModel TreeModel BuiltinModel CodecModel XsdModel TypesModel TypesSpec GenModel SgModel SgStruct SgFlatSpec SgExpandSpec SgGenSpec.
Local Open Scope string_scope.

Definition declares (l : list rd) (n : xname) (d : def) : Prop := exists r, In r l /\ In (n, d) (rd_types r).
(* the Builtin that a type is derived from in the end *)
Inductive leads (l : list rd) : ty -> Z -> Prop :=
| ld_builtin b : leads l (TB b) b
| ld_type n d b : declares l n d -> leads l (def_base d) b -> leads l (TLink n) b.
(* derived from anyType by way of complex types *)
Inductive structured (l : list rd) : ty -> Prop :=
| sr_any : structured l (TB 0)
| sr_type n c : declares l n (DC c) -> structured l (ct_base c) -> structured l (TLink n).

Record documents (h : xname -> nat) (l : list rd) : Prop := mkDocuments {
  (* types refer to one another by name, and are registered under their names in their schema's namespace *)
  dc_raw : raw_rds l;
  dc_keyed : keyed l;
  (* no namespace twice, no name twice, and nothing in the namespaces of the Builtins *)
  dc_spaces : NoDup (map rd_tns l);
  dc_once : forall r, In r l -> NoDup (map fst (rd_types r));
  dc_own : forall r, In r l -> rd_tns r <> schemaNS /\ rd_tns r <> "http://www.w3.org/2009/01/xml.xsd";
  (* every type has a base, and whatever it refers to is declared *)
  dc_based : forall n d, declares l n d -> ~ In TNil (uses d);
  dc_known : forall n d m, declares l n d -> In (TLink m) (refs d) -> exists e, declares l m e;
  dc_elements : forall r a, In r l -> In a (rd_aliases r) -> (exists b, parse_builtin (snd a) = Some b /\ translated b) \/ exists e, declares l (snd a) e;
  (* no type refers to itself, even indirectly *)
  dc_rank : forall n d m, declares l n d -> In (TLink m) (uses d) -> h m < h n;
  (* the Builtins in use have a Go type, and those in lists have methods *)
  dc_builtins : forall n d b, declares l n d -> In (TB b) (uses d) -> translated b;
  dc_lists : forall n s b, declares l n (DS s) -> sd_list s = true -> leads l (sd_base s) b -> exists c, list_codec b = Some c /\ body_parses c = true;
  (* a complex type that is declared mixed, or with simple content, is not derived from one that is not *)
  dc_mixed : forall n c m b, declares l n (DC c) -> ct_mixed c = true -> ct_base c = TLink m -> declares l m (DC b) -> ct_mixed b = true }.

(* bases, and the types of elements, are declared in the same document or an earlier one, or they are
   derived from a Builtin *)
Definition at_hand (l1 l : list rd) (n : xname) : Prop := exists d, declares l1 n d \/ declares l n d /\ exists b, def_base d = TB b.
Definition imports_first (l : list rd) : Prop := forall l1 r l2, l = (l1 ++ r :: l2)%list ->
  (forall n d m, In (n, d) (rd_types r) -> def_base d = TLink m -> at_hand (l1 ++ [r])%list l m) /\
  (forall a, In a (rd_aliases r) -> parse_builtin (snd a) = None -> at_hand (l1 ++ [r])%list l (snd a)).

(* a type that gets a declaration of its own: a complex type with an attribute or without text, a simple
   type that says more than its base or whose values are not of a Go type as they are *)
Definition own_declaration (fa : option (attribute -> bool)) (l : list rd) (d : def) : Prop :=
  match d with
  | DC c => (exists a, In a (ct_attrs c) /\ filtered fa a = false) \/ structured l (ct_base c)
  | DS s => sd_list s = true \/ sd_union s <> [] \/ sd_enum s <> [] \/ sd_pattern s <> None \/ sd_maxlen s <> 0%Z \/ sd_minlen s <> 0%Z \/ exists b, leads l (sd_base s) b /\ non_trivial b = true
  end.
(* the text of a Builtin other than anyType, or of a simple type *)
Definition textual (l : list rd) (t : ty) : Prop := match t with TB b => b <> 0%Z | TLink n => exists s, declares l n (DS s) | _ => False end.
Definition attributeless (fa : option (attribute -> bool)) (c : complexT) : Prop := forall a, In a (ct_attrs c) -> filtered fa a = true.
(* the names of the types that code is generated from *)
Inductive generated (ft : option (xname -> bool)) (allow : option (list xname)) (ns : list string) (l : list rd) : xname -> Prop :=
| gd_type r n d : In r l -> In (rd_tns r) ns -> In (n, d) (rd_types r) -> picked ft allow n -> generated ft allow ns l n
| gd_element r a : In r l -> In (rd_tns r) ns -> In a (rd_aliases r) -> picked ft allow (snd a) -> generated ft allow ns l (snd a)
| gd_used n d m : generated ft allow ns l n -> declares l n d -> In (TLink m) (uses d) -> generated ft allow ns l m.
(* what makes the code independent of the order of the types *)
Record orderly (public : xname -> string) (fa : option (attribute -> bool)) (ft : option (xname -> bool)) (allow : option (list xname)) (ns : list string) (l : list rd) : Prop := mkOrderly {
  od_simple : forall n s m d, declares l n (DS s) -> sd_base s = TLink m -> declares l m d -> exists s', d = DS s';
  od_any : forall n s, declares l n (DS s) -> plain s 0 -> ~ leads l (sd_base s) 0;
  od_text : forall n c m b, declares l n (DC c) -> attributeless fa c -> ct_base c = TLink m -> declares l m (DC b) -> attributeless fa b -> ~ textual l (ct_base b);
  od_wild : forall n c e, declares l n (DC c) -> In e (ct_elems c) -> el_wild e = true <-> el_name e = mkName "" "";
  od_names : forall n m d e, generated ft allow ns l n -> generated ft allow ns l m -> declares l n d -> declares l m e -> public n = public m -> n = m }.
