(* Vocabulary for the errors about types that are not found. *)
From Verif Require Import Base ScopeModel TreeModel BuiltinModel XsdModel TypesModel TypesSpec GenModel MissModel.
Local Open Scope string_scope.

Definition untold {A} (x : told A) : outcome A := match x with TOk a => Ok a | TErr _ => Err | TPanics => Panics end.
Definition is_complex (d : def) : bool := match d with DC _ => true | DS _ => false end.
(* the references of a definition with what they are for: the base, then the elements, then the
   attributes; or the base, then the members of the union *)
Definition labelled (d : def) : list (role * ty) :=
  match d with
  | DC c => (RBase, ct_base c) :: (map (fun e => (RElement (el_name e), el_type e)) (ct_elems c) ++
                                   map (fun a => (RAttribute (at_name a), at_type a)) (ct_attrs c))%list
  | DS s => (RBase, sd_base s) :: map (fun t => (RMember, t)) (sd_union s)
  end.
(* a top-level element of that name and type in a schema of that namespace *)
Definition aliased (l : list rd) (ns : string) (el ref : xname) : Prop :=
  exists r, In r l /\ rd_tns r = ns /\ In (el, ref) (rd_aliases r).
(* a name under which something can be found *)
Definition known (l : list rd) (n : xname) : Prop :=
  parse_builtin n <> None \/ (exists t, called l n t) \/ (exists t, In (n, t) (entries l)) \/ exists ns ref, aliased l ns n ref.
(* nothing is declared under the name n, looked at from a schema of namespace ns *)
Definition absent (l : list rd) (ns : string) (n : xname) : Prop :=
  dangling l n /\ forall own, sget ns (snd (initial l)) = Some own -> lookup n own = None.
(* what is told is so; reg says how the told key belongs to the type *)
Definition tells_by (reg : string -> xname -> nat -> Prop) (l : list rd) (m : miss) : Prop :=
  match m with
  | MsType cx key ro ref =>
      exists r i d pre post, In r l /\ absent l (rd_tns r) ref /\
        (exists k, In (k, TPtr i) (entries l)) /\ nth_error (fst (initial l)) i = Some d /\ is_complex d = cx /\
        labelled d = (pre ++ (ro, TLink ref) :: post)%list /\ (forall ro' n, In (ro', TLink n) pre -> known l n) /\
        reg (rd_tns r) key i
  | MsAlias el ref =>
      exists r pre post, In r l /\ absent l (rd_tns r) ref /\ rd_aliases r = (pre ++ (el, ref) :: post)%list /\
        (forall a, In a pre -> known l (snd a) \/ known l (fst a)) /\
        (forall own, sget (rd_tns r) (snd (initial l)) = Some own -> lookup el own = None)
  end.
Definition declared_under (l : list rd) (ns : string) (key : xname) (i : nat) : Prop :=
  exists own, sget ns (snd (initial l)) = Some own /\ In (key, TPtr i) own.
(* the key of a type of the schema, or the name of a top-level element of it *)
Definition tells (l : list rd) : miss -> Prop :=
  tells_by (fun ns key i => declared_under l ns key i \/ exists ref, aliased l ns key ref) l.
(* the name of a type of the schema *)
Definition tells_name (l : list rd) : miss -> Prop :=
  tells_by (fun ns key i => declared_under l ns key i /\ option_map def_name (nth_error (fst (initial l)) i) = Some key) l.

(* names in which the text does not run together: no spaces, and nothing that %q escapes *)
Definition clear_name (is_print : N -> bool) (n : xname) : Prop :=
  s_in " " (nlocal n) = false /\ s_in " " (nspace n) = false /\ quote is_print (nlocal n) = ("""" ++ nlocal n ++ """")%string.
Definition clear (is_print : N -> bool) (pre : xname -> string) (m : miss) : Prop :=
  match m with
  | MsType _ k ro n => clear_name is_print k /\ clear_name is_print n /\
      match ro with RElement e => clear_name is_print e | RAttribute a => clear_name is_print a | _ => True end
  | MsAlias e n => s_in " " (pre e) = false /\ s_in " " (pre n) = false
  end.
Definition same_role (a b : role) : Prop :=
  match a, b with
  | RBase, RBase | RMember, RMember => True
  | RElement e, RElement e' => nlocal e = nlocal e'
  | RAttribute e, RAttribute e' => nlocal e = nlocal e'
  | _, _ => False
  end.
(* the same, as far as the text goes: of types, elements and attributes the local name, of what
   is referred to all of it *)
Definition same_told (pre : xname -> string) (a b : miss) : Prop :=
  match a, b with
  | MsType cx k ro n, MsType cx' k' ro' n' => cx = cx' /\ nlocal k = nlocal k' /\ same_role ro ro' /\ n = n'
  | MsAlias e n, MsAlias e' n' => pre e = pre e' /\ pre n = pre n'
  | _, _ => False
  end.
