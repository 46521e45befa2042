(* Which trees Marshal can write faithfully, and what "the same tree" means. *)
From Verif Require Import Base ScopeModel ScopeSpec TreeModel.
From Coq Require Import Sorted.

(* ---- lexical conditions (ASCII names) ---- *)
Definition letter (c : ascii) : bool :=
  let n := N_of_ascii c in
  (((65 <=? n) && (n <=? 90)) || ((97 <=? n) && (n <=? 122)))%N || Ascii.eqb c "_".
Definition name_char (c : ascii) : bool :=
  letter c || (let n := N_of_ascii c in (48 <=? n) && (n <=? 57))%N || Ascii.eqb c "." || Ascii.eqb c "-".
Definition ncname (s : string) : bool :=
  match s with EmptyString => false | String c s' => letter c && s_all name_char s' end.

(* bytes that may stand for themselves in an attribute value or character data *)
Definition plain_byte (c : ascii) : bool :=
  (Ascii.eqb c "009" || Ascii.eqb c "010" || (32 <=? N_of_ascii c)%N) &&
  negb (Ascii.eqb c "<") && negb (Ascii.eqb c "&").
Definition value_ok (s : string) : bool := s_all (fun c => plain_byte c && negb (Ascii.eqb c """")) s.

Definition entities := ["&lt;"; "&gt;"; "&amp;"; "&apos;"; "&quot;"].
Inductive char_data : string -> Prop :=
| cd_nil : char_data ""
| cd_byte c s : plain_byte c = true -> String.prefix "]]>" (String c s) = false ->
    char_data s -> char_data (String c s)
| cd_entity e s : In e entities -> char_data s -> char_data (e ++ s)%string.

(* ---- trees ---- *)
Fixpoint eheight (e : elem) : N :=
  match e with
  | Elem _ _ _ _ ch => fold_right (fun c h => N.max (1 + eheight c) h) 0%N ch
  end.

(* a declaration that can be written as xmlns:p="u" or xmlns="u" *)
Definition decl_ok (d : xname) : Prop :=
  (nlocal d = "" \/ (ncname (nlocal d) = true /\ ~ reserved (nlocal d))) /\ value_ok (nspace d) = true.

(* the name is written by Prefix in a way that resolves back to it *)
Definition name_ok (s : scope) (n : xname) : Prop :=
  ncname (nlocal n) = true /\ nlocal n <> "xmlns" /\ nspace n <> xmlns_uri /\ resolve s (prefix s n) = n.

(* unprefixed attributes are in no namespace, so others must get a prefix *)
Definition attr_ok (s : scope) (a : xattr) : Prop :=
  ncname (nlocal (aname a)) = true /\ nlocal (aname a) <> "xmlns" /\ nspace (aname a) <> "xmlns" /\
  nspace (aname a) <> xmlns_uri /\ value_ok (avalue a) = true /\
  (nspace (aname a) = "" \/
   (resolve s (prefix s (aname a)) = aname a /\ s_in ":"%char (prefix s (aname a)) = true)).

(* [writable ps e]: e can be written inside an element whose scope is ps. Its scope extends ps
   by declarations of distinct prefixes; leaf content is character data. *)
Inductive writable : scope -> elem -> Prop :=
| w_elem ps n a ds c ch :
    (forall d, In d ds -> decl_ok d) -> NoDup (map nlocal ds) ->
    name_ok (ps ++ ds) n -> (forall x, In x a -> attr_ok (ps ++ ds) x) ->
    (ch = [] -> char_data c) ->
    (forall e, In e ch -> writable (ps ++ ds) e) ->
    writable ps (Elem n a (ps ++ ds) c ch).

(* the same, but a prefix may be declared again in the scope of e: a part of a document *)
Inductive printable : scope -> elem -> Prop :=
| p_elem ps n a ds c ch :
    (forall d, In d ds -> decl_ok d) ->
    name_ok (ps ++ ds) n -> (forall x, In x a -> attr_ok (ps ++ ds) x) ->
    (ch = [] -> char_data c) ->
    (forall e, In e ch -> printable (ps ++ ds) e) ->
    printable ps (Elem n a (ps ++ ds) c ch).

(* [reread ps ps' e e']: e' is e as read back: same names, attributes, children and leaf
   contents; the declarations added at each element are the same up to order (Parse sorts
   them). ps, ps' are the scopes of the parents. *)
Inductive reread : scope -> scope -> elem -> elem -> Prop :=
| rr_elem ps ps' n a ds ds' c c' ch ch' :
    Permutation ds ds' ->
    Sorted (fun a b => s_leb (nspace a ++ nlocal a) (nspace b ++ nlocal b) = true) ds' ->
    (ch = [] -> c' = c) ->
    rereads (ps ++ ds) (ps' ++ ds') ch ch' ->
    reread ps ps' (Elem n a (ps ++ ds) c ch) (Elem n a (ps' ++ ds') c' ch')
with rereads : scope -> scope -> list elem -> list elem -> Prop :=
| rrs_nil ps ps' : rereads ps ps' [] []
| rrs_cons ps ps' e e' l l' : reread ps ps' e e' -> rereads ps ps' l l' -> rereads ps ps' (e :: l) (e' :: l').

(* [extends ps e]: at every element the scope is the parent's scope followed by own declarations *)
Inductive extends : scope -> elem -> Prop :=
| ext_elem ps n a ds c ch :
    (forall e, In e ch -> extends (ps ++ ds) e) -> extends ps (Elem n a (ps ++ ds) c ch).

(* ---- serialised XML as a tree of tags, and the two ways of printing it ---- *)
Inductive tagged := Tag (qname : string) (attrs : list (string * string)) (decls : scope)
                        (text : string) (children : list tagged).

Definition quoted (s : string) : string := ("""" ++ s ++ """")%string.
Definition print_decl (d : xname) : string :=
  match nlocal d with
  | EmptyString => (" xmlns=" ++ quoted (nspace d))%string
  | p => (" xmlns:" ++ p ++ "=" ++ quoted (nspace d))%string
  end.
Definition print_open (q : string) (attrs : list (string * string)) (ds : scope) : string :=
  ("<" ++ q ++ String.concat "" (map (fun qv => " " ++ fst qv ++ "=" ++ quoted (snd qv))%string attrs)
       ++ String.concat "" (map print_decl ds))%string.

Fixpoint print (t : tagged) : string :=
  match t with
  | Tag q attrs ds text ch =>
      match ch, text with
      | [], EmptyString => (print_open q attrs ds ++ " />")%string
      | [], _ => (print_open q attrs ds ++ ">" ++ text ++ "</" ++ q ++ ">")%string
      | _, _ => (print_open q attrs ds ++ ">" ++ String.concat "" (map print ch) ++ "</" ++ q ++ ">")%string
      end
  end.

Definition newline : string := String "010" "".
Fixpoint times (k : nat) (s : string) : string :=
  match k with O => "" | S k' => (s ++ times k' s)%string end.
(* one line per tag, indented; elements with text stay on one line *)
Fixpoint print_indented (indent : string) (depth : nat) (t : tagged) : string :=
  match t with
  | Tag q attrs ds text ch =>
      (times depth indent ++
      match ch, text with
      | [], EmptyString => print_open q attrs ds ++ " />" ++ newline
      | [], _ => print_open q attrs ds ++ ">" ++ text ++ "</" ++ q ++ ">" ++ newline
      | _, _ => print_open q attrs ds ++ ">" ++ newline ++
                String.concat "" (map (print_indented indent (S depth)) ch) ++
                times depth indent ++ "</" ++ q ++ ">" ++ newline
      end)%string
  end.

(* navigation by child indices, as [sub] does for elements; the declarations in force *)
Definition tag_name (t : tagged) := let (q, _, _, _, _) := t in q.
Definition tag_attrs (t : tagged) := let (_, a, _, _, _) := t in a.
Definition tag_decls (t : tagged) := let (_, _, d, _, _) := t in d.
Definition tag_children (t : tagged) := let (_, _, _, _, c) := t in c.
Fixpoint tag_at (t : tagged) (p : list nat) : option tagged :=
  match p with
  | [] => Some t
  | i :: p' => match nth_error (tag_children t) i with Some c => tag_at c p' | None => None end
  end.
Fixpoint in_force (t : tagged) (p : list nat) : scope :=
  tag_decls t ++
  match p with
  | [] => []
  | i :: p' => match nth_error (tag_children t) i with Some c => in_force c p' | None => [] end
  end.

(* inserting only line breaks and indentation: [spaced ins a b], b is a with strings of ins added *)
Inductive spaced (ins : list string) : string -> string -> Prop :=
| sp_nil : spaced ins "" ""
| sp_keep s a b : spaced ins a b -> spaced ins (s ++ a) (s ++ b)
| sp_ins s a b : In s ins -> spaced ins a b -> spaced ins a (s ++ b).

(* ---- scopes whose added declarations are strictly ordered by URI+prefix ---- *)
Inductive tidy : scope -> elem -> Prop :=
| tidy_elem ps n a ds c ch :
    StronglySorted (fun a b => s_ltb (nspace a ++ nlocal a) (nspace b ++ nlocal b) = true) ds ->
    (forall e, In e ch -> tidy (ps ++ ds) e) ->
    tidy ps (Elem n a (ps ++ ds) c ch).

(* ---- writers ---- *)
Section Writer.
  Context {W : Type}.
  Variable write : W -> string -> W * bool.
  (* all writes, and whether every one of them succeeded *)
  Fixpoint feed (w : W) (l : list string) : W * bool :=
    match l with
    | [] => (w, true)
    | s :: l' => let (w', ok) := write w s in let (w'', ok') := feed w' l' in (w'', ok && ok')
    end.

End Writer.
