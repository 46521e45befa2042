(* Model of Scope in xmltree/xmltree.go. A Scope is the list of its declarations, outermost
   first; each is an xml.Name with Space = namespace URI and Local = prefix ("" for the
   default namespace). Backing arrays are modelled separately in ScopeHeap.v. *)
From Verif Require Import Base.

(* xmltree.go:22-23 *)
Definition xmlNamespaceURI := "http://www.w3.org/2000/xmlns/".
Definition xmlLangURI := "http://www.w3.org/XML/1998/namespace".

Definition scope := list xname.

(* xmltree.go:106-112: strings.SplitN(qname, ":", 2) *)
Definition split_qname (q : string) : string * string :=
  match cut colon q with
  | Some (p, l) => (p, l)
  | None => ("", q)
  end.

(* xmltree.go:105-125 *)
Definition resolve_ns (s : scope) (qname : string) : xname * bool :=
  let (prefix, local) := split_qname qname in
  if String.eqb prefix "xml" then (mkName xmlLangURI local, true)
  else if String.eqb prefix "xmlns" then (mkName xmlNamespaceURI local, true)
  else match find_last (fun d => String.eqb (nlocal d) prefix) s with
       | Some d => (mkName (nspace d) local, true)
       | None => (mkName prefix local, false)
       end.

(* xmltree.go:98-101 *)
Definition resolve (s : scope) (qname : string) : xname := fst (resolve_ns s qname).

(* xmltree.go:130-135 *)
Definition resolve_default (s : scope) (qname defaultns : string) : xname :=
  if String.eqb defaultns "" || s_in colon qname then resolve s qname
  else mkName defaultns qname.

(* xmltree.go:150-160, the loop from the last declaration to the first; qname is the named
   result, initially "". fold_right processes the last element first. *)
Definition prefix_loop (s : scope) (name : xname) : string :=
  fold_right (fun d qname =>
    if String.eqb (nspace d) (nspace name) then
      if String.eqb (nlocal d) "" then nlocal name
      else if Nat.eqb (String.length qname) 0 then (nlocal d ++ ":" ++ nlocal name)%string
      else qname
    else qname) "" s.

(* xmltree.go:141-162 *)
Definition prefix (s : scope) (name : xname) : string :=
  if String.eqb (nspace name) "" then nlocal name
  else if String.eqb (nspace name) xmlLangURI then ("xml:" ++ nlocal name)%string
  else if String.eqb (nspace name) xmlNamespaceURI then ("xmlns:" ++ nlocal name)%string
  else prefix_loop s name.

(* xmltree.go:73-75 *)
Definition join_scope (outer inner : scope) : scope := outer ++ inner.
