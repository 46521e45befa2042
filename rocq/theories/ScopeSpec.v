(* What namespace resolution means, independently of the code. Declarations are listed
   outermost first. *)
From Verif Require Import Base.

(* q is prefix:local (only the first colon counts), or just local *)
Definition qname_parts (q p l : string) : Prop :=
  (q = (p ++ ":" ++ l)%string /\ s_in ":"%char p = false) \/
  (s_in ":"%char q = false /\ p = "" /\ l = q).

(* the innermost declaration of prefix p gives uri *)
Definition binds (decls : list xname) (p uri : string) : Prop :=
  exists outer inner, decls = outer ++ mkName uri p :: inner /\
    forall u, ~ In (mkName u p) inner.

Definition reserved (p : string) : Prop := p = "xml" \/ p = "xmlns".
Definition xml_uri := "http://www.w3.org/XML/1998/namespace".
Definition xmlns_uri := "http://www.w3.org/2000/xmlns/".

(* namespaces in XML: what the prefix p denotes below the declarations *)
Definition denotes (decls : list xname) (p uri : string) : Prop :=
  (p = "xml" /\ uri = xml_uri) \/ (p = "xmlns" /\ uri = xmlns_uri) \/
  (~ reserved p /\ binds decls p uri).

(* no prefix is declared twice *)
Definition no_shadowing (decls : list xname) : Prop := NoDup (map nlocal decls).

(* prefixes are NCNames: no colon *)
Definition prefixes_ok (decls : list xname) : Prop :=
  forall d, In d decls -> s_in ":"%char (nlocal d) = false /\ ~ reserved (nlocal d).
