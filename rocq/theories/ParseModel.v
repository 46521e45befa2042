(* Token-level model of Parse (xmltree/xmltree.go:164-280). encoding/xml's Decoder is an
   oracle: the list of tokens it returns, each with the value of InputOffset() after it, after
   which Token() returns an error (io.EOF or a syntax error). Names in tokens have been
   translated by the Decoder. Comments, char data, directives and processing instructions are
   all [TOther]: Parse treats them alike. *)
From Verif Require Import Base ScopeModel TreeModel.

Inductive token :=
| TStart (name : xname) (attrs : list xattr)
| TEnd (name : xname)
| TOther.
Definition stream := list (token * nat).

Inductive perr :=
| EStream     (* the error returned by Decoder.Token: EOF, syntax error *)
| EDeep       (* errDeepXML *)
| EMismatch   (* Expecting </..>, got </..> *)
| EPanic      (* slice bounds out of range *)
| EFuel.      (* model artefact; excluded by every theorem *)

Inductive presult :=
| POk (e : elem) (off : nat) (rest : stream)
| PErr (err : perr).

(* xmltree.go:24 *)
Definition recursionLimit : N := 3000.

(* xmltree.go:165-175: namespace declarations of a tag *)
Definition is_decl (a : xattr) : bool :=
  String.eqb (nspace (aname a)) "xmlns" || String.eqb (nlocal (aname a)) "xmlns".
Definition decl_of (a : xattr) : xname :=
  if String.eqb (nspace (aname a)) "xmlns" then mkName (avalue a) (nlocal (aname a))
  else mkName (avalue a) "".
Definition decls_of (attrs : list xattr) : list xname := map decl_of (filter is_decl attrs).
Definition attrs_of (attrs : list xattr) : list xattr := filter (fun a => negb (is_decl a)) attrs.

(* data[b:e] *)
Definition slice (data : string) (b e : nat) : option string :=
  if (b <=? e) && (e <=? String.length data) then Some (substring b (e - b) data) else None.

(* xmltree.go:27-33: sort key *)
Definition sort_key (n : xname) : string := (nspace n ++ nlocal n)%string.

Section Parse.
  (* sort.Sort(byXMLName(ns)), line 179 *)
  Variable sortns : list xname -> list xname.
  (* utf8buf.Bytes()[:cap]: line 247 passes a slice whose capacity covers the whole document,
     which is what bounds the slice expression at line 274 *)
  Variable data : string.

  (* xmltree.go:180-186 *)
  Definition push_ns (s : scope) (attrs : list xattr) : scope := s ++ sortns (decls_of attrs).

  (* xmltree.go:253-280. The arguments name..children are the Element under construction,
     begin/end_ the two local variables; a nested StartElement runs the same function on a
     fresh child (lines 265-269) after the depth test of lines 254-256. *)
  Fixpoint body (fuel : nat) (name : xname) (attrs : list xattr) (sc : scope) (begin end_ : nat)
           (children : list elem) (depth : N) (ts : stream) : presult :=
    match fuel with
    | O => PErr EFuel
    | S fuel' =>
        match ts with
        | [] => PErr EStream
        | (TStart n a, o) :: ts' =>
            if (recursionLimit <? depth + 1)%N then PErr EDeep
            else match body fuel' n (attrs_of a) (push_ns sc a) o o [] (depth + 1)%N ts' with
                 | POk child o' ts'' =>
                     body fuel' name attrs sc begin o' (children ++ [child]) depth ts''
                 | PErr e => PErr e
                 end
        | (TEnd n, o) :: ts' =>
            if xname_eqb n name then
              match slice data begin end_ with
              | Some c => POk (Elem name attrs sc c children) o ts'
              | None => PErr EPanic
              end
            else PErr EMismatch
        | (TOther, o) :: ts' => body fuel' name attrs sc begin o children depth ts'
        end
    end.

  (* xmltree.go:236-250: skip to the first StartElement, then root.parse with depth 0 *)
  Fixpoint parse (ts : stream) : presult :=
    match ts with
    | [] => PErr EStream
    | (TStart n a, o) :: ts' =>
        body (S (List.length ts')) n (attrs_of a) (push_ns [] a) o o [] 0%N ts'
    | _ :: ts' => parse ts'
    end.
End Parse.
