(* Model of the documentation of types: annotation.UnmarshalXML (xsd/xsd.go:242-285) and parseAnnotation
   (xsd/parse.go:905-910), with what encoding/xml's Decoder does for them: Token, Skip, and DecodeElement
   into a []byte (read.go, unmarshal). The Decoder is the stream of the tokens that follow the start tag of
   the annotation, up to and including its end tag; after that Token returns io.EOF. *)
From Verif Require Import Base ScopeModel TreeModel EqualModel BuiltinModel XsdModel SgModel.
Local Open Scope string_scope.

(* comments, directives and processing instructions are DOther *)
Inductive dtok := DStart (n : xname) | DEnd | DText (s : string) | DOther.
(* Decoder.Skip; None: the end of the stream *)
Fixpoint skip_el (depth : nat) (l : list dtok) : option (list dtok) :=
  match l with
  | [] => None
  | DStart _ :: l' => skip_el (S depth) l'
  | DEnd :: l' => match depth with 0 => Some l' | S d => skip_el d l' end
  | _ :: l' => skip_el depth l'
  end.
(* DecodeElement into a []byte: the text up to the end tag, without that of the elements inside, which
   are skipped. None: an error, or the fuel is used up *)
Fixpoint bytes_of (fuel : nat) (acc : string) (l : list dtok) : option (string * list dtok) :=
  match fuel with
  | 0 => None
  | S f =>
      match l with
      | [] => None
      | DStart _ :: l' => match skip_el 0 l' with Some l2 => bytes_of f acc l2 | None => None end
      | DEnd :: l' => Some (acc, l')
      | DText s :: l' => bytes_of f (acc ++ s) l'
      | DOther :: l' => bytes_of f acc l'
      end
  end.
(* xsd.go:254-285. An element that is not a documentation is skipped, but then decoded too (269-275): what
   is decoded is what comes after it *)
Fixpoint read_docs (fuel : nat) (buf : list string) (l : list dtok) : option (list string) :=
  match fuel with
  | 0 => None
  | S f =>
      match l with
      | [] => Some buf
      | DEnd :: _ => Some buf
      | DStart n :: l' =>
          match (if negb (xname_eqb n (mkName schemaNS "documentation")) then skip_el 0 l' else Some l') with
          | None => None
          | Some l1 => match bytes_of f "" l1 with
                       | None => None
                       | Some (frag, l2) => read_docs f (buf ++ [trim_space frag])%list l2
                       end
          end
      | _ :: l' => read_docs f buf l'
      end
  end.
Definition blank_line : string := String "010" (String "010" "").
Definition annotation_doc (content : list dtok) : option string :=
  option_map (fun buf => trim_space (joined blank_line buf)) (read_docs (S (List.length content)) [""] content).

(* xmltree.Unmarshal (xmltree/xmltree.go:81-83): the tokens of Marshal(el), see C12 and C13. Marshal writes
   the children of an element, or its content if it has none; raw: the tokens of a content without tags *)
Section Tokens.
  Variable raw : string -> list dtok.
  Fixpoint inner (e : elem) : list dtok :=
    match e with
    | Elem _ _ _ c ks =>
        match ks with
        | [] => raw c
        | _ => flat_map (fun k => DStart (e_name k) :: inner k ++ [DEnd])%list ks
        end
    end.
  (* parse.go:905-910 *)
  Definition parse_annotation (el : elem) : option string := annotation_doc (inner el ++ [DEnd])%list.
End Tokens.
