(* Model of xmltree.Unmarshal (xmltree/xmltree.go:77-83): xml.Unmarshal of the bytes that Marshal writes. Of
   xml.Unmarshal this has what does not depend on the type: the Decoder (DecodeModel) is read up to the end tag
   of the first element; an element is its name, its attributes, and the elements and texts in it (BindModel has
   what becomes of them). *)
From Verif Require Import Base ScopeModel TreeModel ParseModel DecodeModel BindModel MarshalModel.
Local Open Scope string_scope.

(* Decoder.text (encoding/xml, xml.go): entities are replaced, and \r and \r\n by \n. The text of a token has no
   other & (take_text) *)
Fixpoint chars (fuel : nat) (s : string) : string :=
  match fuel, s with
  | S f, String c s' =>
      if Ascii.eqb c "&" then match take_entity s' with Some (d, r) => d ++ chars f r | None => String c (chars f s') end
      else if Ascii.eqb c "013" then String "010" (chars f (match s' with String "010" r => r | _ => s' end))
      else String c (chars f s')
  | _, _ => ""
  end.
Definition text_of (s : string) : string := chars (String.length s) s.

Section Grow.
  Variable data : string.
  (* Decoder.Token until the first element has ended; prev is InputOffset, open the elements not ended yet,
     innermost first. None: an error *)
  Fixpoint grow (prev : nat) (open : list (xname * list xattr * list node)) (ts : stream) : option node :=
    match ts with
    | [] => None
    | (TStart n a, o) :: r => grow o ((n, a, []) :: open) r
    | (TOther, o) :: r =>
        match open with
        | [] => grow o [] r
        | (n, a, k) :: up => grow o ((n, a, k ++ [NText (text_of (substring prev (o - prev) data))])%list :: up) r
        end
    | (TEnd _, o) :: r =>
        match open with
        | [] => None
        | [(n, a, k)] => Some (NElem n a k)
        | (n, a, k) :: (n2, a2, k2) :: up => grow o ((n2, a2, k2 ++ [NElem n a k])%list :: up) r
        end
    end.
End Grow.
(* what xml.Unmarshal(data, v) reads *)
Definition seen (data : string) : option node := grow data 0 [] (decode data).
(* xmltree.go:81-83 *)
Definition unmarshal_sees (el : elem) : option node := seen (marshal el).
