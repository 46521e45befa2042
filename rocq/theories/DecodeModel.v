(* The part of encoding/xml's Decoder (strict mode) that the round-trip theorem depends on:
   start tags, end tags, self-closing tags and character data; namespace translation and the
   matching of end tags. It works on the remaining input; offsets are recovered from its
   length. Processing instructions, comments, CDATA and directives are outside this model:
   decoding stops there as if at a syntax error. Bytes >= 0x80 are accepted in text and
   attribute values (the Decoder checks that they are valid UTF-8) and are not name bytes. *)
From Verif Require Import Base ScopeModel ParseModel.

Definition in_range (lo hi : N) (c : ascii) : bool :=
  let n := N_of_ascii c in ((lo <=? n) && (n <=? hi))%N.

(* encoding/xml isNameByte; the colon is a name byte *)
Definition name_start_byte (c : ascii) : bool :=
  in_range 65 90 c || in_range 97 122 c || Ascii.eqb c "_" || Ascii.eqb c ":".
Definition name_byte (c : ascii) : bool :=
  name_start_byte c || in_range 48 57 c || Ascii.eqb c "." || Ascii.eqb c "-".

Definition space_byte (c : ascii) : bool :=
  Ascii.eqb c " " || Ascii.eqb c "009" || Ascii.eqb c "010" || Ascii.eqb c "013".

(* isInCharacterRange for single bytes *)
Definition char_byte (c : ascii) : bool :=
  Ascii.eqb c "009" || Ascii.eqb c "010" || Ascii.eqb c "013" || (32 <=? N_of_ascii c)%N.

Fixpoint take_while (f : ascii -> bool) (s : string) : string * string :=
  match s with
  | EmptyString => ("", "")
  | String c s' => if f c then let (a, b) := take_while f s' in (String c a, b) else ("", s)
  end.
Definition skip_space (s : string) : string := snd (take_while space_byte s).

(* Decoder.name: a non-empty run of name bytes starting with a letter, _ or : *)
Definition take_name (s : string) : option (string * string) :=
  match take_while name_byte s with
  | (String c n, rest) => if name_start_byte c then Some (String c n, rest) else None
  | (EmptyString, _) => None
  end.

(* entities recognised in text and attribute values: the five predefined ones; character
   references are outside the model *)
Definition strip (p s : string) : option string :=
  if String.prefix p s then Some (substring (String.length p) (String.length s - String.length p) s) else None.
Definition take_entity (s : string) : option (string * string) :=
  match strip "lt;" s, strip "gt;" s, strip "amp;" s, strip "apos;" s, strip "quot;" s with
  | Some r, _, _, _, _ => Some ("<", r)
  | _, Some r, _, _, _ => Some (">", r)
  | _, _, Some r, _, _ => Some ("&", r)
  | _, _, _, Some r, _ => Some ("'", r)
  | _, _, _, _, Some r => Some ("""", r)
  | _, _, _, _, _ => None
  end.

(* Decoder.text(quote, false) inside an attribute value: decoded value and the input after
   the closing quote. A carriage return is outside the model (it is rewritten to \n). *)
Fixpoint take_value (fuel : nat) (quote : ascii) (s : string) : option (string * string) :=
  match fuel, s with
  | S fuel', String c s' =>
      if Ascii.eqb c quote then Some ("", s')
      else if Ascii.eqb c "<" then None
      else if Ascii.eqb c "&" then
        match take_entity s' with
        | Some (d, s'') => match take_value fuel' quote s'' with
                           | Some (v, r) => Some ((d ++ v)%string, r)
                           | None => None
                           end
        | None => None
        end
      else if negb (char_byte c) || Ascii.eqb c "013" then None
      else match take_value fuel' quote s' with
           | Some (v, r) => Some (String c v, r)
           | None => None
           end
  | _, _ => None
  end.

(* Decoder.text(-1, false): character data up to the next '<' or the end of input; None is a
   syntax error (bad entity, control character, "]]>") *)
Fixpoint take_text (fuel : nat) (s : string) : option string :=
  match fuel, s with
  | O, _ => None
  | _, EmptyString => Some ""
  | S fuel', String c s' =>
      if Ascii.eqb c "<" then Some s
      else if Ascii.eqb c "&" then
        match take_entity s' with
        | Some (_, s'') => take_text fuel' s''
        | None => None
        end
      else if negb (char_byte c) then None
      else if String.prefix "]]>" s then None
      else take_text fuel' s'
  end.

(* attributes of a start tag up to > or />: list of (qname, value), self-closing flag, rest *)
Fixpoint take_attrs (fuel : nat) (s : string) : option (list (string * string) * bool * string) :=
  match fuel with
  | O => None
  | S fuel' =>
      match skip_space s with
      | EmptyString => None
      | String c r as s1 =>
          if Ascii.eqb c "/" then
            match r with
            | String d r' => if Ascii.eqb d ">" then Some ([], true, r') else None
            | EmptyString => None
            end
          else if Ascii.eqb c ">" then Some ([], false, r)
          else
            match take_name s1 with
            | None => None
            | Some (n, s2) =>
                match skip_space s2 with
                | EmptyString => None
                | String e s3 =>
                    if negb (Ascii.eqb e "=") then None
                    else match skip_space s3 with
                         | EmptyString => None
                         | String q s4 =>
                             if Ascii.eqb q """" || Ascii.eqb q "'" then
                               match take_value (S (String.length s4)) q s4 with
                               | None => None
                               | Some (v, s5) =>
                                   match take_attrs fuel' s5 with
                                   | None => None
                                   | Some (l, sc, r) => Some ((n, v) :: l, sc, r)
                                   end
                               end
                             else None
                         end
                end
            end
      end
  end.

Inductive rawtok :=
| RStart (qname : string) (attrs : list (string * string)) (selfclose : bool)
| REnd (qname : string)
| RText.

(* Decoder.RawToken: one token and the input left after it *)
Definition raw_token (s : string) : option (rawtok * string) :=
  match s with
  | EmptyString => None
  | String c s1 =>
      if Ascii.eqb c "<" then
        match s1 with
        | EmptyString => None
        | String d s2 =>
            if Ascii.eqb d "/" then
              match take_name s2 with
              | None => None
              | Some (n, s3) =>
                  match skip_space s3 with
                  | String e r => if Ascii.eqb e ">" then Some (REnd n, r) else None
                  | EmptyString => None
                  end
              end
            else
              match take_name s1 with
              | None => None
              | Some (n, s3) =>
                  match take_attrs (S (String.length s3)) s3 with
                  | Some (l, sc, r) => Some (RStart n l sc, r)
                  | None => None
                  end
              end
        end
      else
        match take_text (S (String.length s)) s with
        | Some r => Some (RText, r)
        | None => None
        end
  end.

(* iterated; each token with the length of the input left after it. The list ends where
   RawToken returns an error. *)
Fixpoint raw_tokens (fuel : nat) (s : string) : list (rawtok * nat) :=
  match fuel with
  | O => []
  | S fuel' =>
      match raw_token s with
      | None => []
      | Some (t, r) => (t, String.length r) :: raw_tokens fuel' r
      end
  end.

(* Decoder.nsname: split at the first colon *)
Definition raw_name (q : string) : xname := let (p, l) := split_qname q in mkName p l.

(* Decoder.translate; d.ns is the list of declarations in force, innermost last *)
Definition lookup_ns (ns : scope) (p : string) : option string :=
  match find_last (fun d => String.eqb (nlocal d) p) ns with
  | Some d => Some (nspace d)
  | None => None
  end.
Definition translate (ns : scope) (is_elem : bool) (n : xname) : xname :=
  if String.eqb (nspace n) "xmlns" then n
  else if String.eqb (nspace n) "" && negb is_elem then n
  else
    let sp := if String.eqb (nspace n) "xml" then xmlLangURI else nspace n in
    if String.eqb sp "" && String.eqb (nlocal n) "xmlns" then n
    else match lookup_ns ns sp with
         | Some u => mkName u (nlocal n)
         | None => mkName sp (nlocal n)
         end.

(* Decoder.Token: declarations of the tag come into force, then names are translated *)
Definition raw_decls (l : list (string * string)) : scope :=
  flat_map (fun qv => let n := raw_name (fst qv) in
     if String.eqb (nspace n) "xmlns" then [mkName (snd qv) (nlocal n)]
     else if String.eqb (nspace n) "" && String.eqb (nlocal n) "xmlns" then [mkName (snd qv) ""]
     else []) l.

(* the stack of open elements: translated name and the declarations in force outside it *)
Fixpoint tokens (total : nat) (stack : list (xname * scope)) (ns : scope) (raws : list (rawtok * nat)) : stream :=
  match raws with
  | [] => []
  | (RText, n_left) :: r => (TOther, total - n_left) :: tokens total stack ns r
  | (RStart q l sc, n_left) :: r =>
      let ns' := ns ++ raw_decls l in
      let n := translate ns' true (raw_name q) in
      let attrs := map (fun qv => mkAttr (translate ns' false (raw_name (fst qv))) (snd qv)) l in
      if sc then
        (* needClose: the next call returns the EndElement, without reading input *)
        (TStart n attrs, total - n_left) :: (TEnd n, total - n_left) :: tokens total stack ns r
      else (TStart n attrs, total - n_left) :: tokens total ((n, ns) :: stack) ns' r
  | (REnd q, n_left) :: r =>
      match stack with
      | (n, outer) :: stack' =>
          (* popElement compares with the open element (older Go: after translation, as
             here; newer Go: the written names; both agree on Marshal's output) *)
          if xname_eqb (translate ns true (raw_name q)) n then (TEnd n, total - n_left) :: tokens total stack' outer r
          else []
      | [] => []
      end
  end.

Definition decode (s : string) : stream :=
  tokens (String.length s) [] [] (raw_tokens (S (String.length s)) s).
