(* Model of parts of internal/gen/gen.go and internal/commandline/cli.go. *)
From Verif Require Import Base EqualModel Utf8.
Local Open Scope string_scope.

(* gen.go:51-61 *)
Definition Sanitize (name : string) : string :=
  match name with
  | "break" | "default" | "func" | "interface" | "select"
  | "case" | "defer" | "go" | "map" | "struct"
  | "chan" | "else" | "goto" | "package" | "switch"
  | "const" | "fallthrough" | "if" | "range" | "type"
  | "continue" | "for" | "import" | "return" | "var" => name ++ "_"
  | _ => name
  end.

(* strings.Contains with a one-byte second argument *)
Fixpoint has (c : ascii) (s : string) : bool :=
  match s with EmptyString => false | String d s' => Ascii.eqb d c || has c s' end.

(* strconv.Quote *)
Definition hex1 (n : N) : ascii := ascii_of_N (if (n <? 10)%N then 48 + n else 87 + n).
Fixpoint hex (k : nat) (n : N) : string :=
  match k with O => "" | S k' => hex k' (n / 16)%N ++ s1 (hex1 (n mod 16)%N) end.

Section Quote.
  (* strconv.IsPrint, a table over the code points *)
  Variable is_print : N -> bool.

  (* appendEscapedRune with the double quote as quote *)
  Definition escape_rune (r : N) : string :=
    if ((r =? 34) || (r =? 92))%N then "\" ++ bytes [r]
    else if is_print r then encode_rune r
    else match r with
         | 7 => "\a" | 8 => "\b" | 12 => "\f" | 10 => "\n" | 13 => "\r" | 9 => "\t" | 11 => "\v"
         | _ => if ((r <? 32) || (r =? 127))%N then "\x" ++ hex 2 r
                else if (r <? 65536)%N then "\u" ++ hex 4 r
                else "\U" ++ hex 8 r
         end%N.

  (* appendQuotedWith; the fuel is the number of bytes left *)
  Fixpoint quote_body (fuel : nat) (s : string) : string :=
    match fuel, s with
    | S fuel', String c s' =>
        match decode_rune s with
        | Some (r, w) => escape_rune r ++ quote_body fuel' (s_drop w s)
        | None => "\x" ++ hex 2 (N_of_ascii c) ++ quote_body fuel' s'
        end
    | _, _ => ""
    end.
  Definition quote (s : string) : string := """" ++ quote_body (String.length s) s ++ """".

  (* gen.go:124-129. The value of the literal *)
  Definition String_ (s : string) : string :=
    if has """" s && negb (has "`" s) then "`" ++ s ++ "`" else quote s.
End Quote.

(* gen.go:215-226. bufio.Scanner with ScanLines: lines end in \n, which is dropped together with
   a \r before it; a final line without \n counts when it is not empty. The scanner stops at a
   line that fills its buffer of 64 KB, and the error is not looked at. *)
Definition max_token : N := 65536.
(* the bytes before the first newline, and those after it if there is one *)
Fixpoint cut_line (s : string) : string * option string :=
  match s with
  | EmptyString => ("", None)
  | String c s' => if Ascii.eqb c "010" then ("", Some s')
                   else let (l, r) := cut_line s' in (String c l, r)
  end.
Definition drop_cr (l : string) : string :=
  match s_rev l with String "013" r => s_rev r | _ => l end.
Fixpoint scan_lines (fuel : nat) (s : string) : list string :=
  match fuel, s with
  | S fuel', String _ _ =>
      let (l, r) := cut_line s in
      if (max_token <=? N.of_nat (String.length l))%N then []
      else drop_cr l :: match r with Some r => scan_lines fuel' r | None => [] end
  | _, _ => []
  end.
Definition CommentGroup (comments : list string) : list string :=
  flat_map (fun v => map (fun l => "// " ++ trim_space l) (scan_lines (String.length v) v)) comments.

(* gen.go:75-96. An argument is nil, an *ast.Ident, a *ast.BasicLit or some other expression; the
   latter two carry an arbitrary identity *)
Inductive expr := Ident (n : string) | BasicLit (v : string) | Other (id : nat).
Record field := { f_names : list string; f_type : option expr; f_tag : option string }.
(* one turn of the loop; None is a failed type assertion *)
Definition struct_field (name typ tag : option expr) : option field :=
  match (match name with None => Some [] | Some (Ident n) => Some [n] | _ => None end),
        (match tag with None => Some None | Some (BasicLit v) => Some (Some v) | _ => None end) with
  | Some ns, Some t => Some {| f_names := ns; f_type := typ; f_tag := t |}
  | _, _ => None
  end.
Fixpoint struct_loop (args : list (option expr)) (fields : list field) : option (list field) :=
  match args with
  | name :: typ :: tag :: rest =>
      match struct_field name typ tag with
      | Some f => struct_loop rest (fields ++ [f])%list
      | None => None
      end
  | _ => Some fields
  end.
(* None is a panic *)
Definition Struct (args : list (option expr)) : option (list field) :=
  if Nat.eqb (Nat.modulo (List.length args) 3) 0 then struct_loop args [] else None.

(* gen.go:420-425. None is a nil dereference; get stands for reflect.StructTag.Get *)
Definition TagKey (get : string -> string -> string) (f : field) (key : string) : option string :=
  match f_tag f with Some _ => Some "" | None => None end.

(* strings.SplitN(s, sep, 2): None when sep does not occur *)
Fixpoint split2 (sep s : string) : option (string * string) :=
  if String.prefix sep s then Some ("", s_drop (String.length sep) s)
  else match s with
       | EmptyString => None
       | String c s' => match split2 sep s' with Some (a, b) => Some (String c a, b) | None => None end
       end.

Section Rules.
  (* regexp.Compile succeeds *)
  Variable compiles : string -> bool.
  Definition rule := (string * string)%type.
  (* cli.go:35-48. The new list, and whether nil was returned *)
  Definition rule_set (r : list rule) (s : string) : list rule * bool :=
    match split2 "->" s with
    | None => (r, false)
    | Some (a, b) =>
        let a := trim_space a in let b := trim_space b in
        if compiles a then ((r ++ [(a, b)])%list, true) else (r, false)
    end.
  Definition rule_sets (r : list rule) (ss : list string) : list rule :=
    fold_left (fun r s => fst (rule_set r s)) ss r.
End Rules.
(* cli.go:58-61 *)
Definition strings_set (l : list string) (v : string) : list string := (l ++ [v])%list.
