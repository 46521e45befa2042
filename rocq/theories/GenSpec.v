(* What the Go language says about the output of internal/gen, independent of the model. *)
From Verif Require Import Base EqualModel EqualSpec Utf8 GenModel.
Local Open Scope string_scope.

(* the keywords, in the order of the Go specification *)
Definition keywords : list string :=
  ["break"; "case"; "chan"; "const"; "continue"; "default"; "defer"; "else"; "fallthrough"; "for"; "func"; "go"; "goto";
   "if"; "import"; "interface"; "map"; "package"; "range"; "return"; "select"; "struct"; "switch"; "type"; "var"].
Definition keyword (s : string) : Prop := In s keywords.

Definition occurs (c : ascii) (s : string) : Prop := exists a b, s = a ++ String c b.

(* Go source text: UTF-8 without NUL and byte order mark *)
Inductive source : string -> Prop :=
| s_nil : source ""
| s_cons r s : scalar r -> r <> 0%N -> r <> 65279%N -> source s -> source (encode_rune r ++ s).

Fixpoint without_cr (s : string) : string :=
  match s with
  | EmptyString => ""
  | String c s' => if Ascii.eqb c "013" then without_cr s' else String c (without_cr s')
  end.

Definition unhex (c : ascii) : option N :=
  let n := N_of_ascii c in
  if between 48 57 n then Some (n - 48)%N else if between 97 102 n then Some (n - 87)%N
  else if between 65 70 n then Some (n - 55)%N else None.
Fixpoint unhexs (acc : N) (l : list ascii) : option N :=
  match l with
  | [] => Some acc
  | c :: l' => match unhex c with Some d => unhexs (16 * acc + d)%N l' | None => None end
  end.
Definition is_scalar (r : N) : bool := ((r <? 55296) || ((57344 <=? r) && (r <? 1114112)))%N.

Definition app_opt (a : option string) (b : option string) : option string :=
  match a, b with Some a, Some b => Some (a ++ b) | _, _ => None end.
Definition code_point (l : list ascii) : option string :=
  match unhexs 0 l with Some r => if is_scalar r then Some (encode_rune r) else None | None => None end.
Definition code_byte (l : list ascii) : option string :=
  match unhexs 0 l with Some r => Some (bytes [r]) | None => None end.

(* the string denoted by the text between the double quotes of an interpreted literal; octal
   escapes are left out, they are never produced *)
Fixpoint interpreted (s : string) : option string :=
  match s with
  | EmptyString => Some ""
  | String """" _ | String "010" _ => None
  | String "\" t =>
      match t with
      | String "a" r => app_opt (Some (bytes [7%N])) (interpreted r)
      | String "b" r => app_opt (Some (bytes [8%N])) (interpreted r)
      | String "f" r => app_opt (Some (bytes [12%N])) (interpreted r)
      | String "n" r => app_opt (Some (bytes [10%N])) (interpreted r)
      | String "r" r => app_opt (Some (bytes [13%N])) (interpreted r)
      | String "t" r => app_opt (Some (bytes [9%N])) (interpreted r)
      | String "v" r => app_opt (Some (bytes [11%N])) (interpreted r)
      | String "\" r => app_opt (Some "\") (interpreted r)
      | String """" r => app_opt (Some """") (interpreted r)
      | String "x" (String a (String b r)) => app_opt (code_byte [a; b]) (interpreted r)
      | String "u" (String a (String b (String c (String d r)))) => app_opt (code_point [a; b; c; d]) (interpreted r)
      | String "U" (String a (String b (String c (String d (String e (String f (String g (String h r)))))))) =>
          app_opt (code_point [a; b; c; d; e; f; g; h]) (interpreted r)
      | _ => None
      end
  | String c t => app_opt (Some (s1 c)) (interpreted t)
  end.

(* the Go literal l denotes the string v *)
Inductive denotes : string -> string -> Prop :=
| d_raw c : source c -> ~ occurs "`" c -> denotes ("`" ++ c ++ "`") (without_cr c)
| d_interpreted c v : source c -> interpreted c = Some v -> denotes ("""" ++ c ++ """") v.

(* strconv.IsPrint rejects control characters and the byte order mark *)
Definition printable_table (is_print : N -> bool) : Prop :=
  forall r, is_print r = true -> (32 <= r)%N /\ r <> 127%N /\ r <> 65279%N.

(* the lines of a text: a \n ends each line but the last, which is there only if not empty *)
Inductive lines : string -> list string -> Prop :=
| l_nil : lines "" []
| l_last l : l <> "" -> ~ occurs "010" l -> lines l [l]
| l_cons l s ls : ~ occurs "010" l -> lines s ls -> lines (l ++ String "010" s) (l :: ls).

(* s begins and ends with something that is not white space *)
Definition trimmed_of (s t : string) : Prop := exists a b, blank a /\ blank b /\ s = a ++ t ++ b /\
  forall w, In w white -> (forall x, t <> w ++ x) /\ (forall x, t <> x ++ w).

(* s splits at the first occurrence of sep *)
Definition first_split (sep s a b : string) : Prop :=
  s = a ++ sep ++ b /\ forall a' b', s = a' ++ sep ++ b' -> String.length a <= String.length a'.

(* t is the comment for line l *)
Definition comment_of (l t : string) : Prop := exists b, trimmed_of l b /\ t = "// " ++ b.

(* the field name and tag given by an argument *)
Definition name_of (o : option expr) (ns : list string) : Prop :=
  (o = None /\ ns = []) \/ exists n, o = Some (Ident n) /\ ns = [n].
Definition tag_of (o : option expr) (t : option string) : Prop :=
  (o = None /\ t = None) \/ exists v, o = Some (BasicLit v) /\ t = Some v.

(* the rule given by one command line argument *)
Definition gives (compiles : string -> bool) (s : string) (r : rule) : Prop :=
  exists a b, first_split "->" s a b /\ trimmed_of a (fst r) /\ trimmed_of b (snd r) /\ compiles (fst r) = true.
(* the arguments that give no rule are skipped, the others keep their order *)
Inductive collected (compiles : string -> bool) : list string -> list rule -> Prop :=
| co_nil : collected compiles [] []
| co_take s ss r rs : gives compiles s r -> collected compiles ss rs -> collected compiles (s :: ss) (r :: rs)
| co_skip s ss rs : (forall r, ~ gives compiles s r) -> collected compiles ss rs -> collected compiles (s :: ss) rs.
