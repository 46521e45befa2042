(* Model of the methods that xsdgen emits as source text: the list codecs of genSimpleListSpec
   (xsdgen/xsdgen.go:962-1120) and the helper types of addStandardHelpers
   (xsdgen/config.go:594-733), and of the standard library functions these call. *)
From Verif Require Import Base EqualModel Utf8 Decimal GenModel.
Local Open Scope string_scope.

(* ---------- lists ---------- *)
(* bytes.Fields / strings.Fields. A white space character is recognised where its encoding
   begins; no encoding in the table begins with a continuation byte, so stepping by bytes
   finds the same places as stepping by runes. *)
Definition flush (cur : string) : list string := match cur with EmptyString => [] | _ => [cur] end.
Fixpoint fields_loop (fuel : nat) (cur s : string) : list string :=
  match fuel, s with
  | S fuel', String c r =>
      match find (fun w => String.prefix w s) white with
      | Some w => (flush cur ++ fields_loop fuel' "" (s_drop (String.length w) s))%list
      | None => fields_loop fuel' (cur ++ s1 c) r
      end
  | _, _ => flush cur
  end.
Definition fields (s : string) : list string := fields_loop (String.length s) "" s.

(* bytes.Join(result, []byte(" ")) *)
Fixpoint join_sp (l : list string) : string :=
  match l with [] => "" | [a] => a | a :: r => a ++ " " ++ join_sp r end.

(* MarshalText: append each item's text, join. UnmarshalText: for each field, return on error
   or append to *x. The result is *x afterwards and whether the error is nil. *)
Definition list_marshal {A} (show : A -> string) (x : list A) : string := join_sp (map show x).
Fixpoint list_loop {A} (read : string -> option A) (x : list A) (fs : list string) : list A * bool :=
  match fs with
  | [] => (x, true)
  | f :: fs' => match read f with Some v => list_loop read (x ++ [v])%list fs' | None => (x, false) end
  end.
Definition list_unmarshal {A} (read : string -> option A) (x : list A) (text : string) : list A * bool :=
  list_loop read x (fields text).

(* xsdgen.go:964-977 *)
Definition strings_marshal (x : list string) : string := list_marshal (fun v => v) x.
Definition strings_unmarshal := list_unmarshal (fun v => Some v).
(* xsdgen.go:1000-1018 (FormatInt/ParseInt) and 1040-1058 (Itoa/Atoi) *)
Definition ints_marshal (x : list Z) : string := list_marshal dec x.
Definition ints_unmarshal := list_unmarshal atoi.
(* xsdgen.go:1060-1078: ParseUint(v, 10, 32) *)
Definition uints_marshal (x : list N) : string := list_marshal dec_N x.
Definition uints_unmarshal := list_unmarshal (parse_uint 32).
(* xsdgen.go:1098-1105: []byte of *x, and *x = T(text) *)
Definition bytes_marshal (x : list N) : string := bytes x.
Definition bytes_unmarshal (x : list N) (text : string) : list N * bool := (map N_of_ascii (list_ascii_of_string text), true).

(* ---------- hexBinary ---------- *)
(* hex.Encode *)
Fixpoint hex_encode (b : string) : string :=
  match b with "" => "" | String c r => String (hex1 (N_of_ascii c / 16)) (String (hex1 (N_of_ascii c mod 16)) (hex_encode r)) end.
(* hex.DecodeString: fromHexChar on each pair; an odd length is an error *)
Definition from_hex (c : ascii) : option N :=
  let n := N_of_ascii c in
  if between 48 57 n then Some (n - 48)%N else if between 97 102 n then Some (n - 97 + 10)%N
  else if between 65 70 n then Some (n - 65 + 10)%N else None.
Fixpoint hex_decode (s : string) : option string :=
  match s with
  | "" => Some ""
  | String a (String b r) =>
      match from_hex a, from_hex b, hex_decode r with
      | Some x, Some y, Some t => Some (String (ascii_of_N (x * 16 + y)) t)
      | _, _, _ => None
      end
  | String _ "" => None
  end.

(* ---------- base64Binary ---------- *)
Definition alphabet := "ABCDEFGHIJKLMNOPQRSTUVWXYZabcdefghijklmnopqrstuvwxyz0123456789+/".
Definition enc64 (n : N) : ascii := match String.get (N.to_nat n) alphabet with Some c => c | None => "=" end.
(* base64.NewEncoder + Write + Close: the chunking of the encoder follows groups of three
   bytes, so the output is that of EncodeToString *)
Fixpoint b64_encode (s : string) : string :=
  match s with
  | String a (String b (String c r)) =>
      let v := (N_of_ascii a * 65536 + N_of_ascii b * 256 + N_of_ascii c)%N in
      String (enc64 (v / 262144)) (String (enc64 (v / 4096 mod 64)) (String (enc64 (v / 64 mod 64)) (String (enc64 (v mod 64)) (b64_encode r))))
  | String a (String b "") =>
      let v := (N_of_ascii a * 65536 + N_of_ascii b * 256)%N in
      String (enc64 (v / 262144)) (String (enc64 (v / 4096 mod 64)) (String (enc64 (v / 64 mod 64)) "="))
  | String a "" =>
      let v := (N_of_ascii a * 65536)%N in
      String (enc64 (v / 262144)) (String (enc64 (v / 4096 mod 64)) "==")
  | "" => ""
  end.
(* StdEncoding.DecodeString: carriage returns and newlines are skipped everywhere; padding only
   in the last group, nothing after it; bits left over in the last group are ignored (the
   encoding is not Strict) *)
Fixpoint find_index (c : ascii) (s : string) (i : N) : option N :=
  match s with "" => None | String x r => if Ascii.eqb x c then Some i else find_index c r (i + 1) end.
Definition dec64 (c : ascii) : option N := find_index c alphabet 0.
Fixpoint drop_nl (s : string) : string :=
  match s with "" => "" | String c r => if (Ascii.eqb c "013" || Ascii.eqb c "010")%bool then drop_nl r else String c (drop_nl r) end.
Fixpoint b64_groups (s : string) : option string :=
  match s with
  | "" => Some ""
  | String a (String b (String c (String d r))) =>
      match dec64 a, dec64 b with
      | Some x, Some y =>
          match dec64 c, dec64 d with
          | Some z, Some w =>
              let v := (x * 262144 + y * 4096 + z * 64 + w)%N in
              match b64_groups r with
              | Some t => Some (bytes [v / 65536; v / 256 mod 256; v mod 256]%N ++ t)
              | None => None
              end
          | Some z, None =>
              if (Ascii.eqb d "=" && String.eqb r "")%bool
              then let v := (x * 262144 + y * 4096 + z * 64)%N in Some (bytes [v / 65536; v / 256 mod 256]%N) else None
          | None, _ =>
              if (Ascii.eqb c "=" && Ascii.eqb d "=" && String.eqb r "")%bool
              then let v := (x * 262144 + y * 4096)%N in Some (bytes [v / 65536]%N) else None
          end
      | _, _ => None
      end
  | _ => None
  end.
Definition b64_decode (s : string) : option string := b64_groups (drop_nl s).

(* ---------- dates and times ---------- *)
(* A time.Time as its civil fields in its location, and the location's offset in seconds.
   Elements a layout does not mention are 0, or 1 for month and day (time.Parse). *)
Record civil := mkCivil { c_year : Z; c_month : Z; c_day : Z; c_hour : Z; c_min : Z; c_sec : Z; c_ns : Z; c_off : Z }.
Definition zero_civil := mkCivil 0 1 1 0 0 0 0 0.
(* The chunks time.nextStdChunk finds in the eight layouts *)
Inductive chunk := KLit (c : ascii) | KYear | KMonth | KDay | KHour | KMin | KSec | KFrac | KZone.

Fixpoint zeros (n : nat) : string := match n with O => "" | S n' => String "0" (zeros n') end.
(* time.appendInt(b, x, width) *)
Definition pad (w : nat) (n : N) : string := let d := dec_N n in zeros (w - String.length d) ++ d.
Definition append_int (w : nat) (z : Z) : string := if (z <? 0)%Z then String "-" (pad w (Z.to_N (- z))) else pad w (Z.to_N z).
Fixpoint strip0 (s : string) : string :=
  match s with
  | "" => ""
  | String c r => match strip0 r with "" => if Ascii.eqb c "0" then "" else s1 c | t => String c t end
  end.
(* Time.Format *)
Definition format_zone (off : Z) : string :=
  if (off =? 0)%Z then "Z"
  else let zone := (Z.quot off 60)%Z in
       let a := Z.abs zone in
       String (if (zone <? 0)%Z then "-" else "+") (append_int 2 (a / 60) ++ ":" ++ append_int 2 (a mod 60)).
Definition format1 (t : civil) (k : chunk) : string :=
  match k with
  | KLit c => s1 c
  | KYear => append_int 4 (c_year t) | KMonth => append_int 2 (c_month t) | KDay => append_int 2 (c_day t)
  | KHour => append_int 2 (c_hour t) | KMin => append_int 2 (c_min t) | KSec => append_int 2 (c_sec t)
  | KFrac => match strip0 (pad 9 (Z.to_N (c_ns t))) with "" => "" | f => String "." f end
  | KZone => format_zone (c_off t)
  end.
Fixpoint format (t : civil) (l : list chunk) : string :=
  match l with [] => "" | k :: l' => format1 t k ++ format t l' end.

(* time.getnum *)
Definition getnum (fixed : bool) (s : string) : option (Z * string) :=
  match s with
  | String a r =>
      match digit_val a with
      | None => None
      | Some x => match r with
                  | String b r' => match digit_val b with
                                   | Some y => Some (Z.of_N (10 * x + y), r')
                                   | None => if fixed then None else Some (Z.of_N x, r)
                                   end
                  | "" => if fixed then None else Some (Z.of_N x, r)
                  end
      end
  | "" => None
  end.
Fixpoint s_take (k : nat) (s : string) : string := match k, s with S k', String c s' => String c (s_take k' s') | _, _ => "" end.
Fixpoint digit_run (s : string) : string * string :=
  match s with
  | String c r => if digit_char_b c then let (a, b) := digit_run r in (String c a, b) else ("", s)
  | "" => ("", "")
  end.
(* digits beyond the ninth are dropped (since Go 1.17; before, they were an error) *)
Definition nanos (d : string) : Z := match digits_val 0 (s_take 9 (d ++ zeros 9)) with Some n => Z.of_N n | None => 0 end.
Definition ranged (lo hi : Z) (o : option (Z * string)) (f : Z -> civil) : option (civil * string) :=
  match o with Some (v, r) => if ((lo <=? v) && (v <=? hi))%Z then Some (f v, r) else None | None => None end.
(* one step of time.parse *)
Definition parse1 (t : civil) (k : chunk) (s : string) : option (civil * string) :=
  let 'mkCivil y mo d h mi se ns off := t in
  match k with
  | KLit c => match s with String x r => if Ascii.eqb x c then Some (t, r) else None | "" => None end
  | KYear => if Nat.eqb (String.length (s_take 4 s)) 4
             then match digits (s_take 4 s) with Some v => Some (mkCivil (Z.of_N v) mo d h mi se ns off, s_drop 4 s) | None => None end
             else None
  | KMonth => ranged 1 12 (getnum true s) (fun v => mkCivil y v d h mi se ns off)
  | KDay => ranged 0 99 (getnum true s) (fun v => mkCivil y mo v h mi se ns off)
  | KHour => ranged 0 23 (getnum false s) (fun v => mkCivil y mo d v mi se ns off)
  | KMin => ranged 0 59 (getnum true s) (fun v => mkCivil y mo d h v se ns off)
  | KSec => ranged 0 59 (getnum true s) (fun v => mkCivil y mo d h mi v ns off)
  | KFrac => match s with
             | String x (String b r) =>
                 if ((Ascii.eqb x "." || Ascii.eqb x ",") && digit_char_b b)%bool
                 then let (ds, rest) := digit_run (String b r) in Some (mkCivil y mo d h mi se (nanos ds) off, rest)
                 else Some (t, s)
             | _ => Some (t, s)
             end
  | KZone => match s with
             | String "Z" r => Some (mkCivil y mo d h mi se ns 0, r)
             | String sg r =>
                 match getnum true r with
                 | Some (hh, String ":" r') =>
                     match getnum true r' with
                     | Some (mm, r'') =>
                         if ((hh <=? 24) && (mm <=? 60))%Z then
                           let o := ((hh * 60 + mm) * 60)%Z in
                           if Ascii.eqb sg "+" then Some (mkCivil y mo d h mi se ns o, r'')
                           else if Ascii.eqb sg "-" then Some (mkCivil y mo d h mi se ns (- o), r'') else None
                         else None
                     | None => None
                     end
                 | _ => None
                 end
             | "" => None
             end
  end.
Fixpoint parse_chunks (t : civil) (l : list chunk) (s : string) : option civil :=
  match l with
  | [] => if String.eqb s "" then Some t else None
  | k :: l' => match parse1 t k s with Some (t', r) => parse_chunks t' l' r | None => None end
  end.
Definition leap (y : Z) : bool := ((y mod 4 =? 0) && (negb (y mod 100 =? 0) || (y mod 400 =? 0)))%Z.
Definition days_in (m y : Z) : Z :=
  if (m =? 2)%Z then (if leap y then 29 else 28)%Z
  else if ((m =? 4) || (m =? 6) || (m =? 9) || (m =? 11))%Z then 30%Z else 31%Z.
Definition time_parse (l : list chunk) (s : string) : option civil :=
  match parse_chunks zero_civil l s with
  | Some t => if ((1 <=? c_day t) && (c_day t <=? days_in (c_month t) (c_year t)))%Z then Some t else None
  | None => None
  end.

(* config.go:597-614: _unmarshalTime, _marshalTime *)
Definition unmarshal_time (l : list chunk) (text : string) : option civil :=
  let s := trim_space text in
  match time_parse l s with Some t => Some t | None => time_parse (l ++ [KZone])%list s end.
Definition marshal_time (l : list chunk) (t : civil) : string := format t (l ++ [KZone])%list.

(* config.go:620-629 *)
Definition ymd := [KYear; KLit "-"; KMonth; KLit "-"; KDay].
Definition hms := [KHour; KLit ":"; KMin; KLit ":"; KSec; KFrac].
Definition layout_date := ymd.
Definition layout_dateTime := (ymd ++ KLit "T" :: hms)%list.
Definition layout_gDay := [KLit "-"; KLit "-"; KLit "-"; KDay].
Definition layout_gMonth := [KLit "-"; KLit "-"; KMonth].
Definition layout_gMonthDay := [KLit "-"; KLit "-"; KMonth; KLit "-"; KDay].
Definition layout_gYear := [KYear].
Definition layout_gYearMonth := [KYear; KLit "-"; KMonth].
Definition layout_time := hms.
