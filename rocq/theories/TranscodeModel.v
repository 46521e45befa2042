(* Parse on documents in another encoding (xmltree/xmltree.go:206-250). When the XML
   declaration names an encoding other than UTF-8, encoding/xml calls CharsetReader at input
   offset P (just after "?>"). *)
From Verif Require Import Base ScopeModel TreeModel ParseModel DecodeModel.

Definition zeros (n : nat) : string := fold_right (fun _ s => String "000" s) "" (seq 0 n).

(* offsets seen by the Decoder go on from P *)
Definition shift_stream (p : nat) (ts : stream) : stream := map (fun x => (fst x, p + snd x)) ts.

(* xmltree.go:216-235, 247: the buffer holds P zero bytes and the transcoded rest U of the
   document; the Decoder goes on reading at Bytes()[P+1:], which panics when U is empty *)
Definition parse_transcoded (sortns : list xname -> list xname) (p : nat) (u : string) : presult :=
  match u with
  | EmptyString => PErr EPanic
  | String _ u' => parse sortns (zeros p ++ u) (shift_stream p (decode u'))
  end.

(* The copy of line 231, io.Copy(utf8buf, utf8input), byte by byte. utf8buf starts as doc[:0]
   (line 216), so it is written into the array that the input is read from. The reader is a
   transform.Reader of golang.org/x/text over a single-byte character set: it reads up to 4096
   bytes of input when it has none left, and converts up to 4096 bytes of output at a time.
   bytes.Buffer.ReadFrom reallocates when fewer than 512 bytes of capacity are left.
   mem: the array; r, w: read and write positions; out: the buffer if it has been reallocated. *)
Section Copy.
  Variable dec : ascii -> list ascii.
  Definition chunk : N := 4096.
  Definition min_read : N := 512.

  Record copy_state := mkCopy { mem : list ascii; rpos : nat; wpos : nat; out : option (list ascii);
                                src : list ascii; dst : list ascii }.

  (* Transform: convert while the output fits into the 4096 bytes of dst *)
  Fixpoint convert (room : N) (l : list ascii) : list ascii * list ascii :=
    match l with
    | [] => ([], [])
    | c :: l' => let k := N.of_nat (List.length (dec c)) in
                 if (k <=? room)%N then let (d, rest) := convert (room - k)%N l' in (dec c ++ d, rest)
                 else ([], l)
    end.

  Definition overwrite (m : list ascii) (at_ : nat) (l : list ascii) : list ascii :=
    firstn at_ m ++ l ++ skipn (at_ + List.length l) m.

  (* one Read by ReadFrom; None at the end of input *)
  Definition copy_step (st : copy_state) : option copy_state :=
    let out1 := match out st with
                | Some o => Some o
                | None => if (N.of_nat (List.length (mem st) - wpos st) <? min_read)%N
                          then Some (firstn (wpos st) (mem st)) else None
                end in
    let '(src1, r1) := match dst st, src st with
                       | [], [] => (firstn (N.to_nat chunk) (skipn (rpos st) (mem st)),
                                    Nat.min (rpos st + N.to_nat chunk) (List.length (mem st)))
                       | _, _ => (src st, rpos st)
                       end in
    let '(dst1, src2) := match dst st with [] => convert chunk src1 | d => (d, src1) end in
    match dst1 with
    | [] => None
    | _ =>
        match out1 with
        | Some o => Some (mkCopy (mem st) r1 (wpos st + List.length dst1) (Some (o ++ dst1)) src2 [])
        | None =>
            let n := Nat.min (List.length dst1) (List.length (mem st) - wpos st) in
            Some (mkCopy (overwrite (mem st) (wpos st) (firstn n dst1)) r1 (wpos st + n) None src2 (skipn n dst1))
        end
    end.
  Fixpoint copy_loop (fuel : nat) (st : copy_state) : option (list ascii) :=
    match fuel with
    | O => None
    | S fuel' =>
        match copy_step st with
        | Some st' => copy_loop fuel' st'
        | None => Some (match out st with Some o => o | None => firstn (wpos st) (mem st) end)
        end
    end.

  (* lines 228-231: padding of P zero bytes, then the copy; the result is utf8buf.Bytes() *)
  Definition utf8_buffer (fuel : nat) (doc : list ascii) (p : nat) : option (list ascii) :=
    copy_loop fuel (mkCopy (overwrite doc 0 (repeat "000"%char p)) p p None [] []).
End Copy.

(* ISO-8859-1 *)
Definition latin1 (c : ascii) : list ascii :=
  let n := N_of_ascii c in
  if (n <? 128)%N then [c]
  else [ascii_of_N (192 + n / 64); ascii_of_N (128 + n mod 64)].
