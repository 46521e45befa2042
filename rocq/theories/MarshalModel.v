(* Model of xmltree/marshal.go on trees (every element has its own address, so the
   "visited" test of line 88 never fires; pointer graphs are in GraphElem.v). Encoding is the
   sequence of Write calls made on the io.Writer. A write made through text/template is
   checked: a failed write stops the template and the error is returned through encode
   (lines 94-96, 106-108, 111-113, 146-148, 165-167). The other writes ignore the error. *)
From Verif Require Import Base ScopeModel TreeModel ParseModel.

Inductive event := Checked (s : string) | Unchecked (s : string).
Definition ev_text (e : event) : string := match e with Checked s => s | Unchecked s => s end.

(* marshal.go:119-134; parent = None for nil *)
Fixpoint diff_scope_loop (childScope parentScope : scope) : scope :=
  match parentScope, childScope with
  | p :: ps, c :: cs => if xname_eqb c p then diff_scope_loop cs ps else childScope
  | _, _ => childScope
  end.
Definition diff_scope (parent : option scope) (child : scope) : scope :=
  match parent with
  | None => child
  | Some p => diff_scope_loop child p
  end.

(* marshal.go:14-20 template "start"; text/template writes each piece separately *)
Definition start_tag (el : elem) (ns : scope) : list event :=
  [Checked "<"; Checked (prefix (e_scope el) (e_name el))] ++
  flat_map (fun a => [Checked " "; Checked (prefix (e_scope el) (aname a)); Checked "=""";
                      Checked (avalue a); Checked """"]) (e_attrs el) ++
  flat_map (fun d => [Checked " xmlns"] ++
                     (if String.eqb (nlocal d) "" then [] else [Checked ":"; Checked (nlocal d)]) ++
                     [Checked "="""; Checked (nspace d); Checked """"]) ns ++
  match e_children el, e_content el with
  | [], EmptyString => [Checked " />"]
  | _, _ => [Checked ">"]
  end.

(* marshal.go:22-23 template "end" *)
Definition end_tag (el : elem) : list event :=
  [Checked "</"; Checked (prefix (e_scope el) (e_name el)); Checked ">"].

Record encoder := mkEncoder { enc_prefix : string; enc_indent : string; enc_pretty : bool }.

Definition indentation (e : encoder) (depth : N) : list event :=
  repeat (Unchecked (enc_indent e)) (N.to_nat depth).

(* marshal.go:136-155; e.prefix is never used *)
Definition encode_open_tag (e : encoder) (el : elem) (sc : scope) (depth : N) : list event :=
  (if enc_pretty e then indentation e depth else []) ++
  start_tag el sc ++
  (if enc_pretty e then
     match e_children el, e_content el with
     | [], String _ _ => []
     | _, _ => [Unchecked (String "010" "")]
     end
   else []).

(* marshal.go:157-172 *)
Definition encode_close_tag (e : encoder) (el : elem) (depth : N) : list event :=
  (if enc_pretty e then match e_children el with [] => [] | _ => indentation e depth end else []) ++
  end_tag el ++
  (if enc_pretty e then [Unchecked (String "010" "")] else []).

(* marshal.go:83-115; depth = len(visited), the number of ancestors *)
Fixpoint encode (e : encoder) (parent : option scope) (depth : N) (el : elem) : list event :=
  if (recursionLimit <? depth)%N then []
  else
    encode_open_tag e el (diff_scope parent (e_scope el)) depth ++
    match e_children el with
    | [] => match e_content el with
            | EmptyString => []
            | c => Unchecked c :: encode_close_tag e el depth
            end
    | ch => flat_map (encode e (Some (e_scope el)) (depth + 1)%N) ch ++ encode_close_tag e el depth
    end.

(* the bytes written *)
Definition output (evs : list event) : string :=
  fold_right (fun e s => (ev_text e ++ s)%string) "" evs.

(* marshal.go:61-64 and 32-39 *)
Definition encode_events (el : elem) : list event := encode (mkEncoder "" "" false) None 0 el.
Definition marshal (el : elem) : string := output (encode_events el).
(* marshal.go:45-57 *)
Definition marshal_indent (el : elem) (pfx indent : string) : string :=
  output (encode (mkEncoder pfx indent true) None 0 el).

(* Running a sequence of writes on a writer: a state and a Write function that reports
   success. Result: final state and whether Encode returned nil. *)
Section Writer.
  Context {W : Type}.
  Variable write : W -> string -> W * bool.
  Fixpoint run_writes (w : W) (evs : list event) : W * bool :=
    match evs with
    | [] => (w, true)
    | Checked s :: evs' => let (w', ok) := write w s in if ok then run_writes w' evs' else (w', false)
    | Unchecked s :: evs' => let (w', _) := write w s in run_writes w' evs'
    end.
  Definition encode_to (w : W) (el : elem) : W * bool := run_writes w (encode_events el).
End Writer.
