(* Model of cmd/xsdparse/xsdparse.go. Files come as their contents, None if they cannot be read;
   the command line is parsed (C101). StandardSchema is a parameter, as are Go's sorting of namespaces,
   encoding/xml and the growing of slices. *)
From Verif Require Import Base ScopeModel TreeModel ParseModel MarshalModel GraphModel BuiltinModel XsdModel NormModel NormDocs.
Local Open Scope string_scope.

(* the program ends with output, or by log.Fatal, or panics; or it was given too little fuel *)
Inductive ending := Exits (out : string) | Fatal | Panicked | Diverges.

Section Xsdparse.
  Variable sortns : list xname -> list xname.
  Variable dec : string -> stream.
  Variables grow agrow : nat -> nat -> nat.
  Variables cap_of acap_of : nat -> nat.
  Variable standard : list string.
  Variable fuel : nat.

  (* xmltree.Parse, as far as it matters here *)
  Definition parse_text (s : string) : option elem := match parse sortns s (dec s) with POk e _ _ => Some e | PErr _ => None end.
  (* xsd/parse.go:92-128 *)
  Definition normalize_texts (texts : list string) : res (heap * list ptr) :=
    match mapo parse_text (texts ++ standard)%list with
    | Some docs => normalize_docs grow agrow cap_of acap_of fuel docs
    | None => Fails
    end.
  (* xsdparse.go:50-57 *)
  Definition selects (ns : string) (filtered : list string) (h : heap) (r : ptr) : bool :=
    match load h r with
    | Some x => let tns := nattr h x "targetNamespace" in
                negb (String.eqb ns "") && String.eqb ns tns || negb (existsb (String.eqb tns) filtered)
    | None => false
    end.
  (* xsdparse.go:18-63 *)
  Definition xsdparse (ns : string) (files : list (option string)) : ending :=
    match files with
    | [] => Fatal
    | _ =>
        match mapo (fun f => f) files with
        | None => Fatal
        | Some texts =>
            match mapo parse_text standard with
            | None => Panicked
            | Some std =>
                let filtered := map (fun root => attr root "" "targetNamespace") std in
                match normalize_texts texts with
                | Fails => Fatal
                | Runs => Diverges
                | Done (h, roots) =>
                    match mapo (read_ptr fuel h) (filter (selects ns filtered h) roots) with
                    | None => Diverges
                    | Some trees => Exits (fold_right (fun t s => marshal_indent t "" "  " ++ String "010" s) "" trees)
                    end
                end
            end
        end
    end.
End Xsdparse.
