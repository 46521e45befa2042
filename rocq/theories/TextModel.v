(* Model of Config.GenCode (xsdgen/cli.go:19-52) from the texts of the documents on: lookupTargetNS
   (xsdgen.go:42-61), xsd.Parse with Normalize (xsd/parse.go:92-176), and gen. The trees that
   Normalize leaves in memory are read off as values before they are parsed. *)
From Verif Require Import Base SortLib ScopeModel TreeModel EqualModel ParseModel GraphModel BuiltinModel CodecModel XsdModel NormModel NormDocs XsdparseModel TypesModel GenModel SgModel SgStruct SliceModel SgGen FilesModel PipeModel.
Local Open Scope string_scope.

Section Texts.
  (* encoding/xml, Go's sorting and growing of slices, StandardSchema *)
  Variable sortns : list xname -> list xname.
  Variable dec : string -> stream.
  Variables grow agrow : nat -> nat -> nat.
  Variables cap_of acap_of : nat -> nat.
  Variable standard : list string.
  Variable fuel : nat.
  (* what reading types depends on *)
  Variable annot : elem -> option string.
  Variables (F T : Type) (f0 : F) (t0 : T).
  Variables (pf : string -> option F) (pd pr : string -> option T) (comp : string -> bool) (msg : string -> string).
  (* what the texts are parsed to: an error, or the schemas *)
  Definition parse_texts (texts : list string) : run (option (list rd)) :=
    match normalize_texts sortns dec grow agrow cap_of acap_of standard fuel texts with
    | Fails => Ret None
    | Runs => Loops
    | Done (h, roots) =>
        match mapo (read_ptr fuel h) roots with
        | None => Loops
        | Some trees => Ret (mapo (read annot F T f0 t0 pf pd pr comp msg) trees)
        end
    end.
  (* the Config *)
  Variable public : xname -> string.
  Variable fa : option (attribute -> bool).
  Variable fe : option (element -> bool).
  Variable ft : option (xname -> bool).
  Variable allow : option (list xname).
  Variable helpers : list Z.
  Variable slices : bool.
  Variable ord : nat -> list (xname * ty) -> list (xname * ty).
  Variable ord' : string -> list (xname * ty) -> list (xname * ty).
  Variable namespaces : list string.
  Definition gen_texts (texts : list string) : run coded :=
    andthen (parse_texts texts) (fun o =>
      match o with
      | None => Ret Unparsed
      | Some l => gen_code public fa fe ft allow helpers slices ord ord' namespaces (lookup_target_ns string (parse_text sortns dec) texts) l
      end).
End Texts.
