(* Model of readFiles, of GenAST's use of it (xsdgen/cli.go:54-95), of lookupTargetNS
   (xsdgen/xsdgen.go:42-61). The file system and xmltree.Parse are arbitrary functions; a file does
   not change while it is read. *)
From Verif Require Import Base ScopeModel TreeModel EqualModel BuiltinModel XsdModel TypesModel GenModel SgModel.
Local Open Scope string_scope.

Section Files.
  Variable D : Type.
  Variable fs : string -> option D.
  Variable tree : D -> option elem.
  (* cli.go:65-95; Fail is the error return, Loops: more nested calls than the fuel. The location of
     an import is used as it is *)
  Fixpoint read_files (fuel : nat) (follow : bool) (files : list string) : run (list D) :=
    match fuel with
    | 0 => Loops
    | S k => foldr (fun data f =>
        match fs f with
        | None => Fail
        | Some b =>
            if follow then
              match tree b with
              | None => Fail
              | Some root => andthen (read_files k follow (map r_loc (imports root))) (fun d => Ret (data ++ d ++ [b])%list)
              end
            else Ret (data ++ [b])%list
        end) [] files
    end.
  (* cli.go:54-63: err is assigned again before it is looked at; on an error data is nil *)
  Variable A : Type.
  Variable gen_code : list D -> run A.
  Definition gen_ast_files (fuel : nat) (follow : bool) (files : list string) : run A :=
    match read_files fuel follow files with
    | Ret data => gen_code data
    | Fail => gen_code []
    | Panic => Panic
    | Loops => Loops
    end.
  (* xsdgen.go:42-61 *)
  Definition lookup_target_ns (data : list D) : list string :=
    flat_map (fun d => match tree d with
                       | None => []
                       | Some t => filter (fun ns => negb (String.eqb ns "")) (map (fun el => attr el "" "targetNamespace")
                                     (find_all "schema" (Elem (mkName "" "") [] [] "" [t])))
                       end) data.
End Files.
