(* Documents that import documents. *)
From Verif Require Import Base ScopeModel TreeModel TreeSpec EqualModel BuiltinModel XsdModel.
Local Open Scope string_scope.
Section Files.
  Variable D : Type.
  Variable fs : string -> option D.
  Variable tree : D -> option elem.
  (* the document names the file g as the location of an imported or included schema *)
  Definition cites (d : D) (g : string) : Prop := exists root p v, tree d = Some root /\ descendant root p v /\ g = attr v "" "schemaLocation" /\
    (e_name v = mkName schemaNS "import" \/
     e_name v = mkName schemaNS "include" /\ (e_name root = mkName schemaNS "schema" \/
       exists q s q', descendant root q s /\ e_name s = mkName schemaNS "schema" /\ descendant s q' v)).
  Definition uses (g f : string) : Prop := exists d, fs f = Some d /\ cites d g.
  Inductive needed (files : list string) : string -> Prop :=
  | ne_given f : In f files -> needed files f
  | ne_used f g : needed files f -> uses g f -> needed files g.
  (* f uses g through any number of documents, at least one *)
  Inductive cyclic (f : string) : string -> Prop := cy_one g : uses g f -> cyclic f g | cy_more g h : cyclic f g -> uses h g -> cyclic f h.
  (* f can be read and parsed *)
  Definition readable (f : string) : Prop := exists d root, fs f = Some d /\ tree d = Some root.
  (* the documents of l are those of the files needed, each after those it cites *)
  Definition complete_list (files : list string) (l : list D) : Prop := forall d, In d l <-> exists f, needed files f /\ fs f = Some d.
  Definition imports_first (l : list D) : Prop := forall l1 d l2 g, l = (l1 ++ d :: l2)%list -> cites d g -> exists d', fs g = Some d' /\ In d' l1.
End Files.
