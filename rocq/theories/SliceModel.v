(* Model of SOAPArrayAsSlice: soapArrayToSlice (xsdgen/config.go:735-866), gen.TagKey
   (internal/gen/gen.go:418-425), which methods a declaration has (xsdgen/xsdgen.go:780-795, 798-866),
   and the two generated methods as programs on streams of tokens. Log output and the errors of the Go
   parser on the generated text are left out. *)
From Verif Require Import Base ScopeModel TreeModel EqualModel BuiltinModel CodecModel XsdModel TypesModel GenModel SgModel SgStruct SgTags SoapModel.
Local Open Scope string_scope.

(* gen.go:420-425; the tag of a field may be nil *)
Definition tag_key (tag : option string) : run string := match tag with Some _ => Ret "" | None => Panic end.
(* config.go:768-781 *)
Definition item_tag (tag : string) : xname :=
  if String.eqb tag "" then mkName "" ",any" else
  match split_at "," tag with
  | p :: _ => match fields p with
              | [] => mkName "" ",any"
              | [l] => mkName "" l
              | s :: l => mkName s (last l "")
              end
  | [] => mkName "" ",any"
  end.
(* []item; the elements UnmarshalXML reads; the name of the XML type of the items *)
Record slice := mkSlice { sl_item : gexpr; sl_tag : xname; sl_base : xname }.
(* config.go:738-767; st holds the type as genComplexType left it. None: the spec is not changed *)
Definition to_slice (st : store) (s : spec) : run (option slice) :=
  match sp_struct s with
  | Some [f] =>
      match sf_expr f, sp_type s with
      | EArr e, TPtr i =>
          match get_c st i with
          | None => Ret None
          | Some c =>
              match find el_wild (ct_elems c) with
              | None => Ret None
              | Some v =>
                  match type_name st (el_type v) with
                  | None => Panic
                  | Some base => if (String.eqb (nspace base) "" && String.eqb (nlocal base) "")%bool then Ret None
                                 else andthen (tag_key (Some (sf_tag f))) (fun tag => Ret (Some (mkSlice e (item_tag tag) base)))
                  end
              end
          end
      | _, _ => Ret None
      end
  | _ => Ret None
  end.
(* xsdgen.go:780-795 with 832-841; then config.go:862-864 *)
Definition spec_methods (s : spec) : list string :=
  match sp_overrides s with
  | [] => []
  | l => ((if existsb (fun o => non_trivial_ty (ov_type o)) l then ["MarshalXML"] else []) ++ ["UnmarshalXML"])%list
  end.
Definition methods_after (s : spec) (o : option slice) : list string :=
  (spec_methods s ++ match o with Some _ => ["MarshalXML"; "UnmarshalXML"] | None => [] end)%list.

(* config.go:837-840 *)
Definition out_tag (t : xname) : xname := if String.eqb (nlocal t) ",any" then mkName (nspace t) "item" else t.

(* ---------- the methods at work ---------- *)
Inductive tok := TStart (n : xname) (a : list xattr) | TEnd | TOther.
Section Run.
  Variables Item Err : Type.
  (* what Token returns at the end of the stream *)
  Variable eof : Err.
  (* DecodeElement, called after the start tag: an item or an error, and what is left *)
  Variable decode : xname -> list xattr -> list tok -> (Item + Err) * list tok.
  (* Decoder.Skip: to the end tag that matches *)
  Fixpoint skip (depth : nat) (l : list tok) : list tok :=
    match l with
    | [] => []
    | TStart _ _ :: l' => skip (S depth) l'
    | TEnd :: l' => match depth with 0 => l' | S d => skip d l' end
    | TOther :: l' => skip depth l'
    end.
  (* config.go:791-806 and 808-829: each round ends with tok, err = d.Token(), which replaces the
     error of DecodeElement. None: the rounds are used up *)
  Fixpoint read_items (fuel : nat) (tag : xname) (acc : list Item) (l : list tok) : option (list Item * option Err * list tok) :=
    match fuel with
    | 0 => None
    | S f =>
        match l with
        | [] => Some (acc, Some eof, [])
        | TStart n a :: l' =>
            if (negb (String.eqb (nlocal tag) ",any") && negb (xname_eqb tag n))%bool then read_items f tag acc (skip 0 l')
            else let (r, l2) := decode n a l' in read_items f tag (match r with inl x => (acc ++ [x])%list | inr _ => acc end) l2
        | TEnd :: l' => Some (acc, None, l')
        | TOther :: l' => read_items f tag acc l'
        end
    end.
  (* encoding/xml read.go, unmarshalInterface: the method sees the content of the element with its end
     tag, and has to read all of it *)
  Inductive outcome := Items (l : list Item) | Err_of (e : Err) | Not_consumed | Stuck.
  Definition unmarshal (tag : xname) (content : list tok) : outcome :=
    match read_items (S (List.length content)) tag [] content with
    | None => Stuck
    | Some (l, None, []) => Items l
    | Some (l, None, _ :: _) => Not_consumed
    | Some (_, Some e, _) => Err_of e
    end.
  (* EncodeElement of one item under a name: name and attributes of its start tag, and the rest *)
  Variable encode : xname -> Item -> xname * list xattr * list tok.
  (* config.go:841-857 *)
  Definition array_attrs (base : xname) : list xattr :=
    [mkAttr (mkName "" "xmlns:ns1") (nspace base); mkAttr (mkName soap_wsdlNS "arrayType") ("ns1:" ++ nlocal base ++ "[]")].
  Definition marshal (sl : slice) (name : xname) (attrs : list xattr) (items : list Item) : list tok :=
    (TStart name (attrs ++ array_attrs (sl_base sl)) ::
     flat_map (fun x => let '(n, a, rest) := encode (out_tag (sl_tag sl)) x in TStart n a :: rest) items ++ [TEnd])%list.
End Run.
