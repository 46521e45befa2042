(* Vocabulary for WSDL documents: which elements say what, in document order. *)
From Coq Require Import Sorted.
From Verif Require Import Base ScopeModel TreeModel TreeSpec GenModel BuiltinModel XsdModel SgStruct WsdlModel.
Local Open Scope string_scope.

(* es are the proper descendants of root that satisfy P, in document order *)
Definition in_order (root : elem) (P : elem -> Prop) (es : list elem) : Prop :=
  exists ps, StronglySorted doc_before ps /\ (forall p, In p ps <-> exists e, descendant root p e /\ P e) /\
    Forall2 (fun p e => sub root p = Some e) ps es.
Definition called (ns local : string) (e : elem) : Prop := e_name e = mkName ns local.

(* the value the last of l gives, z if there is none *)
Inductive last_value {A B} (f : A -> B) (z : B) : list A -> B -> Prop :=
| lv_none : last_value f z [] z
| lv_last l a : last_value f z (l ++ [a])%list (f a).

(* the contents of the documentation children, one per line *)
Definition documents (e : elem) (doc : string) : Prop :=
  doc = String.concat (String "010" "") (map e_content (filter (fun d => String.eqb (nlocal (e_name d)) "documentation") (e_children e))).

(* the name an element declares: in the target namespace unless it has a prefix; a name it refers to *)
Definition declares (tns : string) (e : elem) (n : xname) : Prop := n = resolve_default (e_scope e) (attr e "" "name") tns.
Definition refers (e : elem) (a : string) (n : xname) : Prop := n = resolve (e_scope e) (attr e "" a).

Definition reads_part (e : elem) (p : part) : Prop := pa_name p = attr e "" "name" /\ refers e "type" (pa_type p) /\ refers e "element" (pa_elem p).
Definition reads_message (tns : string) (e : elem) (m : message) : Prop :=
  declares tns e (ms_name m) /\ exists es, in_order e (called wsdlNS "part") es /\ Forall2 reads_part es (ms_parts m).

(* the elements called {wsdl}local that declare n *)
Definition defines (tns local : string) (n : xname) (e : elem) : Prop := called wsdlNS local e /\ declares tns e n.

(* the messages an operation names: the last input, the last output; no name if there is none *)
Definition message_of (local : string) (e : elem) (n : xname) : Prop :=
  exists es, in_order e (called wsdlNS local) es /\ last_value (fun i => resolve (e_scope i) (attr i "" "message")) (mkName "" "") es n.
(* the action of the last SOAP 1.1 operation inside the elements of the binding that have the tag and the name attribute of e *)
Definition acts (b e : elem) (action : string) : Prop :=
  exists els sos, in_order b (fun x => e_name x = e_name e /\ attr x "" "name" = attr e "" "name") els /\
    Forall2 (fun x l => in_order x (called soapNS "operation") l) els sos /\ last_value (fun s => attr s "" "soapAction") "" (concat sos) action.
Record reads_operation (tns : string) (b e : elem) (o : operation) : Prop := {
  ro_doc : documents e (op_doc o); ro_name : declares tns e (op_name o);
  ro_input : message_of "input" e (op_input o); ro_output : message_of "output" e (op_output o); ro_action : acts b e (op_action o) }.
(* the operations of the port types a binding names *)
Definition offers (tns : string) (root b : elem) (ops : list operation) : Prop :=
  exists ts ls, in_order root (defines tns "portType" (resolve (e_scope b) (attr b "" "type"))) ts /\
    Forall2 (fun t l => exists es, in_order t (called wsdlNS "operation") es /\ Forall2 (reads_operation tns b) es l) ts ls /\ ops = concat ls.
(* the first verb an HTTP binding gives *)
Definition method_of (upper : string -> string) (bs : list elem) (m : string) : Prop :=
  exists hs, Forall2 (fun b l => in_order b (called httpNS "binding") l) bs hs /\
    ((exists l1 h l2, concat hs = (l1 ++ h :: l2)%list /\ (forall x, In x l1 -> attr x "" "verb" = "") /\ attr h "" "verb" <> "" /\ m = upper (attr h "" "verb")) \/
     ((forall x, In x (concat hs) -> attr x "" "verb" = "") /\ m = "POST")).
(* the location of the last SOAP 1.2 address, else of the last SOAP 1.1 address *)
Definition addressed (e : elem) (a : string) : Prop :=
  exists l12 l11, in_order e (called soap12NS "address") l12 /\ in_order e (called soapNS "address") l11 /\
    match l12 with [] => last_value (fun x => attr x "" "location") "" l11 a | _ => last_value (fun x => attr x "" "location") "" l12 a end.
Record reads_port (upper : string -> string) (tns : string) (root e : elem) (p : port) : Prop := {
  rp_name : po_name p = attr e "" "name"; rp_address : addressed e (po_address p);
  rp_ops : exists bs ls, in_order root (defines tns "binding" (resolve (e_scope e) (attr e "" "binding"))) bs /\
    method_of upper bs (po_method p) /\ Forall2 (offers tns root) bs ls /\ po_ops p = concat ls }.
Definition reads_definition (upper : string -> string) (root : elem) (d : definition) : Prop :=
  df_tns d = attr root "" "targetNamespace" /\
  exists ss, in_order root (called wsdlNS "service") ss /\
    match rev ss with
    | [] => df_doc d = "" /\ df_ports d = []
    | s :: _ => documents s (df_doc d) /\ exists ps, in_order s (called wsdlNS "port") ps /\ Forall2 (reads_port upper (df_tns d) root) ps (df_ports d)
    end.

(* ---------- generated methods ---------- *)
(* the declaration of a method with its parameters and results as they are written *)
Definition is_method (d : wdecl) : Prop := match d with WMethod _ _ _ _ _ _ _ _ _ _ _ _ _ _ => True | WType _ _ => False end.
Definition method_params (d : wdecl) : list string := match d with WMethod _ _ p _ _ _ _ _ _ _ _ _ _ _ => p | _ => [] end.
Definition method_results (d : wdecl) : list string := match d with WMethod _ _ _ r _ _ _ _ _ _ _ _ _ _ => r | _ => [] end.
Definition method_name (d : wdecl) : string := match d with WMethod n _ _ _ _ _ _ _ _ _ _ _ _ _ => n | _ => "" end.
(* the fields of the request as they are sent: tag, Go type, value *)
Definition method_sends (d : wdecl) : list (xname * (string * string)) :=
  match d with WMethod _ _ _ _ _ _ _ req _ _ _ _ _ _ => map (fun f => (fd_xml f, (fd_type f, fd_arg f))) req | _ => [] end.
(* how many values the return statement has *)
Definition method_returns (d : wdecl) : nat :=
  match d with WMethod _ _ _ _ _ _ _ _ _ _ _ _ _ r => match r with RFields l => S (List.length l) | RStruct _ _ => 2 | RErr => 1 end | _ => 0 end.

(* verb, address and SOAP action of the call *)
Definition method_call (d : wdecl) : option (string * string * string) :=
  match d with WMethod _ _ _ _ _ _ _ _ _ _ verb address action _ => Some (verb, address, action) | _ => None end.
(* names of the elements for the call, its request and its response; documentation *)
Definition method_about (d : wdecl) : option (xname * xname * xname * string) :=
  match d with WMethod _ doc _ _ msg inname outname _ _ _ _ _ _ _ => Some (msg, inname, outname, doc) | _ => None end.
(* the fields of the response as they are received: name, tag, Go type *)
Definition method_receives (d : wdecl) : list (string * xname * string) :=
  match d with WMethod _ _ _ _ _ _ _ _ _ resp _ _ _ _ => map (fun f => (fd_name f, fd_xml f, fd_type f)) resp | _ => [] end.
(* how the types that the code generator has for some built-ins are shown *)
Definition shown_as : list (string * string) :=
  [("xsdDate", "time.Time"); ("xsdTime", "time.Time"); ("xsdDateTime", "time.Time"); ("gDay", "time.Time"); ("gMonth", "time.Time"); ("gMonthDay", "time.Time");
   ("gYear", "time.Time"); ("gYearMonth", "time.Time"); ("hexBinary", "[]byte"); ("base64Binary", "[]byte");
   ("idrefs", "[]string"); ("nmtokens", "[]string"); ("notation", "[]string"); ("entities", "[]string")].
Definition shown (t : string) : string := match find (fun x => String.eqb t (fst x)) shown_as with Some x => snd x | None => t end.

Section Methods.
  Variable title : string -> string.
  Variable names : list (xname * string).
  Variable other : xname -> string.
  Variable doc_type : string -> option (list (xname * xname)).
  (* the Go name of a type: as declared, of a built-in, or what the code generator finds otherwise *)
  Inductive go_name (n : xname) : string -> Prop :=
  | gn_declared s : lookup n names = Some s -> go_name n s
  | gn_builtin b g : lookup n names = None -> parse_builtin n = Some b -> builtin_expr b = Returns (Some g) -> go_name n (expr_text (of_gotype g))
  | gn_nothing b : lookup n names = None -> parse_builtin n = Some b -> (forall g, builtin_expr b <> Returns (Some g)) -> go_name n ("ERROR" ++ nlocal n)
  | gn_other : lookup n names = None -> parse_builtin n = None -> go_name n (other n).
  (* the Go type of a part: of its type, or of the element it names *)
  Inductive go_type (p : part) : string -> Prop :=
  | gt_type s : nlocal (pa_type p) <> "" -> go_name (pa_type p) s -> go_type p s
  | gt_element els t s : nlocal (pa_type p) = "" -> nlocal (pa_elem p) <> "" -> doc_type (nspace (pa_elem p)) = Some els ->
      lookup (pa_elem p) els = Some t -> go_name t s -> go_type p s.
  (* the name of a parameter: the part's, with an underscore after keywords and after the type's own name *)
  Definition param_ident (p : part) (t v : string) : Prop :=
    (Sanitize (pa_name p) <> t -> v = Sanitize (pa_name p)) /\ (Sanitize (pa_name p) = t -> v = Sanitize (pa_name p) ++ "_").

  (* what is declared for an operation with the given messages and the Go types of their parts *)
  Record declared (ma mr : Z) (tns : string) (input : message) (ts : list string) (output : message) (us : list string) (ds : list wdecl) (m : wdecl) : Prop := {
    dc_method : exists l, ds = (l ++ [m])%list /\ is_method m /\ Forall (fun d => ~ is_method d) l;
    dc_few : (Z.of_nat (List.length (ms_parts input)) <= ma)%Z ->
      exists ps, method_params m = "ctx context.Context" :: ps /\
        Forall2 (fun pt s => exists v, param_ident (fst pt) (snd pt) v /\ s = v ++ " " ++ shown (snd pt)) (combine (ms_parts input) ts) ps;
    dc_many : (ma < Z.of_nat (List.length (ms_parts input)))%Z ->
      method_params m = ["ctx context.Context"; "v " ++ nlocal (ms_name input)] /\
      (title (nlocal (ms_name input)) <> "" ->
       exists fs, In (WType (title (nlocal (ms_name input))) fs) ds /\ map fst fs = map (fun p => title (pa_name p)) (ms_parts input) /\ map snd fs = map shown ts);
    dc_sends : Forall2 (fun pt s => fst s = mkName tns (pa_name (fst pt)) /\ fst (snd s) = snd pt /\
        ((Z.of_nat (List.length (ms_parts input)) <= ma)%Z -> param_ident (fst pt) (snd pt) (snd (snd s))) /\
        ((ma < Z.of_nat (List.length (ms_parts input)))%Z -> snd (snd s) = "v." ++ title (pa_name (fst pt)))) (combine (ms_parts input) ts) (method_sends m);
    dc_receives : method_receives m = map (fun pt => (title (pa_name (fst pt)), mkName tns (pa_name (fst pt)), snd pt)) (combine (ms_parts output) us);
    dc_few_results : (Z.of_nat (List.length (ms_parts output)) <= mr)%Z ->
      method_results m = (map shown us ++ ["error"])%list /\ method_returns m = List.length (method_results m);
    dc_many_results : (mr < Z.of_nat (List.length (ms_parts output)))%Z ->
      method_results m = [title (nlocal (ms_name output)); "error"] /\
      (title (nlocal (ms_name output)) <> "" ->
       exists fs, In (WType (title (nlocal (ms_name output))) fs) ds /\ map fst fs = map (fun p => title (pa_name p)) (ms_parts output) /\ map snd fs = map shown us) }.
End Methods.
