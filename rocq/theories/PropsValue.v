(* C09, C93: the values of attributes are what is written between their quotes stands for. *)
From Verif Require Import Base ScopeModel TreeModel ParseModel ParseSpec DecodeModel BindModel MarshalSpec UnmModel UnmText ValueText.
Local Open Scope string_scope.

Theorem C09_attribute_values : forall sortns q l, sorts sortns -> ncname q = true -> Forall well_written l ->
  exists el off, parse sortns (write_tag q l) (decode (write_tag q l)) = POk el off [] /\ e_name el = mkName "" q /\ e_attrs el = written_attrs l.
Proof. exact values_parsed. Qed.
Print Assumptions C09_attribute_values.
Theorem C93_attribute_values : forall q l, ncname q = true -> Forall well_written l -> seen (write_tag q l) = Some (NElem (mkName "" q) (written_attrs l) []).
Proof. exact values_seen. Qed.
Print Assumptions C93_attribute_values.
Example values_case : Forall well_written quotes /\ write_tag "t" quotes = "<t a=""x &lt; 'y'&amp;"" b='""&quot;&apos;&gt;' />" /\
  written_attrs quotes = [mkAttr (mkName "" "a") "x < 'y'&"; mkAttr (mkName "" "b") """""'>"].
Proof. exact (conj (proj1 quotes_written) (conj (proj2 quotes_written) eq_refl)). Qed.
