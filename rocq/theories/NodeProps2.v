(** Property C139, continued: numbers in the text of nodes and edges, and refused values. *)
From Coq Require Import Strings.String.
From Verif Require Import Base NodeModel NodeSpec NodeProofs NodeProps PrintModel4 PrintSpec3 PrintProofs8.
Import List.
Open Scope list_scope.

(** C139. str of a C++ node with an int as data and str of a C++ edge with an int or a str as value: the names and the decimal notation of the int. *)
Theorem C139_int_text : forall (to_string_double repr_obj : Z -> ustr) (name source target : ustr) (z : Z), exists t, decimal_of z t /\
  cnode_str to_string_double repr_obj (mkcnode name (SInt z)) = lit "('" ++ name ++ lit "', " ++ t ++ lit ")" /\
  cedge_str to_string_double source target (SInt z) = lit "('" ++ source ++ lit "', '" ++ target ++ lit "', " ++ t ++ lit ")".
Proof. intros. exists (decimal z). split; [apply decimal_ok|]. split; reflexivity. Qed.
Print Assumptions C139_int_text.
Theorem C139_edge_text : forall (to_string_double : Z -> ustr) (source target s : ustr) (f : Z),
  cedge_str to_string_double source target (SString s) = lit "('" ++ source ++ lit "', '" ++ target ++ lit "', " ++ s ++ lit ")" /\
  cedge_str to_string_double source target (SDouble f) = lit "('" ++ source ++ lit "', '" ++ target ++ lit "', " ++ to_string_double f ++ lit ")" /\
  cedge_str to_string_double source target SNone = lit "('" ++ source ++ lit "', '" ++ target ++ lit "', None)".
Proof. intros. repeat split; reflexivity. Qed.
Print Assumptions C139_edge_text.
(** C139. An edge cannot be made with an object of another kind as its value: TypeError. *)
Theorem C139_edge_refuses_objects : forall (o : Z) (ops : list pv), edge_run (PObj o) ops = Raise TypeError.
Proof. reflexivity. Qed.
Print Assumptions C139_edge_refuses_objects.
Example C139_int_text_case : cnode_str (fun _ => []) (fun _ => []) (mkcnode (lit "ab") (SInt (-205))) = lit "('ab', -205)" /\
  cedge_str (fun _ => []) (lit "a") (lit "b") (SInt 90) = lit "('a', 'b', 90)".
Proof. split; vm_compute; reflexivity. Qed.
