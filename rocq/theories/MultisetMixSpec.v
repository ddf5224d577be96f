(** Specification: a history of a multiset, reduced to the calls that change which values it has. *)
From Verif Require Import Base TreeHist2Spec MultisetSpec.

(** an add of a value that is not there, and a remove of the only occurrence of a value; l is the multiset before the calls *)
Fixpoint value_calls (l : list Z) (ops : list mop) : list (bop Z) :=
  match ops with
  | [] => []
  | Add x :: ops' => if occurs x l =? 0 then BIns x None :: value_calls (x :: l) ops' else value_calls (x :: l) ops'
  | Remove x :: ops' => if occurs x l =? 1 then BDel x :: value_calls (remove_one x l) ops' else value_calls (remove_one x l) ops'
  end.
(** no value is removed that was never added *)
Definition removes_added (ops : list mop) : Prop := forall before x after, ops = before ++ Remove x :: after -> In (Add x) before.
