(** Specification of a multiset: a list of occurrences. Nothing here mentions the counter or the tree. *)
From Verif Require Import Base.

Inductive mop := Add (x : Z) | Remove (x : Z).
Fixpoint remove_one (x : Z) (l : list Z) : list Z := match l with [] => [] | y :: l' => if x =? y then l' else y :: remove_one x l' end.
Definition mstep (l : list Z) (o : mop) : list Z := match o with Add x => x :: l | Remove x => remove_one x l end.
(** what a history leaves *)
Definition bag (ops : list mop) : list Z := fold_left mstep ops [].
(** how many times x occurs *)
Definition occurs (x : Z) (l : list Z) : Z := Z.of_nat (count_occ Z.eq_dec l x).
(** histories that never remove the last occurrence of an element, nor an element never added *)
Definition keeps_elements (ops : list mop) : Prop := forall before x after, ops = before ++ Remove x :: after -> occurs x (bag before) <> 1 /\ In (Add x) before.
