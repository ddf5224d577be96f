(** Specification of string search. *)
From Verif Require Import Base.
From Coq Require Export Sorted.

(** [query] occurs in [text] with [i] characters before it *)
Definition occurs_at {A} (text query : list A) (i : Z) : Prop := exists pre post, text = pre ++ query ++ post /\ len pre = i.
(** the answer a search must give: all positions, ascending, without repetition; none when either string is empty *)
Definition all_occurrences {A} (text query : list A) (ps : list Z) : Prop :=
  StronglySorted Z.lt ps /\ forall i, In i ps <-> text <> [] /\ query <> [] /\ occurs_at text query i.
(** [eqb] decides equality of characters *)
Definition decides_eq {A} (eqb : A -> A -> bool) : Prop := forall x y, eqb x y = true <-> x = y.
(** the polynomial hash of a string of code points *)
Fixpoint poly_hash (s : list Z) : Z := match s with [] => 0 | c :: s => c + 257 * poly_hash s end.
