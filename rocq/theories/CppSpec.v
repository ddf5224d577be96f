(** Vocabulary for the C++ backend theorems: no reference to its loops. *)
From Verif Require Import Base CppModel.

(** the range a call addresses: [start] defaults to 0, [end] to the last index *)
Definition range_start (start : option Z) : Z := match start with Some z => z | None => 0 end.
Definition range_end {V} (a : list V) (end_ : option Z) : Z := match end_ with Some z => z | None => len a - 1 end.

(** the order the caller asks for: truth of [comp(x, y)], or [x <= y] when no comparator is given *)
Definition order_of {A} (le : A -> A -> bool) (comp : option (A -> A -> pyobj)) (x y : A) : bool :=
  match comp with Some f => truthy (f x y) | None => le x y end.
(** the comparator returns True or False, not some other object that is merely truthy or falsy *)
Definition bool_valued {A} (comp : option (A -> A -> pyobj)) : Prop :=
  match comp with Some f => forall x y, f x y = PyTrue \/ f x y = PyFalse | None => True end.

(** cell [u] holds a value that [c] puts before the cell [v]; empty cells come after all values *)
Definition before {A} (c : A -> A -> bool) (u v : option A) : Prop :=
  match u, v with Some x, Some y => c x y = true | Some _, None => True | None, _ => False end.
(** cell 0 is a minimum of the cells 1..e *)
Definition first_is_least {A} (c : A -> A -> bool) (a : list (option A)) (e : Z) : Prop :=
  forall i, 1 <= i <= e -> before c (zn None a 0) (zn None a i).
