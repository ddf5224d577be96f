(** Specifications for searches, subsequences and permutations: no reference to the model. *)
From Verif Require Import Base.

(** [r] is the least index of s..e where [P] holds, [None] if there is none *)
Definition first_index (P : Z -> Prop) (s e : Z) (r : option Z) : Prop :=
  match r with
  | Some i => s <= i <= e /\ P i /\ forall j, s <= j < i -> ~ P j
  | None => forall j, s <= j <= e -> ~ P j
  end.
(** [r] is some index of s..e where [P] holds, [None] if there is none *)
Definition some_index (P : Z -> Prop) (s e : Z) (r : option Z) : Prop :=
  match r with
  | Some i => s <= i <= e /\ P i
  | None => forall j, s <= j <= e -> ~ P j
  end.

(** [le] is a total order *)
Record total_order {A} (le : A -> A -> Prop) : Prop :=
  { to_trans : forall x y z, le x y -> le y z -> le x z;
    to_antisym : forall x y, le x y -> le y x -> x = y;
    to_total : forall x y, le x y \/ le y x }.
(** [comp] answers [<=] or [<]: on distinct elements it is the order [le] *)
Definition orders {A} (comp : A -> A -> bool) (le : A -> A -> Prop) : Prop :=
  forall x y, x <> y -> (comp x y = true <-> le x y).

(** the values of [a] on s..e are in non-decreasing order *)
Definition ascending {A} (d : A) (le : A -> A -> Prop) (a : list A) (s e : Z) : Prop :=
  forall i j, s <= i -> i <= j -> j <= e -> le (zn d a i) (zn d a j).

(** [s] is a subsequence of [l] *)
Inductive subseq {A} : list A -> list A -> Prop :=
| sub_nil : forall l, subseq [] l
| sub_take : forall x s l, subseq s l -> subseq (x :: s) (x :: l)
| sub_skip : forall x s l, subseq s l -> subseq s (x :: l).

(** lexicographic order on lists of the same length *)
Inductive lex {A} (lt : A -> A -> Prop) : list A -> list A -> Prop :=
| lex_here : forall x y l l', lt x y -> length l = length l' -> lex lt (x :: l) (y :: l')
| lex_there : forall x l l', lex lt l l' -> lex lt (x :: l) (x :: l').

(** [p] is the least rearrangement of [l] above [l] *)
Definition lex_successor {A} (lt : A -> A -> Prop) (l p : list A) : Prop :=
  Permutation l p /\ lex lt l p /\ forall q, Permutation l q -> lex lt l q -> q = p \/ lex lt p q.
Definition no_lex_greater {A} (lt : A -> A -> Prop) (l : list A) : Prop :=
  forall q, Permutation l q -> ~ lex lt l q.

(** sum of f 0 + .. + f (n-1) *)
Fixpoint sum_below (n : nat) (f : Z -> Z) : Z :=
  match n with O => 0 | S n => sum_below n f + f (Z.of_nat n) end.
(** an n x n matrix as a list of rows *)
Definition square (n : Z) (m : list (list Z)) : Prop := len m = n /\ forall r, In r m -> len r = n.

(** [comp] is a strict total order test *)
Definition strict_total {A} (comp : A -> A -> bool) : Prop :=
  (forall x, comp x x = false) /\ (forall x y z, comp x y = true -> comp y z = true -> comp x z = true) /\
  (forall x y, x = y \/ comp x y = true \/ comp y x = true).
(** the range s..e of the array *)
Definition slice {A} (a : list A) (s e : Z) : list A := firstn (Z.to_nat (e - s + 1)) (skipn (Z.to_nat s) a).
