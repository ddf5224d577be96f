(** Specification of sorting: no reference to the model. *)
From Verif Require Import Base.

Section SortSpec.
  Context {A : Type}.
  (** [comp] decides a total preorder [le]; ties may be answered either way (so both [<=] and [<] qualify) *)
  Record decides (comp : A -> A -> bool) (le : A -> A -> Prop) : Prop :=
    { dec_true : forall x y, comp x y = true -> le x y;
      dec_false : forall x y, comp x y = false -> le y x;
      dec_trans : forall x y z, le x y -> le y z -> le x z }.

  (** the order on cells: empty cells come last *)
  Definition none_last (le : A -> A -> Prop) (u v : option A) : Prop :=
    match v, u with
    | None, _ => True
    | Some y, Some x => le x y
    | Some _, None => False
    end.

  (** [a] is sorted on the index range s..e (inclusive) *)
  Definition sorted_range (le : A -> A -> Prop) (a : list (option A)) (s e : Z) : Prop :=
    forall i j, s <= i -> i <= j -> j <= e -> none_last le (zn None a i) (zn None a j).

  (** same cells, nothing touched outside s..e *)
  Definition rearranged {V} (d : V) (a : list V) (s e : Z) (a' : list V) : Prop :=
    Permutation a a' /\ forall i, 0 <= i -> i < s \/ e < i -> zn d a' i = zn d a i.

  (** [a'] is [a] with the range s..e sorted *)
  Definition sorts (le : A -> A -> Prop) (a : list (option A)) (s e : Z) (a' : list (option A)) : Prop :=
    rearranged None a s e a' /\ sorted_range le a' s e.
End SortSpec.

Section StableSpec.
  Context {A : Type} (comp : A -> A -> bool).
  (** [x] and the cell are tied under [comp] *)
  Definition tied (x : A) (u : option A) : bool :=
    match u with Some y => comp x y && comp y x | None => false end.
  (** the cells tied with any given element keep their relative order *)
  Definition stable (a a' : list (option A)) : Prop :=
    forall x, filter (tied x) a' = filter (tied x) a.
End StableSpec.
