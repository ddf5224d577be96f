(** Specification of range queries. *)
From Verif Require Import Base RangeModel.

(** left-to-right combination of a non-empty list *)
Definition fold1 {V} (op : V -> V -> V) (l : list V) : option V :=
  match l with [] => None | x :: l => Some (fold_left op l x) end.
(** the elements at positions lo, lo+1, .., hi *)
Definition range_of {V} (a : list V) (lo hi : Z) : list V := firstn (Z.to_nat (hi - lo + 1)) (skipn (Z.to_nat lo) a).
Definition zsum (l : list Z) : Z := fold_right Z.add 0 l.
(** [func] behaves like minimum, gcd and summation do: the identity on one argument, None is neutral, otherwise an associative [op] *)
Record combines {V} (func : combiner V) (op : V -> V -> V) : Prop :=
  { cb1 : forall x, c1 func (Some x) = Some x;
    cb_l : forall y, c2 func None y = y; cb_r : forall x, c2 func x None = x;
    cb2 : forall x y, c2 func (Some x) (Some y) = Some (op x y);
    cb_assoc : forall x y z, op x (op y z) = op (op x y) z }.
(** a list with one position replaced: position i for 0 <= i < n, n + i for -n <= i < 0 (Python) *)
Definition py_set {V} (a : list V) (i : Z) (v : V) : list V := upd a (Z.to_nat (if i <? 0 then i + len a else i)) v.
(** one call on a RangeQueryDynamic object *)
Inductive rq_op (V : Type) := RUpdate (i : Z) (v : V) | RQuery (l r : Z).
Arguments RUpdate {V}. Arguments RQuery {V}.
(** the outcomes of a sequence of calls (update returns None); a call that raises leaves the object as it was *)
Fixpoint outcomes {V O} (upd : O -> Z -> V -> res O) (qry : O -> Z -> Z -> res (option V)) (ops : list (rq_op V)) (o : O) : list (res (option V)) :=
  match ops with
  | [] => []
  | RUpdate i v :: ops => match upd o i v with Ret o' => Ret None :: outcomes upd qry ops o' | Raise e => Raise e :: outcomes upd qry ops o | OutOfFuel => [OutOfFuel] end
  | RQuery l r :: ops => qry o l r :: outcomes upd qry ops o
  end.
(** what they should be, on the list of current values *)
Fixpoint expected {V} (op : V -> V -> V) (ops : list (rq_op V)) (a : list V) : list (res (option V)) :=
  match ops with
  | [] => []
  | RUpdate i v :: ops => if (- len a <=? i) && (i <? len a) then Ret None :: expected op ops (py_set a i v) else Raise IndexError :: expected op ops a
  | RQuery l r :: ops =>
    (if r <? l then Raise ValueError else if (l <? 0) || (len a <=? r) then Raise IndexError else Ret (fold1 op (range_of a l r))) :: expected op ops a
  end.
(** a list after a sequence of item assignments *)
Definition assigns {V} (a : list V) (us : list (Z * V)) : list V := fold_left (fun a u => py_set a (fst u) (snd u)) us a.
