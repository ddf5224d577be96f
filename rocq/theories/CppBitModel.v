(** Model of the C++ BinaryIndexedTree (pydatastructs/trees/_backend/cpp/BinaryIndexedTree.hpp).
    [long] is a 64-bit signed integer; a sum that does not fit is taken modulo 2^64 ([s64]; strictly, signed overflow is undefined in C++).
    [flag] holds the small ints PyZero and PyOne, of which there is one object each, so the pointer test on line 32 is a test of the value. *)
From Verif Require Import Base CppModel CppArrayModel.

(** the fields (lines 16-21); [cb_array] is the inner OneDimensionalArray of ints *)
Record cbit := Cbit { cb_array : list Z; cb_tree : list Z; cb_flag : list Z }.

(** PyLong_AsLong on an int argument: beyond the range of long the exception is left pending and the call ends in an error *)
Definition as_long (z : Z) : res Z := if (z <? - 2 ^ 63) || (2 ^ 63 <=? z) then Raise OverflowError else Ret z.
(** PyList_GetItem / PyList_SetItem: an index outside the list gives NULL and IndexError, which nothing checks; the code goes on and touches
    array->_data outside the buffer, or calls PyLong_AsLong(NULL) *)
Definition pl_get (l : list Z) (i : Z) : res Z := if (i <? 0) || (len l <=? i) then undefined else match nth_error l (Z.to_nat i) with Some v => Ret v | None => undefined end.
Definition pl_set (l : list Z) (i v : Z) : res (list Z) := if (i <? 0) || (len l <=? i) then undefined else Ret (upd l (Z.to_nat i) v).

(** the loop [while (index < size + 1) { tree[index] += value; index += index & (-1*index); }] (lines 35-39 and 44-48) *)
Definition cb_add_loop (fuel : nat) (size index value : Z) (tree : list Z) : res (list Z) :=
  while_loop fuel (fun '(index, tree) =>
    if index <? size + 1 then
      curr <- pl_get tree index ;;
      tree <- pl_set tree index (s64 (curr + value)) ;;
      Ret (Next (s64 (index + Z.land index (s64 (-1 * index))), tree))
    else Ret (Break tree)) (index, tree).
(** update (lines 27-52) *)
Definition cb_update_fuel (fuel : nat) (b : cbit) (index0 value0 : Z) : res cbit :=
  index <- as_long index0 ;; value <- as_long value0 ;;
  let size := len (cb_array b) in
  f <- pl_get (cb_flag b) index ;;
  if f =? 0 then
    flag <- pl_set (cb_flag b) index 1 ;;
    tree <- cb_add_loop fuel size (s64 (index + 1)) value (cb_tree b) ;;
    a <- pl_set (cb_array b) index value ;;
    Ret (Cbit a tree flag)
  else
    old <- pl_get (cb_array b) index ;;
    tree <- cb_add_loop fuel size (s64 (index + 1)) (s64 (value - old)) (cb_tree b) ;;
    a <- pl_set (cb_array b) index value ;;
    Ret (Cbit a tree (cb_flag b)).
Definition cb_update (b : cbit) := cb_update_fuel (length (cb_array b) + 2) b.
(** __new__ (lines 54-78), called with type(array[0]) and the array (binary_trees.py 1797-1800), whose elements are ints.
    flag[i] is set to PyZero just before the i-th update; the flags after it are not looked at before. *)
Definition cb_new (array : list Z) : res cbit :=
  match array with
  | [] => Raise IndexError
  | _ => forM (zrange 0 (len array)) (fun i b => v <- pl_get (cb_array b) i ;; cb_update b i v)
           (Cbit array (repeat 0 (length array + 2)) (repeat 0 (length array)))
  end.
(** get_prefix_sum (lines 80-90) *)
Definition cb_prefix (b : cbit) (index0 : Z) : res Z :=
  index <- as_long index0 ;;
  while_loop (Z.to_nat (index + 1) + 1) (fun '(index, sum) =>
    if 0 <? index then v <- pl_get (cb_tree b) index ;; Ret (Next (s64 (index - Z.land index (s64 (-1 * index))), s64 (sum + v)))
    else Ret (Break sum)) (s64 (index + 1), 0).
(** get_sum (lines 92-103) *)
Definition cb_sum (b : cbit) (left0 right0 : Z) : res Z :=
  left_index <- as_long left0 ;; right_index <- as_long right0 ;;
  if 1 <=? left_index then
    x <- cb_prefix b right_index ;; y <- cb_prefix b (left_index - 1) ;; Ret (s64 (x - y))
  else cb_prefix b right_index.
