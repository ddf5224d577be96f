(** Specifications for the exact answers of ExactProps2.v: no reference to the model. *)
From Verif Require Import Base RangeSpec.
(** the sum of the first [k] values *)
Definition first_sum (a : list Z) (k : Z) : Z := zsum (firstn (Z.to_nat k) a).
(** the greatest power of two dividing [k > 0], as the code computes it *)
Definition low_bit (k : Z) : Z := Z.land k (- k).
(** get_prefix_sum(r): nothing for a negative r, the sum of 0..r inside the array, at r = len(a) the sum of the first
    n+1 - low_bit(n+1) values only, IndexError beyond *)
Definition prefix_answer (a : list Z) (r : Z) : res Z :=
  if r <? len a then Ret (first_sum a (r + 1))
  else if r =? len a then Ret (first_sum a (r + 1 - low_bit (r + 1)))
  else Raise IndexError.
