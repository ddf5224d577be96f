(** Model of the floating-point operations the code uses. Python floats are IEEE 754 binary64; their operations are those of the standard library's
    Coq.Floats.SpecFloat with precision 53 and largest exponent 1024. *)
From Coq Require Import Floats.SpecFloat.
From Verif Require Import Base ArraysModel SortModel RangeModel.

(** the float of an int (exact below 2^53) *)
Definition py_float (n : Z) : spec_float := binary_normalize 53 1024 n 0 false.
(** int / int: for ints below 2^53 CPython divides the two floats; also the float written as the decimal fraction a/b, e.g. 0.1 for 1/10 *)
Definition py_div (a b : Z) : spec_float := SFdiv 53 1024 (py_float a) (py_float b).
(** int(x) of a float: cut off towards zero *)
Definition py_trunc (x : spec_float) : Z :=
  match x with S754_finite s m e => let v := Z.shiftl (Zpos m) e in if s then - v else v | _ => 0 end.
(** int(sqrt(n)) (linear_data_structures/algorithms.py 1736) *)
Definition py_isqrt (n : Z) : Z := py_trunc (SFsqrt 53 1024 (py_float n)).
(** self._num/self._size < self._load_factor (arrays.py 387 and 453) *)
Definition load_test (num size : Z) (load_factor : spec_float) : bool := SFltb (py_div num size) load_factor.

(** DynamicOneDimensionalArray with that test instead of exact fractions; otherwise as doda_modify, doda_append and doda_delete of ArraysModel.v. The load factor
    is the float nearest to d_ln / d_ld. *)
Section DodaFloat.
  Context {A : Type}.
  (** _modify(force=False) (arrays.py 387-396) *)
  Definition dodaf_modify (d : doda A) : res (doda A) :=
    if d_size d =? 0 then Raise ZeroDivisionError
    else if load_test (d_num d) (d_size d) (py_div (d_ln d) (d_ld d)) then
      ' (arr, j) <- doda_compact d ;;
      Ret (Doda arr (2 * d_num d + 1) (d_num d) (j - 1) (d_ln d) (d_ld d))
    else Ret d.
  (** append (arrays.py 398-410) *)
  Definition dodaf_append (d : doda A) (el : A) : res (doda A) :=
    d1 <- (if d_last d + 1 =? d_size d then
             arr <- forM (zrange 0 (d_last d + 1))
                      (fun i arr => x <- aget (d_data d) i ;; aset arr i x)
                      (repeat None (Z.to_nat (2 * d_size d + 1))) ;;
             arr' <- aset arr (d_last d + 1) (Some el) ;;
             Ret (Doda arr' (2 * d_size d + 1) (d_num d) (d_last d) (d_ln d) (d_ld d))
           else
             arr' <- aset (d_data d) (d_last d + 1) (Some el) ;;
             Ret (Doda arr' (d_size d) (d_num d) (d_last d) (d_ln d) (d_ld d))) ;;
    dodaf_modify (Doda (d_data d1) (d_size d1) (d_num d1 + 1) (d_last d1 + 1) (d_ln d1) (d_ld d1)).
  (** delete (arrays.py 412-419) *)
  Definition dodaf_delete (d : doda A) (idx : Z) : res (doda A) :=
    if (idx <=? d_last d) && (0 <=? idx) then
      x <- aget (d_data d) idx ;;
      match x with
      | None => Ret d
      | Some _ =>
        data <- aset (d_data d) idx None ;;
        dodaf_modify (Doda data (d_size d) (d_num d - 1)
                          (if d_last d =? idx then d_last d - 1 else d_last d) (d_ln d) (d_ld d))
      end
    else Ret d.
  (** a sequence of calls *)
  Definition dodaf_run (ops : list (doda_op A)) (d : doda A) : res (doda A) :=
    forM ops (fun o d => match o with DAppend x => dodaf_append d x | DDelete i => dodaf_delete d i end) d.
End DodaFloat.

(** jump_search (linear_data_structures/algorithms.py 1736-1749), with the step computed in floating point; otherwise as jump_search of SearchModel.v *)
Definition jump_search_f {A} (eqb comp : A -> A -> bool) (array : list A) (value : A) (start end_ : Z) : res (option Z) :=
  if end_ - start + 1 <? 0 then Raise ValueError
  else
    let step := py_isqrt (end_ - start + 1) in
    r <- while_loop (S (S (Z.to_nat (end_ + 1)))) (fun '(prev, current_position) =>
           x <- aget array (Z.min current_position end_) ;;
           if comp x value then
             let prev := current_position in
             let current_position := current_position + step in
             if end_ <? prev then Ret (Break None) else Ret (Next (prev, current_position))
           else Ret (Break (Some (prev, current_position)))) (start, step) ;;
    match r with
    | None => Ret None
    | Some (prev, current_position) =>
      while_loop (S (Z.to_nat (Z.min current_position end_ - prev + 1))) (fun prev =>
        if prev <=? Z.min current_position end_ then
          x <- aget array prev ;;
          if eqb x value then Ret (Break (Some prev)) else Ret (Next (prev + 1))
        else Ret (Break None)) prev
    end.
(** merge_sort_parallel (linear_data_structures/algorithms.py 120-134), where [lg n] is what floor(log(n, 2)) comes out as *)
Definition merge_sort_lg {A} (comp : A -> A -> bool) (lg : Z -> Z) (num_threads : Z) (array : list (option A)) (start end_ : Z) : res (list (option A)) :=
  if end_ - start + 1 <=? 0 then Raise ValueError
  else if num_threads <=? 0 then Raise ValueError
  else ms_rounds comp (lg (end_ - start + 1) + 1) array start end_.
(** SparseTable(array, func) (sparse_table.py 57-79), where [lg n] is what int(math.log2(n)) comes out as *)
Definition sparse_new_lg {V} (func : combiner V) (coe : V -> V) (lg : Z -> Z) (array : list V) : res (list (list (option V))) :=
  if len array =? 0 then Raise ValueError
  else
    let size := len array in
    let log_size := lg size + 1 in
    t <- forM (zrange 0 size) (fun i t => x <- lget array i ;; tab_set coe t i 0 (c1 func (Some x)))
           (repeat (repeat None (Z.to_nat log_size)) (length array)) ;;
    forM (zrange 1 (log_size + 1)) (fun j t =>
      forM (zrange 0 (size - Z.shiftl 1 j + 1)) (fun i t =>
        x <- tab_get t i (j - 1) ;;
        y <- tab_get t (i + Z.shiftl 1 (j - 1)) (j - 1) ;;
        tab_set coe t i j (c2 func x y)) t) t.
(** query (sparse_table.py 85-105) *)
Definition sparse_query_lg {V} (func : combiner V) (lg : Z -> Z) (t : list (list (option V))) (start stop : Z) : res (option V) :=
  if stop - start + 1 <=? 0 then Raise ValueError
  else
    ' (_, answer) <- forM (zrange_down (lg (stop - start + 1) + 1) (-1)) (fun j '(start, answer) =>
       if start + Z.shiftl 1 j - 1 <=? stop then
         x <- tab_get t start j ;; Ret (start + Z.shiftl 1 j, c2 func answer x)
       else Ret (start, answer)) (start, None) ;;
    Ret answer.
