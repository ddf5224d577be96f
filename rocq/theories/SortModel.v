(** Model of the comparison sorts of pydatastructs/linear_data_structures/algorithms.py (Python backend) on a
    OneDimensionalArray: the array is a list of [option A] ([None] cells allowed), elements already have the array's
    dtype, so [array[i] = x] is [aset]. [comp] is the user's comparator, pure and total on elements. The final
    [array._modify(True)] is only executed for dynamic arrays and is not part of these functions. *)
From Verif Require Import Base.

(** utils/misc_util.py 584-597: [_comp] *)
Definition pcomp {A} (comp : A -> A -> bool) (u v : option A) : bool :=
  match u, v with
  | None, _ => false
  | Some _, None => true
  | Some x, Some y => comp x y
  end.

(** [array[i], array[j] = array[j], array[i]]: right-hand sides first, then the two stores *)
Definition swap {V} (a : list V) (i j : Z) : res (list V) :=
  x <- aget a j ;; y <- aget a i ;; a1 <- aset a i x ;; aset a1 j y.

Section Sorts.
  Context {A : Type} (comp : A -> A -> bool).
  Notation cmp := (pcomp comp).
  Notation arr := (list (option A)).

  (** bubble_sort (algorithms.py 1373-1380) *)
  Definition bubble_sort (array : arr) (start end_ : Z) : res arr :=
    forM (zrange 0 (len array - 1)) (fun _ array =>
      forM (zrange start end_) (fun j array =>
        x <- aget array j ;; y <- aget array (j + 1) ;;
        if negb (cmp x y) then swap array j (j + 1) else Ret array) array) array.

  (** selection_sort (algorithms.py 1445-1455) *)
  Definition selection_sort (array : arr) (start end_ : Z) : res arr :=
    forM (zrange start (end_ + 1)) (fun i array =>
      jMin <- forM (zrange (i + 1) (end_ + 1)) (fun j jMin =>
                x <- aget array jMin ;; y <- aget array j ;;
                Ret (if negb (cmp x y) then j else jMin)) i ;;
      if negb (jMin =? i) then swap array i jMin else Ret array) array.

  (** the inner loop of insertion_sort (algorithms.py 1523-1528) and shell_sort (1921-1926), where it runs with
      [gap]; for insertion_sort gap = 1 and [j > start] is [j >= start + 1] *)
  Definition gap_insert (array : arr) (start gap i : Z) : res arr :=
    temp <- aget array i ;;
    ' (array, j) <- while_loop (S (Z.to_nat (i - start))) (fun '(array, j) =>
        if start + gap <=? j then
          x <- aget array (j - gap) ;;
          if negb (cmp x temp) then
            array' <- aset array j x ;; Ret (Next (array', j - gap))
          else Ret (Break (array, j))
        else Ret (Break (array, j))) (array, i) ;;
    aset array j temp.

  (** insertion_sort (algorithms.py 1518-1528) *)
  Definition insertion_sort (array : arr) (start end_ : Z) : res arr :=
    forM (zrange (start + 1) (end_ + 1)) (fun i array => gap_insert array start 1 i) array.

  (** shell_sort (algorithms.py 1913-1927) *)
  Definition shell_sort (array : arr) (start end_ : Z) : res arr :=
    let n := end_ - start + 1 in
    while_loop (S (Z.to_nat n)) (fun '(array, gap) =>
      if 0 <? gap then
        array' <- forM (zrange (start + gap) (end_ + 1)) (fun i array => gap_insert array start gap i) array ;;
        Ret (Next (array', gap / 2))
      else Ret (Break array)) (array, n / 2).

  (** cocktail_shaker_sort (algorithms.py 663-684); state: array, lower, upper, swapping *)
  Definition cocktail_sort (array : arr) (start end_ : Z) : res arr :=
    while_loop (S (Z.to_nat (end_ - start))) (fun '(array, lower, upper, swapping) =>
      if negb swapping && (1 <=? upper - lower) then
        ' (array, swapping) <- forM (zrange lower upper) (fun j '(array, swapping) =>
            x <- aget array j ;; y <- aget array (j + 1) ;;
            if Bool.eqb (cmp x y) false then array' <- swap array (j + 1) j ;; Ret (array', false)
            else Ret (array, swapping)) (array, true) ;;
        let upper := upper - 1 in
        ' (array, swapping) <- forM (zrange_down upper lower) (fun j '(array, swapping) =>
            x <- aget array (j - 1) ;; y <- aget array j ;;
            if Bool.eqb (cmp x y) false then array' <- swap array j (j - 1) ;; Ret (array', false)
            else Ret (array, swapping)) (array, swapping) ;;
        Ret (Next (array, lower + 1, upper, swapping))
      else Ret (Break array)) (array, start, end_, false).

  (** quick_sort's partition (algorithms.py 762-770); [pick] is pick_pivot_element *)
  Definition qs_partition (pick : Z -> Z -> arr -> res (option A)) (array : arr) (low high : Z) : res (arr * Z) :=
    x <- pick low high array ;;
    ' (array, i) <- forM (zrange low high) (fun j '(array, i) =>
        y <- aget array j ;;
        if cmp y x then array' <- swap array (i + 1) j ;; Ret (array', i + 1) else Ret (array, i)) (array, low - 1) ;;
    array' <- swap array (i + 1) high ;;
    Ret (array', i + 1).

  (** quick_sort (algorithms.py 772-788); the Stack (C06) is a list of ints, top first *)
  Definition quick_sort (pick : Z -> Z -> arr -> res (option A)) (array : arr) (start end_ : Z) : res arr :=
    while_loop (S (Z.to_nat (2 * (end_ - start + 1)))) (fun '(array, stack) =>
      match stack with
      | [] => Ret (Break array)
      | high :: low :: stack =>
        ' (array, p) <- qs_partition pick array low high ;;
        let stack := if low <? p - 1 then p - 1 :: low :: stack else stack in
        let stack := if p + 1 <? high then high :: p + 1 :: stack else stack in
        Ret (Next (array, stack))
      | _ :: [] => Raise IndexError
      end) (array, [end_; start]).

  (** the default pick_pivot_element (algorithms.py 759-760) *)
  Definition default_pivot (low high : Z) (array : arr) : res (option A) := aget array high.

  (** _merge (algorithms.py 38-66) *)
  Definition take_range (array : arr) (lo hi end_ : Z) : res (arr * list (option A)) :=
    forM (zrange lo (hi + 1)) (fun i '(array, l) =>
      if i <=? end_ then x <- aget array i ;; array' <- aset array i None ;; Ret (array', l ++ [x])
      else Ret (array, l)) (array, []).
  Definition ms_merge (array : arr) (sl el sr er end_ : Z) : res arr :=
    ' (array, l) <- take_range array sl el end_ ;;
    ' (array, r) <- take_range array sr er end_ ;;
    ' (array, i, j, k) <- while_loop (S (length l + length r)) (fun '(array, i, j, k) =>
        if (i <? len l) && (j <? len r) then
          x <- lget l i ;; y <- lget r j ;;
          if cmp x y then array' <- aset array k x ;; Ret (Next (array', i + 1, j, k + 1))
          else array' <- aset array k y ;; Ret (Next (array', i, j + 1, k + 1))
        else Ret (Break (array, i, j, k))) (array, 0, 0, sl) ;;
    ' (array, k) <- while_loop (S (length l)) (fun '(array, i, k) =>
        if i <? len l then x <- lget l i ;; array' <- aset array k x ;; Ret (Next (array', i + 1, k + 1))
        else Ret (Break (array, k))) (array, i, k) ;;
    ' (array, k) <- while_loop (S (length r)) (fun '(array, j, k) =>
        if j <? len r then x <- lget r j ;; array' <- aset array k x ;; Ret (Next (array', j + 1, k + 1))
        else Ret (Break (array, k))) (array, j, k) ;;
    Ret array.

  (** one round of merge_sort_parallel (algorithms.py 124-134). [Executor.submit(..).result()] waits for each job, so the
      jobs run one after another whatever [num_threads] is. *)
  Definition ms_round (array : arr) (start end_ pow_2 : Z) : res arr :=
    while_loop (S (Z.to_nat (end_ - start + 1))) (fun '(array, i) =>
      if i <=? end_ then
        array' <- ms_merge array i (i + pow_2 - 1) (i + pow_2) (i + 2 * pow_2 - 1) end_ ;;
        Ret (Next (array', i + 2 * pow_2))
      else Ret (Break array)) (array, start).
  Definition ms_rounds (rounds : Z) (array : arr) (start end_ : Z) : res arr :=
    forM (zrange 0 rounds) (fun size array => ms_round array start end_ (2 ^ size)) array.
  (** merge_sort_parallel (algorithms.py 120-134): floor(log(n, 2)) is the exact integer logarithm here; log(0) raises ValueError, and
      so does ThreadPoolExecutor(max_workers=num_threads) unless num_threads is positive *)
  Definition merge_sort_parallel (num_threads : Z) (array : arr) (start end_ : Z) : res arr :=
    if end_ - start + 1 <=? 0 then Raise ValueError
    else if num_threads <=? 0 then Raise ValueError
    else ms_rounds (Z.log2 (end_ - start + 1) + 1) array start end_.

  (** brick_sort (algorithms.py 186-200); brick_sort_parallel (205-208, 262-274) runs the same steps, one job at a time *)
  Definition brick_pass (l : list Z) (s : arr * bool) : res (arr * bool) :=
    forM l (fun i '(array, is_sorted) =>
      x <- aget array (i + 1) ;; y <- aget array i ;;
      if cmp x y then array' <- swap array i (i + 1) ;; Ret (array', false) else Ret (array, is_sorted)) s.
  Definition brick_sort (fuel : nat) (array : arr) (start end_ : Z) : res arr :=
    while_loop fuel (fun '(array, is_sorted) =>
      if is_sorted : bool then Ret (Break array)
      else s <- brick_pass (zrange_step (start + 1) end_ 2) (array, true) ;;
           s' <- brick_pass (zrange_step start end_ 2) s ;;
           Ret (Next s')) (array, false).

  (** intro_sort's partition (algorithms.py 1827-1845) *)
  Definition is_partition (array : arr) (lower upper : Z) : res (arr * Z) :=
    pivot <- aget array lower ;;
    ' (array, rgt) <- while_loop (S (Z.to_nat (upper - lower + 1))) (fun '(array, lft, rgt) =>
        lft <- while_loop (S (Z.to_nat (rgt - lft + 1))) (fun lft =>
                  if lft <=? rgt then
                    x <- aget array lft ;; Ret (if cmp x pivot then Next (lft + 1) else Break lft)
                  else Ret (Break lft)) lft ;;
        rgt <- while_loop (S (Z.to_nat (rgt - lft + 1))) (fun rgt =>
                  x <- aget array rgt ;;
                  Ret (if cmp pivot x && (lft <=? rgt) then Next (rgt - 1) else Break rgt)) rgt ;;
        if rgt <? lft then Ret (Break (array, rgt))
        else array' <- swap array lft rgt ;; Ret (Next (array', lft + 1, rgt - 1)))
      (array, lower + 1, upper) ;;
    array' <- swap array lower rgt ;;
    Ret (array', rgt).
End Sorts.
