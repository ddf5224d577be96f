(** Model of the searches, bounds, subsequences, permutations and the matrix product of
    pydatastructs/linear_data_structures/algorithms.py (Python backend). Arrays hold elements of the array's dtype and
    (except in linear_search and is_ordered, where it matters) no None cell: on a None cell the comparisons of the
    other functions raise TypeError. *)
From Verif Require Import Base SortModel.

(** [for i in l: ... return r ...]: [body i] is [Some r] when the loop body returns *)
Fixpoint for_find {B R} (l : list B) (body : B -> res (option R)) : res (option R) :=
  match l with
  | [] => Ret None
  | i :: l' => r <- body i ;; match r with Some x => Ret (Some x) | None => for_find l' body end
  end.

Section Search.
  Context {A : Type} (eqb : A -> A -> bool) (comp : A -> A -> bool).

  (** linear_search (algorithms.py 1587-1591); [array[i] == value], None cells differ from every value *)
  Definition linear_search (array : list (option A)) (value : A) (start end_ : Z) : res (option Z) :=
    for_find (zrange start (end_ + 1)) (fun i =>
      x <- aget array i ;;
      Ret (match x with Some v => if eqb v value then Some i else None | None => None end)).

  (** binary_search (algorithms.py 1658-1669); the middle is [left//2 + right//2 + left % 2 * right % 2], parsed by
      Python as [.. + ((left % 2) * right) % 2] *)
  Definition binary_search (array : list A) (value : A) (start end_ : Z) : res (option Z) :=
    while_loop (S (Z.to_nat (end_ - start + 1))) (fun '(left_, right_) =>
      if left_ <=? right_ then
        let middle := left_ / 2 + right_ / 2 + (left_ mod 2 * right_) mod 2 in
        x <- aget array middle ;;
        if eqb x value then Ret (Break (Some middle))
        else if comp x value then Ret (Next (middle + 1, right_)) else Ret (Next (left_, middle - 1))
      else Ret (Break None)) (start, end_).

  (** jump_search (algorithms.py 1736-1749); int(sqrt(n)) is the exact integer square root here, math domain error for n < 0 *)
  Definition jump_search (array : list A) (value : A) (start end_ : Z) : res (option Z) :=
    if end_ - start + 1 <? 0 then Raise ValueError
    else
      let step := Z.sqrt (end_ - start + 1) in
      r <- while_loop (S (S (Z.to_nat (end_ + 1)))) (fun '(prev, current_position) =>
             x <- aget array (Z.min current_position end_) ;;
             if comp x value then
               let prev := current_position in
               let current_position := current_position + step in
               if end_ <? prev then Ret (Break None) else Ret (Next (prev, current_position))
             else Ret (Break (Some (prev, current_position)))) (start, step) ;;
      match r with
      | None => Ret None
      | Some (prev, current_position) =>
        while_loop (S (Z.to_nat (Z.min current_position end_ - prev + 1))) (fun prev =>
          if prev <=? Z.min current_position end_ then
            x <- aget array prev ;;
            if eqb x value then Ret (Break (Some prev)) else Ret (Next (prev + 1))
          else Ret (Break None)) prev
      end.

  (** upper_bound (algorithms.py 983-997) *)
  Definition upper_bound (array : list A) (value : A) (start end_ : Z) : res Z :=
    x0 <- aget array start ;;
    let index := if comp value x0 then start else end_ in
    while_loop (S (Z.to_nat (end_ - start))) (fun '(start, inclusive_end, index) =>
      if start <=? inclusive_end then
        let mid := (start + inclusive_end) / 2 in
        x <- aget array mid ;;
        if negb (comp value x) then Ret (Next (mid + 1, inclusive_end, index)) else Ret (Next (start, mid - 1, mid))
      else Ret (Break index)) (start, end_ - 1, index).

  (** lower_bound (algorithms.py 1056-1070) *)
  Definition lower_bound (array : list A) (value : A) (start end_ : Z) : res Z :=
    x0 <- aget array start ;;
    let index := if negb (comp x0 value) then start else end_ in
    while_loop (S (Z.to_nat (end_ - start))) (fun '(start, inclusive_end, index) =>
      if start <=? inclusive_end then
        let mid := (start + inclusive_end) / 2 in
        x <- aget array mid ;;
        if comp x value then Ret (Next (mid + 1, inclusive_end, index)) else Ret (Next (start, mid - 1, mid))
      else Ret (Break index)) (start, end_ - 1, index).

  (** is_ordered (algorithms.py 916-925) *)
  Definition is_ordered (array : list (option A)) (lower upper : Z) : res bool :=
    r <- for_find (zrange (lower + 1) (upper + 1)) (fun i =>
           x <- aget array i ;; y <- aget array (i - 1) ;;
           Ret (match x, y with Some u, Some v => if comp u v then Some false else None | _, _ => None end)) ;;
    Ret (match r with Some b => b | None => true end).

  (** longest_common_subsequence (algorithms.py 847-864); check_mat (a dict with keys 0..row) is a list of rows. The
      final conversion to a OneDimensionalArray of the same dtype keeps the elements. *)
  Definition longest_common_subsequence (seq1 seq2 : list A) : res (list A) :=
    let row := len seq1 in
    let col := len seq2 in
    check_mat <- forM (zrange 1 (row + 1)) (fun i check_mat =>
        let check_mat := check_mat ++ [repeat (0, []) (Z.to_nat (col + 1))] in
        forM (zrange 1 (col + 1)) (fun j check_mat =>
          x <- aget seq1 (i - 1) ;; y <- aget seq2 (j - 1) ;;
          up <- lget check_mat (i - 1) ;; cur <- lget check_mat i ;;
          cell <- (if eqb x y then
                     diag <- lget up (j - 1) ;; Ret (fst diag + 1, snd diag ++ [x])
                   else
                     u <- lget up j ;; l <- lget cur (j - 1) ;;
                     Ret (if fst l <? fst u then u else l)) ;;
          cur' <- aset cur j cell ;; aset check_mat i cur') check_mat)
      [repeat (0, []) (Z.to_nat (col + 1))] ;;
    r <- lget check_mat row ;; c <- lget r col ;; Ret (snd c).

  (** _permutation_util (algorithms.py 1143-1167) *)
  Definition permutation_util (perm_comp : A -> A -> bool) (array : list A) (start end_ : Z) : res (bool * list A) :=
    let size := end_ - start + 1 in
    permute <- forM (zrange start (end_ + 1)) (fun i p => x <- aget array i ;; Ret (p ++ [x])) [] ;;
    i <- while_loop (S (Z.to_nat size)) (fun i =>
           if 0 <? i then
             x <- aget permute (i - 1) ;; y <- aget permute i ;;
             if perm_comp x y then Ret (Next (i - 1)) else Ret (Break i)
           else Ret (Break i)) (size - 1) ;;
    permute <- (if 0 <? i then
        ' (left_, right_) <- while_loop (S (Z.to_nat size)) (fun '(left_, right_) =>
            if left_ <=? right_ then
              let mid := left_ + (right_ - left_) / 2 in
              x <- aget permute (i - 1) ;; y <- aget permute mid ;;
              if negb (perm_comp x y) then Ret (Next (mid + 1, right_)) else Ret (Next (left_, mid - 1))
            else Ret (Break (left_, right_))) (i, size - 1) ;;
        swap permute (i - 1) (left_ - 1)
      else Ret permute) ;;
    permute <- while_loop (S (Z.to_nat size)) (fun '(permute, left_, right_) =>
        if left_ <? right_ then
          p' <- swap permute left_ right_ ;; Ret (Next (p', left_ + 1, right_ - 1))
        else Ret (Break permute)) (permute, i, size - 1) ;;
    Ret (0 <? i, permute).
  (** next_permutation, prev_permutation (algorithms.py 1229-1240, 1302-1313) *)
  Definition next_permutation := permutation_util (fun x y => if comp x y then false else true).
  Definition prev_permutation := permutation_util (fun x y => if comp x y then true else false).
End Search.

(** longest_increasing_subsequence (algorithms.py 1114-1141) on ints. [ans] (a DynamicOneDimensionalArray that is only
    appended to, see DodaPacked.packed_append) is a list; reading dp[length] of an empty array raises IndexError. *)
Definition longest_increasing_subsequence (array : list Z) : res (list Z) :=
  let n := len array in
  ' (dp, parent, length_) <- forM (zrange 1 n) (fun i '(dp, parent, length_) =>
      x <- aget array i ;; d0 <- aget dp 0 ;; x0 <- aget array d0 ;;
      if x <=? x0 then dp' <- aset dp 0 i ;; Ret (dp', parent, length_)
      else
        dl <- aget dp length_ ;; xl <- aget array dl ;;
        if xl <? x then
          dp' <- aset dp (length_ + 1) i ;; dq <- aget dp' length_ ;; parent' <- aset parent i dq ;;
          Ret (dp', parent', length_ + 1)
        else
          curr_array <- forM (zrange 0 length_) (fun k c => d <- aget dp k ;; v <- aget array d ;; Ret (c ++ [v])) [] ;;
          ceil <- lower_bound Z.ltb curr_array x 0 (len curr_array) ;;
          dp' <- aset dp ceil i ;; dq <- aget dp' (ceil - 1) ;; parent' <- aset parent i dq ;;
          Ret (dp', parent', length_))
    (repeat 0 (Z.to_nat n), repeat (-1) (Z.to_nat n), 0) ;;
  last_index <- aget dp length_ ;;
  ans <- while_loop (S (length array)) (fun '(ans, last_index) =>
      if negb (last_index =? -1) then
        x <- aget array last_index ;; p <- aget parent last_index ;; Ret (Next (ans ++ [x], p))
      else Ret (Break ans)) ([], last_index) ;;
  let n := len ans in
  forM (zrange 0 n) (fun i oda => x <- aget ans i ;; aset oda (n - 1 - i) x) (repeat 0 (Z.to_nat n)).

(** matrix_multiply_parallel (algorithms.py 426-430, 476-493) on Python lists of lists of ints; the jobs run one after
    another ([submit(..).result()]), for any number of threads. [None] is a cell of C never written. *)
Definition matrix_multiply_helper (m1 m2 : list (list Z)) (row col : Z) : res Z :=
  forM (zrange 0 (len m1)) (fun i s =>
    r1 <- lget m1 row ;; x <- lget r1 i ;; r2 <- lget m2 i ;; y <- lget r2 col ;; Ret (s + x * y)) 0.
Definition matrix_multiply_parallel (matrix_1 matrix_2 : list (list Z)) (num_threads : Z) : res (list (list (option Z))) :=
  let row_matrix_1 := len matrix_1 in
  r1 <- lget matrix_1 0 ;;
  let col_matrix_1 := len r1 in
  let row_matrix_2 := len matrix_2 in
  r2 <- lget matrix_2 0 ;;
  let col_matrix_2 := len r2 in
  if negb (col_matrix_1 =? row_matrix_2) then Raise ValueError
  else
    forM (zrange 0 row_matrix_1) (fun i C =>
      forM (zrange 0 col_matrix_2) (fun j C =>
        v <- matrix_multiply_helper matrix_1 matrix_2 i j ;;
        r <- lget C i ;; r' <- aset r j (Some v) ;; aset C i r') C)
      (repeat (repeat None (Z.to_nat col_matrix_1)) (Z.to_nat row_matrix_2)).
