(** Model of heapsort, intro_sort, counting_sort, radix_sort and bucket_sort
    (pydatastructs/linear_data_structures/algorithms.py, Python backend). Conventions as in SortModel.v. *)
From Verif Require Import Base SortModel HeapModel.

Section HeapIntro.
  (** these two functions accept no comparator; [comp] is Python's [<=] on the elements *)
  Context {A : Type} (comp : A -> A -> bool).
  Notation arr := (list (option A)).

  (** heapsort (algorithms.py 326-340) *)
  Definition heapsort (array : arr) (start end_ : Z) : res arr :=
    ' (array, h) <- forM (zrange start (end_ + 1)) (fun i '(array, h) =>
        x <- aget array i ;;
        h' <- match x with Some v => heap_insert comp 2 h v tt | None => Ret h end ;;
        array' <- aset array i None ;; Ret (array', h')) (array, []) ;;
    while_loop (S (length h)) (fun '(array, h, i) =>
      if heap_is_empty h then Ret (Break array)
      else ' (x, h') <- heap_extract comp 2 h ;;
           array' <- aset array i (Some (fst x)) ;;
           Ret (Next (array', h', i + 1))) (array, h, start).

  (** intro_sort (algorithms.py 1817-1858); [maxdepth] and [ins_threshold] are arbitrary (the defaults are particular
      values); Python's recursion is on [fuel] *)
  Fixpoint intro_rec (fuel : nat) (array : arr) (lower upper maxdepth ins_threshold : Z) : res arr :=
    match fuel with
    | O => OutOfFuel
    | S fuel =>
      let n := upper - lower + 1 in
      let maxdepth := if n <=? 0 then 0 else maxdepth in
      if n <? ins_threshold then insertion_sort comp array lower upper
      else if maxdepth =? 0 then heapsort array lower upper
      else
        ' (array, p) <- is_partition comp array lower upper ;;
        array <- intro_rec fuel array lower (p - 1) (maxdepth - 1) ins_threshold ;;
        intro_rec fuel array (p + 1) upper (maxdepth - 1) ins_threshold
    end.
  Definition intro_sort (array : arr) (lower upper maxdepth ins_threshold : Z) : res arr :=
    intro_rec (S (S (Z.to_nat (upper - lower + 1)))) array lower upper maxdepth ins_threshold.
End HeapIntro.

(** counting_sort (algorithms.py 389-424) on an int array; the result is the new array [output], except that an all-None
    array is returned itself *)
Definition counting_sort (array : list (option Z)) : res (list (option Z)) :=
  a0 <- aget array 0 ;;
  ' (max_val, min_val) <- forM (zrange 0 (len array)) (fun i '(max_val, min_val) =>
      x <- aget array i ;;
      match x with
      | None => Ret (max_val, min_val)
      | Some v =>
        Ret (match max_val with None => Some v | Some m => if m <? v then Some v else Some m end,
             match min_val with None => Some v | Some m => if v <? m then Some v else Some m end)
      end) (a0, a0) ;;
  match min_val, max_val with
  | Some min_val, Some max_val =>
    let count := repeat 0 (Z.to_nat (max_val - min_val + 1)) in
    count <- forM (zrange 0 (len array)) (fun i count =>
        x <- aget array i ;;
        match x with
        | None => Ret count
        | Some v => c <- lget count (v - min_val) ;; aset count (v - min_val) (c + 1)
        end) count ;;
    ' (count, total) <- forM (zrange 0 (max_val - min_val + 1)) (fun i '(count, total) =>
        c <- lget count i ;; count' <- aset count i total ;; Ret (count', c + total)) (count, 0) ;;
    let output := filter (fun x => match x with Some _ => true | None => false end) array in
    ' (output, count) <- forM (zrange 0 (len array)) (fun i '(output, count) =>
        x <- aget array i ;;
        match x with
        | None => Ret (output, count)
        | Some v =>
          c <- lget count (v - min_val) ;;
          output' <- aset output c (Some v) ;;
          count' <- aset count (v - min_val) (c + 1) ;;
          Ret (output', count')
        end) (output, count) ;;
    Ret output
  | _, _ => Ret array
  end.

(** one pass of radix_sort's while loop (algorithms.py 1987-2005) *)
Definition radix_pass (array : list (option Z)) (start end_ exp : Z) : res (list (option Z)) :=
  let n := end_ - start + 1 in
  count <- forM (zrange start (end_ + 1)) (fun i count =>
      x <- aget array i ;;
      match x with
      | None => Ret count
      | Some v => let digit := (v / exp) mod 10 in c <- lget count digit ;; aset count digit (c + 1)
      end) (repeat 0 10) ;;
  count <- forM (zrange 1 10) (fun i count =>
      c <- lget count i ;; p <- lget count (i - 1) ;; aset count i (c + p)) count ;;
  ' (output, count) <- forM (zrange_down end_ (start - 1)) (fun i '(output, count) =>
      x <- aget array i ;;
      match x with
      | None => Ret (output, count)
      | Some v =>
        let digit := (v / exp) mod 10 in
        c <- lget count digit ;; count' <- aset count digit (c - 1) ;;
        c' <- lget count' digit ;; output' <- aset output c' (Some v) ;;
        Ret (output', count')
      end) (repeat None (Z.to_nat n), count) ;;
  forM (zrange 0 n) (fun i array => x <- lget output i ;; aset array (start + i) x) array.

(** radix_sort (algorithms.py 1977-2007); [array[i] > max_val] with max_val = None is a TypeError *)
Definition radix_sort (array : list (option Z)) (start end_ : Z) : res (list (option Z)) :=
  a0 <- aget array start ;;
  max_val <- forM (zrange (start + 1) (end_ + 1)) (fun i max_val =>
      x <- aget array i ;;
      match x, max_val with
      | None, _ => Ret max_val
      | Some v, Some m => Ret (if m <? v then Some v else Some m)
      | Some _, None => Raise TypeError
      end) a0 ;;
  match max_val with
  | None => Raise TypeError
  | Some max_val =>
    while_loop (S (S (Z.to_nat (Z.log2 max_val)))) (fun '(array, exp) =>
      if 0 <? max_val / exp then
        array' <- radix_pass array start end_ exp ;; Ret (Next (array', exp * 10))
      else Ret (Break array)) (array, 1)
  end.

(** _bucket_sort_helper (algorithms.py 490-498) *)
Definition bucket_sort_helper (bucket : list Z) : res (list Z) :=
  forM (zrange 1 (len bucket)) (fun i bucket =>
    key <- lget bucket i ;;
    ' (bucket, j) <- while_loop (S (Z.to_nat i)) (fun '(bucket, j) =>
        if 0 <=? j then
          x <- lget bucket j ;;
          if key <? x then bucket' <- aset bucket (j + 1) x ;; Ret (Next (bucket', j - 1))
          else Ret (Break (bucket, j))
        else Ret (Break (bucket, j))) (bucket, i - 1) ;;
    aset bucket (j + 1) key) bucket.

(** [j is not count] on ints: CPython shares the objects of -5..256 only, so above 256 two equal ints are distinct objects *)
Definition py_is_not (j count : Z) : bool := negb (j =? count) || (256 <? j) || (j <? -5).

(** [x // y] *)
Definition py_floordiv (x y : Z) : res Z := if y =? 0 then Raise ZeroDivisionError else Ret (x / y).

(** bucket_sort (algorithms.py 556-604); max_value stays None, hence a TypeError, if there is no number *)
Definition bucket_sort (array : list (option Z)) (start end_ : Z) : res (list (option Z)) :=
  max_value <- forM (zrange start (end_ + 1)) (fun i max_value =>
      x <- aget array i ;; Ret (match x with Some v => Some v | None => max_value end)) None ;;
  ' (count, max_value) <- forM (zrange start (end_ + 1)) (fun i '(count, max_value) =>
      x <- aget array i ;;
      match x, max_value with
      | None, _ => Ret (count, max_value)
      | Some v, Some m => Ret (count + 1, if m <? v then Some v else Some m)
      | Some _, None => Raise TypeError
      end) (0, max_value) ;;
  match max_value with
  | None => Raise TypeError
  | Some max_value =>
    let number_of_null_values := end_ - start + 1 - count in
    size <- py_floordiv max_value count ;;
    buckets_list <- forM (zrange start (end_ + 1)) (fun i buckets_list =>
        x <- aget array i ;;
        match x with
        | None => Ret buckets_list
        | Some v =>
          j <- py_floordiv v size ;;
          let k := if py_is_not j count then j else count - 1 in
          b <- lget buckets_list k ;; aset buckets_list k (b ++ [v])
        end) (repeat [] (Z.to_nat count)) ;;
    buckets_list <- forM (zrange 0 count) (fun z buckets_list =>
        b <- lget buckets_list z ;; b' <- bucket_sort_helper b ;; aset buckets_list z b') buckets_list ;;
    sorted_list <- forM (zrange 0 count) (fun x sorted_list => b <- lget buckets_list x ;; Ret (sorted_list ++ b)) [] ;;
    array <- forM (zrange_down end_ (end_ - number_of_null_values)) (fun i array => aset array i None) array ;;
    forM (zrange start (end_ - number_of_null_values + 1)) (fun i array => x <- lget sorted_list (i - start) ;; aset array i (Some x)) array
  end.
