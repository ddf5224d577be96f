(** Model of the C++ backend of the linear algorithms, as reached through [backend=Backend.CPP]
    (pydatastructs/linear_data_structures/_backend/cpp/algorithms/*.hpp) on a C++ OneDimensionalArray.

    - [size_t] is the integers modulo 2^64 ([u64]); [int] is a 32-bit signed integer ([s32]).
    - The array is the list of its cells; [None] is an empty cell.
      __getitem__/__setitem__ (arrays/OneDimensionalArray.hpp 243-302) raise IndexError on every index outside [0, size),
      negative ones included ([cget], [cset]).
    - PyObject_GetItem/SetItem failures are not checked by the algorithms: they go on with a NULL pointer and a pending
      exception. The model stops there with the exception: after it, no call returns normally (CPython turns a result
      with a pending exception into SystemError; the loops that reach it run up to 2^64 rounds).
    - The user's comparator is pure and total on elements; it may return any Python object ([pyobj]). *)
From Verif Require Import Base SortModel SearchModel.

Definition word : Z := 2 ^ 64.
(** size_t arithmetic *)
Definition u64 (z : Z) : Z := z mod word.
(** conversion to int (misc_algorithms.hpp 151, 217-219): two's complement *)
Definition s32 (z : Z) : Z := (z + 2 ^ 31) mod 2 ^ 32 - 2 ^ 31.
(** conversion to int64_t (quick_sort.hpp 26) *)
Definition s64 (z : Z) : Z := (z + 2 ^ 63) mod word - 2 ^ 63.

(** what a comparator may return: the singletons True and False, or some other object with its truth value *)
Inductive pyobj := PyTrue | PyFalse | PyOther (truth : bool).
(** the truth value, which is what [if comp(u, v)] uses in the Python backend *)
Definition truthy (o : pyobj) : bool := match o with PyTrue => true | PyFalse => false | PyOther b => b end.
(** utils/_backend/cpp/utils.hpp 127: [result_PyObject == Py_True] *)
Definition is_true (o : pyobj) : bool := match o with PyTrue => true | _ => false end.

(** arrays/OneDimensionalArray.hpp 243-265 *)
Definition cget {V} (a : list V) (i : Z) : res V := aget a i.
(** arrays/OneDimensionalArray.hpp 267-302, the value being of the array's dtype or None *)
Definition cset {V} (a : list V) (i : Z) (v : V) : res (list V) :=
  if (i <? 0) || (len a <=? i) then Raise IndexError else aset a i v.

(** [lower = PyLong_AsSize_t(start)] (e.g. quadratic_time_sort.hpp 46-59); OverflowError is left pending *)
Definition as_size_t (z : Z) : res Z := if (z <? 0) || (word <=? z) then Raise OverflowError else Ret z.
Definition opt_lower (start : option Z) : res Z := match start with None => Ret 0 | Some z => as_size_t z end.
Definition opt_upper (size : Z) (end_ : option Z) : res Z :=
  match end_ with None => Ret (u64 (size - 1)) | Some z => as_size_t z end.

Section Cpp.
  Context {A : Type} (eqb : A -> A -> bool) (le : A -> A -> bool).
  Notation arr := (list (option A)).

  (** utils/_backend/cpp/utils.hpp 106-139: [_comp(u, v, tcomp) == 1]; without [comp], [u <= v] *)
  Definition ccomp (tcomp : option (A -> A -> pyobj)) (u v : option A) : bool :=
    match u, v with
    | None, Some _ => false
    | Some _, None => true
    | None, None => false
    | Some x, Some y => match tcomp with Some f => is_true (f x y) | None => le x y end
    end.

  (** [tmp = array[i]; array[i] = array[j]; array[j] = tmp] *)
  Definition cswap (array : arr) (i j : Z) : res arr :=
    tmp <- cget array i ;; y <- cget array j ;; a1 <- cset array i y ;; cset a1 j tmp.

  (** quadratic_time_sort.hpp 12-28 *)
  Definition cpp_bubble_impl (array : arr) (lower upper : Z) (comp : option (A -> A -> pyobj)) (arr_length : Z) : res arr :=
    forM (zrange 0 (u64 (arr_length - 1))) (fun _ array =>
      forM (zrange lower upper) (fun j array =>
        x <- cget array j ;; y <- cget array (u64 (j + 1)) ;;
        if negb (ccomp comp x y) then cswap array (u64 (j + 1)) j else Ret array) array) array.
  (** quadratic_time_sort.hpp 31-68 *)
  Definition cpp_bubble_sort (array : arr) (start end_ : option Z) (comp : option (A -> A -> pyobj)) : res arr :=
    lower <- opt_lower start ;; upper <- opt_upper (len array) end_ ;;
    cpp_bubble_impl array lower upper comp (len array).

  (** quadratic_time_sort.hpp 616-634 *)
  Definition cpp_selection_impl (array : arr) (lower upper : Z) (comp : option (A -> A -> pyobj)) : res arr :=
    forM (zrange lower (u64 (upper + 1))) (fun i array =>
      j_min <- forM (zrange (u64 (i + 1)) (u64 (upper + 1))) (fun j j_min =>
                 x <- cget array j_min ;; y <- cget array j ;;
                 Ret (if negb (ccomp comp x y) then j else j_min)) i ;;
      cswap array j_min i) array.
  (** quadratic_time_sort.hpp 637-673 *)
  Definition cpp_selection_sort (array : arr) (start end_ : option Z) (comp : option (A -> A -> pyobj)) : res arr :=
    lower <- opt_lower start ;; upper <- opt_upper (len array) end_ ;; cpp_selection_impl array lower upper comp.

  (** quadratic_time_sort.hpp 1222-1237 *)
  Definition cpp_insertion_impl (array : arr) (lower upper : Z) (comp : option (A -> A -> pyobj)) : res arr :=
    forM (zrange (u64 (lower + 1)) (u64 (upper + 1))) (fun i array =>
      temp <- cget array i ;;
      ' (array, j) <- while_loop (S (Z.to_nat (i - lower))) (fun '(array, j) =>
          if lower <? j then
            x <- cget array (u64 (j - 1)) ;;
            if negb (ccomp comp x temp) then array' <- cset array j x ;; Ret (Next (array', u64 (j - 1)))
            else Ret (Break (array, j))
          else Ret (Break (array, j))) (array, i) ;;
      cset array j temp) array.
  (** quadratic_time_sort.hpp 1239-1275 *)
  Definition cpp_insertion_sort (array : arr) (start end_ : option Z) (comp : option (A -> A -> pyobj)) : res arr :=
    lower <- opt_lower start ;; upper <- opt_upper (len array) end_ ;; cpp_insertion_impl array lower upper comp.

  (** quick_sort.hpp 11-46 without [pick_pivot_element] (with one, line 15 calls it without the closing NULL argument,
      which is undefined behaviour) *)
  Definition cpp_partition (array : arr) (low high : Z) (comp : option (A -> A -> pyobj)) : res (arr * Z) :=
    x <- cget array high ;;
    ' (array, i) <- forM (zrange low high) (fun j '(array, i) =>
        y <- cget array j ;;
        if ccomp comp y x then array' <- cswap array (i + 1) j ;; Ret (array', i + 1) else Ret (array, i))
      (array, s64 (low - 1)) ;;
    array' <- cswap array (i + 1) high ;;
    Ret (array', u64 (i + 1)).
  (** quick_sort.hpp 48-75; std::stack is a list of size_t, top first. [fuel] bounds the number of partitions *)
  Definition cpp_quick_impl (fuel : nat) (array : arr) (lower upper : Z) (comp : option (A -> A -> pyobj)) : res arr :=
    while_loop fuel (fun '(array, rstack) =>
      match rstack with
      | [] => Ret (Break array)
      | high :: low :: rstack =>
        ' (array, p) <- cpp_partition array low high comp ;;
        let rstack := if low <? u64 (p - 1) then u64 (p - 1) :: low :: rstack else rstack in
        let rstack := if u64 (p + 1) <? high then high :: u64 (p + 1) :: rstack else rstack in
        Ret (Next (array, rstack))
      | _ :: [] => Raise SystemError
      end) (array, [upper; lower]).
  (** quick_sort.hpp 77-117 *)
  Definition cpp_quick_sort (fuel : nat) (array : arr) (start end_ : option Z) (comp : option (A -> A -> pyobj)) : res arr :=
    lower <- opt_lower start ;; upper <- opt_upper (len array) end_ ;; cpp_quick_impl fuel array lower upper comp.

  (** misc_algorithms.hpp 11-24 *)
  Definition cpp_is_ordered_impl (array : arr) (lower upper : Z) (comp : option (A -> A -> pyobj)) : res bool :=
    r <- for_find (zrange (u64 (lower + 1)) (u64 (upper + 1))) (fun i =>
           x <- cget array i ;; y <- cget array (u64 (i - 1)) ;;
           match x, y with
           | None, _ | _, None => Ret None
           | _, _ => Ret (if ccomp comp x y then Some false else None)
           end) ;;
    Ret (match r with Some b => b | None => true end).
  (** misc_algorithms.hpp 26-60 *)
  Definition cpp_is_ordered (array : arr) (start end_ : option Z) (comp : option (A -> A -> pyobj)) : res bool :=
    lower <- opt_lower start ;; upper <- opt_upper (len array) end_ ;; cpp_is_ordered_impl array lower upper comp.

  (** PyObject_RichCompareBool(u, value, Py_EQ) for a value that is not None *)
  Definition ceq (u : option A) (value : A) : bool := match u with Some x => eqb x value | None => false end.

  (** misc_algorithms.hpp 62-114 *)
  Definition cpp_linear_search (array : arr) (value : A) (start end_ : option Z) : res (option Z) :=
    lower <- opt_lower start ;; upper <- opt_upper (len array) end_ ;;
    for_find (zrange lower (u64 (upper + 1))) (fun i =>
      u <- cget array i ;; Ret (if ceq u value then Some i else None)).

  (** misc_algorithms.hpp 116-181; [left % 2 * right % 2] is [((left % 2) * right) % 2] and [/] and [%] truncate *)
  Definition cpp_binary_search (array : arr) (value : A) (start end_ : option Z) (comp : option (A -> A -> pyobj)) : res (option Z) :=
    lower <- opt_lower start ;; upper <- opt_upper (len array) end_ ;;
    while_loop (S (Z.to_nat (s32 upper - s32 lower + 1))) (fun '(left_, right_) =>
      if left_ <=? right_ then
        let middle := Z.quot left_ 2 + Z.quot right_ 2 + Z.rem (Z.rem left_ 2 * right_) 2 in
        u <- cget array middle ;;
        if ceq u value then Ret (Break (Some middle))
        else if ccomp comp u (Some value) then Ret (Next (middle + 1, right_)) else Ret (Next (left_, middle - 1))
      else Ret (Break None)) (s32 lower, s32 upper).

  (** misc_algorithms.hpp 183-253; [int(sqrt(double(n)))] is the integer square root (exact for n < 2^52). An [int] is
      compared with a [size_t] as a [size_t]. *)
  Definition cpp_jump_search (array : arr) (value : A) (start end_ : option Z) (comp : option (A -> A -> pyobj)) : res (option Z) :=
    lower <- opt_lower start ;; upper <- opt_upper (len array) end_ ;;
    let step := s32 (Z.sqrt (u64 (upper - lower + 1))) in
    u <- cget array (s32 lower) ;;
    prev <- while_loop (S (length array)) (fun '(prev, element_pos, u) =>
        if (u64 element_pos <=? upper) && ccomp comp u (Some value) then
          let prev := element_pos in
          let element_pos := element_pos + step in
          if upper <? u64 element_pos then Ret (Break prev)
          else u <- cget array element_pos ;; Ret (Next (prev, element_pos, u))
        else Ret (Break prev)) (s32 lower, s32 lower, u) ;;
    while_loop (S (length array)) (fun prev =>
      if u64 prev <=? upper then
        u <- cget array prev ;;
        if ceq u value then Ret (Break (Some prev)) else Ret (Next (prev + 1))
      else Ret (Break None)) prev.
End Cpp.
