(** Models of BinaryIndexedTree (trees/binary_trees.py 1761-1888), SparseTable (miscellaneous_data_structures/sparse_table.py),
    OneDimensionalArraySegmentTree (segment_tree.py) and the RangeQuery classes (miscellaneous_data_structures/algorithms.py). *)
From Verif Require Import Base.

(** ** BinaryIndexedTree, over ints *)
(** fields of the object (binary_trees.py 1795) *)
Record fenwick := { fw_tree : list Z; fw_array : list Z; fw_flag : list Z }.

(** the loop [while index < size + 1: tree[index] += value; index += index & -index] (1831-1833 and 1837-1839); tree is a Python list *)
Definition fw_add_loop (fuel : nat) (size : Z) (index value : Z) (tree : list Z) : res (list Z) :=
  while_loop fuel (fun '(index, tree) =>
    if index <? size + 1 then
      v <- lget tree index ;;
      tree <- aset tree index (v + value) ;;
      Ret (Next (index + Z.land index (- index), tree))
    else Ret (Break tree)) (index, tree).
(** update (1814-1840) *)
Definition fw_update_fuel (fuel : nat) (b : fenwick) (index value : Z) : res fenwick :=
  let size := len (fw_array b) in
  f <- lget (fw_flag b) index ;;
  if f =? 0 then
    flag <- aset (fw_flag b) index 1 ;;
    tree <- fw_add_loop fuel size (index + 1) value (fw_tree b) ;;
    a <- aset (fw_array b) index value ;;
    Ret {| fw_tree := tree; fw_array := a; fw_flag := flag |}
  else
    old <- aget (fw_array b) index ;;
    tree <- fw_add_loop fuel size (index + 1) (value - old) (fw_tree b) ;;
    a <- aset (fw_array b) index value ;;
    Ret {| fw_tree := tree; fw_array := a; fw_flag := fw_flag b |}.
Definition fw_update (b : fenwick) := fw_update_fuel (length (fw_array b) + 2) b.
(** __new__ (1797-1807); type(array[0]) raises IndexError on an empty list *)
Definition fw_new (array : list Z) : res fenwick :=
  _ <- lget array 0 ;;
  forM (zrange 0 (len array)) (fun index b => v <- lget array index ;; fw_update b index v)
    {| fw_tree := repeat 0 (length array + 2); fw_array := array; fw_flag := repeat 0 (length array) |}.
(** get_prefix_sum (1842-1863) *)
Definition fw_prefix (b : fenwick) (index : Z) : res Z :=
  while_loop (Z.to_nat (index + 1) + 1) (fun '(index, sum) =>
    if 0 <? index then v <- lget (fw_tree b) index ;; Ret (Next (index - Z.land index (- index), sum + v))
    else Ret (Break sum)) (index + 1, 0).
(** get_sum (1865-1888) *)
Definition fw_sum (b : fenwick) (left_index right_index : Z) : res Z :=
  if 1 <=? left_index then
    x <- fw_prefix b right_index ;; y <- fw_prefix b (left_index - 1) ;; Ret (x - y)
  else fw_prefix b right_index.

(** ** Combiners: a Python function called on a 1-tuple or a 2-tuple, any component of which may be None *)
Record combiner (V : Type) := { c1 : option V -> option V; c2 : option V -> option V -> option V }.
Arguments c1 {V}. Arguments c2 {V}.
(** the shape shared by minimum, greatest_common_divisor and summation (utils/misc_util.py 608-636) *)
Definition lift_op {V} (op : V -> V -> V) : combiner V :=
  {| c1 := fun x => x;
     c2 := fun x y => match x, y with Some a, Some b => Some (op a b) | _, None => x | None, _ => y end |}.
(** minimum (misc_util.py 608-616) *)
Definition py_minimum : combiner Z := lift_op Z.min.
(** greatest_common_divisor (misc_util.py 618-626); math.gcd is non-negative *)
Definition py_gcd : combiner Z := lift_op Z.gcd.
(** summation (misc_util.py 628-636) *)
Definition py_summation : combiner Z := lift_op Z.add.

Section R.
  Context {V : Type} (func : combiner V).

  (** ** SparseTable *)
  (** the table is a Python list of OneDimensionalArray(int, log_size); [coe] is the coercion [int(elem)] done by
      OneDimensionalArray.__setitem__ (arrays.py 137-143) *)
  Context (coe : V -> V).
  Notation table := (list (list (option V))).
  Definition tab_set (t : table) (i j : Z) (v : option V) : res table :=
    row <- lget t i ;;
    row <- aset row j (option_map coe v) ;;
    aset t i row.
  Definition tab_get (t : table) (i j : Z) : res (option V) := row <- lget t i ;; aget row j.
  (** __new__ (sparse_table.py 57-79); int(math.log2(size)) is [Z.log2] *)
  Definition sparse_new (array : list V) : res table :=
    if len array =? 0 then Raise ValueError
    else
      let size := len array in
      let log_size := Z.log2 size + 1 in
      t <- forM (zrange 0 size) (fun i t => x <- lget array i ;; tab_set t i 0 (c1 func (Some x)))
             (repeat (repeat None (Z.to_nat log_size)) (length array)) ;;
      forM (zrange 1 (log_size + 1)) (fun j t =>
        forM (zrange 0 (size - Z.shiftl 1 j + 1)) (fun i t =>
          x <- tab_get t i (j - 1) ;;
          y <- tab_get t (i + Z.shiftl 1 (j - 1)) (j - 1) ;;
          tab_set t i j (c2 func x y)) t) t.
  (** query (85-105); math.log2 raises ValueError on non-positive arguments *)
  Definition sparse_query (t : table) (start stop : Z) : res (option V) :=
    if stop - start + 1 <=? 0 then Raise ValueError
    else
      ' (_, answer) <- forM (zrange_down (Z.log2 (stop - start + 1) + 1) (-1)) (fun j '(start, answer) =>
         if start + Z.shiftl 1 j - 1 <=? stop then
           x <- tab_get t start j ;; Ret (start + Z.shiftl 1 j, c2 func answer x)
         else Ret (start, answer)) (start, None) ;;
      Ret answer.

  (** _check_range_query_inputs (misc_util.py 599-606) *)
  Definition check_range (start stop lo hi : Z) : res unit :=
    if stop <=? start then Raise ValueError
    else if (start <? lo) || (hi <? stop) then Raise IndexError else Ret tt.

  (** RangeQueryStatic(array, func, 'sparse_table') (algorithms.py 82-96, 122-129): the object is (table, size) *)
  Definition rqs_sparse_new (array : list V) : res (table * Z) :=
    if len array =? 0 then Raise ValueError else t <- sparse_new array ;; Ret (t, len array).
  (** RangeQueryStaticSparseTable.query (135-137) *)
  Definition rqs_sparse_query (o : table * Z) (start stop : Z) : res (option V) :=
    check_range start (stop + 1) 0 (snd o) ;;; sparse_query (fst o) start stop.
  (** RangeQueryStatic(array, func, 'array') (82-96, 144-148): the object is the array *)
  Definition rqs_array_new (array : list V) : res (list V) :=
    if len array =? 0 then Raise ValueError else Ret array.
  (** RangeQueryStaticArray.query (154-165) *)
  Definition rqs_array_query (array : list V) (start stop : Z) : res (option V) :=
    check_range start (stop + 1) 0 (len array) ;;;
    if stop - start + 1 =? 1 then x <- lget array start ;; Ret (c1 func (Some x))
    else
      x <- lget array start ;; y <- lget array (start + 1) ;;
      forM (zrange (start + 2) (stop + 1)) (fun i ans => z <- lget array i ;; Ret (c2 func ans (Some z))) (c2 func (Some x) (Some y)).

  (** ** OneDimensionalArraySegmentTree: nodes are addresses (positions) in a heap of cells *)
  Record scell := { s_start : Z; s_end : Z; s_data : option V; s_left : option nat; s_right : option nat }.
  Notation heap := (list scell).
  Definition sget (h : heap) (a : nat) : res scell := match nth_error h a with Some c => Ret c | None => Raise AttributeError end.
  (** attribute access on a reference that may be None *)
  Definition sderef (h : heap) (a : option nat) : res scell := match a with Some a => sget h a | None => Raise AttributeError end.
  Definition set_data (h : heap) (a : nat) (d : option V) : heap :=
    match nth_error h a with
    | Some c => upd h a {| s_start := s_start c; s_end := s_end c; s_data := d; s_left := s_left c; s_right := s_right c |}
    | None => h end.
  Definition set_left (h : heap) (a : nat) (l : nat) : heap :=
    match nth_error h a with
    | Some c => upd h a {| s_start := s_start c; s_end := s_end c; s_data := s_data c; s_left := Some l; s_right := s_right c |}
    | None => h end.
  Definition set_right (h : heap) (a : nat) (r : nat) : heap :=
    match nth_error h a with
    | Some c => upd h a {| s_start := s_start c; s_end := s_end c; s_data := s_data c; s_left := s_left c; s_right := Some r |}
    | None => h end.
  Definition new_node (h : heap) (s e : Z) : nat * heap :=
    (length h, h ++ [{| s_start := s; s_end := e; s_data := None; s_left := None; s_right := None |}]).

  (** one round of the loop of build (segment_tree.py 151-172); the Stack is a list, top first *)
  Definition build_body (array : list V) : (list nat * heap) -> res (ctl (list nat * heap) heap) := fun '(stack, h) =>
    match stack with
    | [] => Ret (Break h)
    | a :: rest =>
      node <- sget h a ;;
      if s_start node =? s_end node then
        x <- lget array (s_start node) ;;
        Ret (Next (rest, set_data h a (Some x)))
      else
        match s_left node, s_right node with
        | Some l, Some r =>
          cl <- sget h l ;; cr <- sget h r ;;
          Ret (Next (rest, set_data h a (c2 func (s_data cl) (s_data cr))))
        | lft, rgt =>
          let mid := (s_start node + s_end node) / 2 in
          let '(stack, h) := match lft with
            | None => let '(l, h) := new_node h (s_start node) mid in (l :: stack, set_left h a l)
            | Some _ => (stack, h) end in
          let '(stack, h) := match rgt with
            | None => let '(r, h) := new_node h (mid + 1) (s_end node) in (r :: stack, set_right h a r)
            | Some _ => (stack, h) end in
          Ret (Next (stack, h))
        end
    end.
  (** the object: its array, the heap and the root (always address 0 once built) *)
  Record segtree := { st_array : list V; st_heap : heap; st_root : option nat }.
  (** __new__ (121-130) *)
  Definition st_new (array : list V) : segtree := {| st_array := array; st_heap := []; st_root := None |}.
  (** build (141-172) *)
  Definition st_build_fuel (fuel : nat) (t : segtree) : res segtree :=
    match st_root t with
    | Some _ => Ret t
    | None =>
      let '(root, h) := new_node (st_heap t) 0 (len (st_array t) - 1) in
      h <- while_loop fuel (build_body (st_array t)) ([root], h) ;;
      Ret {| st_array := st_array t; st_heap := h; st_root := Some root |}
    end.
  Definition st_build (t : segtree) : res segtree := st_build_fuel (4 * length (st_array t) + 1) t.

  (** one round of the loop of update (182-205); stack entries are (node, child) *)
  Definition update_body (index : Z) (value : V) : (list (option nat * option nat) * heap * list V) -> res (ctl (list (option nat * option nat) * heap * list V) (heap * list V)) :=
    fun '(stack, h, array) =>
    match stack with
    | [] => Ret (Break (h, array))
    | (na, child) :: rest =>
      node <- sderef h na ;;
      if s_start node =? s_end node then
        array <- aset array index value ;;
        let h := match na with Some a => set_data h a (Some value) | None => h end in
        match rest with
        | [] => Ret (Next ([], h, array))
        | (p, _) :: rest' => Ret (Next ((p, na) :: rest', h, array))
        end
      else
        match child with
        | Some _ =>
          cl <- sderef h (s_left node) ;; cr <- sderef h (s_right node) ;;
          let h := match na with Some a => set_data h a (c2 func (s_data cl) (s_data cr)) | None => h end in
          match rest with
          | [] => Ret (Next ([], h, array))
          | (p, _) :: rest' => Ret (Next ((p, na) :: rest', h, array))
          end
        | None =>
          let mid := (s_start node + s_end node) / 2 in
          if (s_start node <=? index) && (index <=? mid) then Ret (Next ((s_left node, None) :: stack, h, array))
          else Ret (Next ((s_right node, None) :: stack, h, array))
        end
    end.
  (** update (174-205) *)
  Definition st_update (t : segtree) (index : Z) (value : V) : res segtree :=
    match st_root t with
    | None => Raise ValueError
    | Some root =>
      ' (h, array) <- while_loop (2 * length (st_array t) + 2) (update_body index value) ([(Some root, None)], st_heap t, st_array t) ;;
      Ret {| st_array := array; st_heap := h; st_root := Some root |}
    end.

  (** _query (207-217), on explicit recursion depth *)
  Fixpoint st_query_rec (fuel : nat) (h : heap) (node : option nat) (start stop l r : Z) : res (option V) :=
    match fuel with
    | O => OutOfFuel
    | S f =>
      if (r <? start) || (stop <? l) then Ret None
      else if (l <=? start) && (stop <=? r) then c <- sderef h node ;; Ret (s_data c)
      else
        let mid := (start + stop) / 2 in
        c <- sderef h node ;;
        x <- st_query_rec f h (s_left c) start mid l r ;;
        y <- st_query_rec f h (s_right c) (mid + 1) stop l r ;;
        Ret (c2 func x y)
    end.
  (** query (219-225) *)
  Definition st_query (t : segtree) (start stop : Z) : res (option V) :=
    match st_root t with
    | None => Raise ValueError
    | Some root => st_query_rec (S (length (st_array t))) (st_heap t) (Some root) 0 (len (st_array t) - 1) start stop
    end.

  (** ** RangeQueryDynamic *)
  (** RangeQueryDynamic(array, func, 'array') (algorithms.py 241-256, 296-301) *)
  Definition rqd_array_new (array : list V) : res (list V) :=
    if len array =? 0 then Raise ValueError else Ret array.
  (** RangeQueryDynamicArray.query (307-308) *)
  Definition rqd_array_query := rqs_array_query.
  (** RangeQueryDynamicArray.update (310-311) *)
  Definition rqd_array_update (array : list V) (index : Z) (value : V) : res (list V) := aset array index value.
  (** RangeQueryDynamic(array, func, 'segment_tree') (241-256, 317-324) *)
  Definition rqd_seg_new (array : list V) : res (segtree * Z) :=
    if len array =? 0 then Raise ValueError else t <- st_build (st_new array) ;; Ret (t, len array).
  (** RangeQueryDynamicSegmentTree.query (330-332) *)
  Definition rqd_seg_query (o : segtree * Z) (start stop : Z) : res (option V) :=
    check_range start (stop + 1) 0 (snd o) ;;; st_query (fst o) start stop.
  (** RangeQueryDynamicSegmentTree.update (334-335) *)
  Definition rqd_seg_update (o : segtree * Z) (index : Z) (value : V) : res (segtree * Z) :=
    t <- st_update (fst o) index value ;; Ret (t, snd o).
End R.
Arguments segtree : clear implicits.
Arguments scell : clear implicits.
