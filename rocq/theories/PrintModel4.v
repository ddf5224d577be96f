(** Models of the __str__ of SparseTable and OneDimensionalSegmentTree. *)
From Coq Require Import Strings.String.
From Verif Require Import Base RangeModel IntervalModel NodeModel.
Import List.
Open Scope list_scope.

(** str of a list whose items have these texts (repr of each) *)
Fixpoint join_comma (l : list ustr) : ustr := match l with [] => [] | [x] => x | x :: l => x ++ lit ", " ++ join_comma l end.
Definition list_str (items : list ustr) : ustr := lit "[" ++ join_comma items ++ lit "]".
(** repr of a cell of a OneDimensionalArray of ints *)
Definition cell_repr (v : option Z) : ustr := match v with None => lit "None" | Some z => decimal z end.
(** Array.__str__ (pydatastructs/linear_data_structures/arrays.py 16-17) *)
Definition array_str (row : list (option Z)) : ustr := list_str (map cell_repr row).
(** SparseTable.__str__ (pydatastructs/miscellaneous_data_structures/sparse_table.py 107-108) *)
Definition sparse_str (t : list (list (option Z))) : ustr := list_str (map (fun row => py_repr (array_str row)) t).

(** OneDimensionalSegmentTree.__str__ (pydatastructs/trees/space_partitioning_trees.py 229-242) after the first build: one row (left, key, data, right)
    for each node. The text of a segment's TreeNode (pydatastructs/utils/misc_util.py 39-43) is determined by its two ends (its left, right and data stay None),
    so a row shows the pairs of ends. The numbers and booleans are left as values. *)
Definition ist_printed (one : Z) (segs : list (Z * Z)) : res (list (option Z * ikey * option (list (Z * Z)) * option Z)) :=
  let ns := map norm_seg segs in
  tree <- ist_build one ns ;;
  Ret (map (fun n => (IntervalModel.n_left n, IntervalModel.n_key n, option_map (map (fun k => nth k ns (0, 0))) (IntervalModel.n_data n), IntervalModel.n_right n)) tree).
