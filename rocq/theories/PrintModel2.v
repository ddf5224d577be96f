(** Model of BinaryTree.__str__ and CartesianTree.__str__; as in PrintModel the list that is turned into text, [None] for the empty string. *)
From Verif Require Import Base TreeModel.

(** BinaryTree.__str__ (binary_trees.py 169-175) with [row n] = (node.left, node.key, node.data, node.right),
    CartesianTree.__str__ (868-874) with the priority added *)
Definition bt_printed {D R} (row : node D -> R) (b : bst D) : res (list (option R)) :=
  forM (zrange 0 (a_last (b_arr b) + 1)) (fun i out => c <- aget (b_mem b) i ;; match c with None => Ret out | Some n => aset out i (Some (row n)) end)
    (repeat None (Z.to_nat (a_last (b_arr b) + 1))).
(** line 174 *)
Definition bt_row {D} (n : node D) : option Z * option Z * option D * option Z := (n_left n, n_key n, k_data (n_inf n), n_right n).
(** line 873 *)
Definition cart_row {D} (n : node D) : option Z * option Z * option Z * option D * option Z := (n_left n, n_key n, k_prio (n_inf n), k_data (n_inf n), n_right n).
