(** Model of printing the binary trees of the C++ backend. *)
From Verif Require Import Base CppArrayModel CppTreeModel.

Section Trees.
  Context {K D : Type}.
  (** a printed row: left, key, priority, data, right (BinaryTree.hpp 106-111). The priority is printed only for a node of a CartesianTree, that is, when
      CartesianTree_insert has set it (CartesianTree.hpp 114-115): None here means that the row has no such entry *)
  Definition c_row (n : cnode K D) : option Z * option K * option Z * option D * option Z := (cn_left n, cn_key n, ck_prio (cn_inf n), ck_data (cn_inf n), cn_right n).
  (** BinaryTree.__str__ (BinaryTree.hpp 98-121): the rows, None for the '' of an empty cell. The cells are read from the buffer without a check.
      BinarySearchTree, AVLTree, CartesianTree, Treap, RedBlackTree and SplayTree print through it (BinarySearchTree.hpp 39-41, AVLTree.hpp 39-41,
      CartesianTree.hpp 39-41, Treap.hpp 40-42, RedBlackTree.hpp 39-41, SplayTree.hpp 42-44). *)
  Definition c_tree_printed (b : ctree K D) : res (list (option (option Z * option K * option Z * option D * option Z))) :=
    forM (zrange 0 (cr_last (ct_arr b) + 1)) (fun i out => c <- rawget (ct_mem b) i ;; Ret (out ++ [option_map c_row c])) [].
End Trees.
