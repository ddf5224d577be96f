(** Model of SplayTree.join and SplayTree.split (trees/binary_trees.py 1139-1209, Python backend). *)
From Verif Require Import Base TreeModel TreeModel2 TreeSpec.

Section Tree3.
  Context {D : Type}.
  Notation info := (info D). Notation node := (node D). Notation mem := (mem D). Notation bst := (bst D).
  (** while self.tree[i].right is not None: i = self.tree[i].right (1150-1152), and the same with left (1153-1155) *)
  Definition follow (f : node -> option Z) (t : mem) (start : option Z) : res (option Z) :=
    while_loop (fuel t) (fun i => n <- tget t i ;; match f n with Some _ => Ret (Next (f n)) | None => Ret (Break i) end) start.
  (** node_copy (1165-1169): a new TreeNode, without a parent, with links moved by idx_update *)
  Definition copy_node (idx_update : Z) (n : node) : node :=
    mknode (new_info (n_key n) (k_data (n_inf n))) (option_map (fun i => i + idx_update) (n_left n)) (option_map (fun i => i + idx_update) (n_right n)) None.
  (** join (1139-1171). [for node in other.tree] goes over all cells of the array, the unused ones too (no __iter__: __getitem__ until IndexError).
      [other] is another object than [self] (a tree joined with itself raises ValueError before the loop). *)
  Definition splay_join (b other : bst) : res bst :=
    maxm <- follow n_right (b_mem b) (b_root b) ;;
    minm <- follow n_left (b_mem other) (b_root other) ;;
    x <- tget (b_mem b) maxm ;; y <- tget (b_mem other) minm ;;
    lt <- comparator b (n_key x) (n_key y) ;;
    if negb lt then Raise ValueError else
    b <- splay b maxm (n_parent x) ;;
    let idx_update := len (b_mem b) in
    arr <- forM (b_mem other) (fun c arr => aft_append arr (option_map (copy_node idx_update) c)) (b_arr b) ;;
    match b_root other with
    | None => Raise TypeError
    | Some r => t <- tmod (a_data arr) (b_root b) (set_right (Some (r + idx_update))) ;; Ret (set_mem (set_arr b arr) t)
    end.
  (** the key of a visited node; every visited node has one (a node without a key is a root, and split is not past its search then) *)
  Definition key_of (x : info) : res Z := match k_key x with Some k => Ret k | None => Raise TypeError end.
  (** for j in range(len(elements) - 1, -1, -1): search, self.tree[e] = None (1205-1207) *)
  Definition clear_nodes (b : bst) (els : list info) : res bst :=
    forM (rev els) (fun x b =>
      k <- key_of x ;;
      ' (e, _) <- search_parent b k ;;
      match e with
      | None => Raise TypeError
      | Some i => t <- aset (b_mem b) i None ;; Ret (set_mem b t)
      end) b.
  (** split (1173-1209): the tree afterwards, and what is returned (None, or the new tree). The inserts into [other] are BinarySearchTree.insert (1202-1204). *)
  Definition splay_split (b : bst) (x : Z) : res (bst * option bst) :=
    ' (e, p) <- search_parent b x ;;
    match e with
    | None => Ret (b, None)
    | Some _ =>
      b <- splay b e p ;;
      other <- bst_new None None None false ;;
      rt <- tget (b_mem b) (b_root b) ;;
      match n_right rt with
      | None => Ret (b, Some other)
      | Some _ =>
        elements <- pre_order (b_mem b) (n_right rt) ;;
        other <- forM elements (fun el other => k <- key_of el ;; insert other k (k_data el)) other ;;
        b <- clear_nodes b elements ;;
        t <- tmod (b_mem b) (b_root b) (set_right None) ;;
        Ret (set_mem b t, Some other)
      end
    end.
End Tree3.
