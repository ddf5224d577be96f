(** Model of BinomialHeap (pydatastructs/trees/heaps.py 357-582) and BinomialTree.add_sub_tree
    (pydatastructs/miscellaneous_data_structures/binomial_trees.py 64-87).
    A node (utils/misc_util.py BinomialTreeNode 157-217) is [BN key data children]; its [children] array is only ever
    appended to, so it is the plain list (DodaPacked.v). [parent] is the enclosing node and [is_root] says that there is none:
    add_sub_tree sets both when a node becomes a child, and BinomialTree.__new__ (42-58) sets is_root when a child becomes a root
    again in delete_minimum; decrease_key reads parent only when is_root is False. A node handed to decrease_key/delete is
    addressed by the position of its tree in root_list and its path of child indices.
    Keys are Python ints ([Z]). Simplification: root_list holds no None (no method puts one there, and the caller's root_list
    argument is not modelled: heaps start empty), and the two heaps given to merge share no tree. *)
From Verif Require Import Base.

Section Binomial.
  Context {D : Type}.
  Inductive bnode := BN (key : Z) (data : D) (children : list bnode).
  Definition b_key (n : bnode) : Z := let 'BN k _ _ := n in k.
  Definition b_data (n : bnode) : D := let 'BN _ d _ := n in d.
  Definition b_children (n : bnode) : list bnode := let 'BN _ _ c := n in c.
  (** BinomialTree: (order, root) *)
  Notation btree := (Z * bnode)%type.
  Notation bheap := (list btree).

  (** add_sub_tree (binomial_trees.py 64-87) *)
  Definition add_sub_tree (t other_tree : btree) : res btree :=
    if negb (fst t =? fst other_tree) then Raise ValueError
    else let 'BN k d ch := snd t in Ret (fst t + 1, BN k d (ch ++ [snd other_tree])).

  (** merge_tree (heaps.py 411-433) *)
  Definition merge_tree (tree1 tree2 : btree) : res btree :=
    if b_key (snd tree1) <=? b_key (snd tree2) then add_sub_tree tree1 tree2 else add_sub_tree tree2 tree1.

  (** _merge_heap_last_new_tree (heaps.py 435-443); new_root_list is kept as (all but the last, last) *)
  Definition last_tree (l : bheap) : option btree :=
    match rev l with [] => None | t :: _ => Some t end.
  Definition merge_last (new_root_list : bheap) (new_tree : btree) : res bheap :=
    match last_tree new_root_list with
    | Some t => if fst t =? fst new_tree then t' <- merge_tree t new_tree ;; Ret (removelast new_root_list ++ [t'])
                else Ret (new_root_list ++ [new_tree])
    | None => Ret (new_root_list ++ [new_tree])
    end.

  (** merge (heaps.py 445-487); the indices i and j are the suffixes of the two root lists *)
  Definition bh_merge (self other_heap : bheap) : res bheap :=
    ' (new_root_list, l1, l2) <-
      while_loop (S (length self + length other_heap)) (fun '(new_root_list, l1, l2) =>
        match l1, l2 with
        | t1 :: l1', t2 :: l2' =>
          if fst t1 =? fst t2 then
            new_tree <- merge_tree t1 t2 ;; n <- merge_last new_root_list new_tree ;; Ret (Next (n, l1', l2'))
          else if fst t1 <? fst t2 then n <- merge_last new_root_list t1 ;; Ret (Next (n, l1', l2))
          else n <- merge_last new_root_list t2 ;; Ret (Next (n, l1, l2'))
        | _, _ => Ret (Break (new_root_list, l1, l2))
        end) ([], self, other_heap) ;;
    new_root_list <- forM l1 (fun t n => merge_last n t) new_root_list ;;
    forM l2 (fun t n => merge_last n t) new_root_list.

  (** insert (heaps.py 489-503) *)
  Definition bh_insert (self : bheap) (key : Z) (data : D) : res bheap := bh_merge self [(0, BN key data [])].

  (** find_minimum(get_index=True) (heaps.py 505-527): the node and its index in root_list *)
  Definition bh_find_minimum (self : bheap) : res (bnode * nat) :=
    match self with
    | [] => Raise IndexError
    | _ =>
      r <- forM self (fun tree '(min_node, idx) =>
        match min_node with
        | None => Ret (Some (snd tree, idx), S idx)
        | Some (m, mi) => if b_key (snd tree) <? b_key m then Ret (Some (snd tree, idx), S idx) else Ret (Some (m, mi), S idx)
        end) (None, 0%nat) ;;
      match fst r with Some x => Ret x | None => Raise AttributeError end
    end.

  (** [enumerate(min_node.children)] with [BinomialTree(root=child, order=k)] (heaps.py 534-537) *)
  Fixpoint child_trees (k : Z) (ch : list bnode) : bheap :=
    match ch with [] => [] | c :: ch' => (k, c) :: child_trees (k + 1) ch' end.
  (** delete_minimum (heaps.py 529-540); [remove] of the tree object at min_idx *)
  Definition bh_delete_minimum (self : bheap) : res bheap :=
    ' (min_node, min_idx) <- bh_find_minimum self ;;
    bh_merge (firstn min_idx self ++ skipn (S min_idx) self) (child_trees 0 (b_children min_node)).

  (** is_empty (heaps.py 542-544) *)
  Definition bh_is_empty (self : bheap) : bool := match self with [] => true | _ => false end.

  (** the node at a path below a node *)
  Fixpoint b_at (n : bnode) (path : list nat) : option bnode :=
    match path with
    | [] => Some n
    | i :: p => match nth_error (b_children n) i with Some c => b_at c p | None => None end
    end.
  (** decrease_key's assignment and loop (heaps.py 562-569) seen from an ancestor-or-self of the node: the recursion returns
      the rebuilt subtree and whether the loop variable [node] has reached this subtree's root *)
  Fixpoint b_decrease (n : bnode) (path : list nat) (new_key : Z) : option (bnode * bool) :=
    let 'BN k d ch := n in
    match path with
    | [] => Some (BN new_key d ch, true)
    | i :: p =>
      match nth_error ch i with
      | None => None
      | Some c =>
        match b_decrease c p new_key with
        | None => None
        | Some (BN ck cd cch, active) =>
          if active && (ck <? k) then Some (BN ck cd (upd ch i (BN k d cch)), true)
          else Some (BN k d (upd ch i (BN ck cd cch)), false)
        end
      end
    end.
  (** decrease_key (heaps.py 546-569) *)
  Definition bh_decrease_key (self : bheap) (i : nat) (path : list nat) (new_key : Z) : res bheap :=
    match nth_error self i with
    | None => Raise AttributeError
    | Some (o, root) =>
      match b_at root path, b_decrease root path new_key with
      | Some node, Some (root', _) =>
        if b_key node <=? new_key then Raise ValueError else Ret (upd self i (o, root'))
      | _, _ => Raise AttributeError
      end
    end.
  (** delete (heaps.py 571-582) *)
  Definition bh_delete (self : bheap) (i : nat) (path : list nat) : res bheap :=
    ' (m, _) <- bh_find_minimum self ;;
    h <- bh_decrease_key self i path (b_key m - 1) ;;
    bh_delete_minimum h.
End Binomial.
Arguments bnode : clear implicits.
Notation btree D := (Z * bnode D)%type.
Notation bheap D := (list (Z * bnode D)).

(** the heaps a program can build *)
Inductive bh_reachable {D} : bheap D -> Prop :=
| br_new : bh_reachable []
| br_insert h k d h' : bh_reachable h -> bh_insert h k d = Ret h' -> bh_reachable h'
| br_merge h1 h2 h' : bh_reachable h1 -> bh_reachable h2 -> bh_merge h1 h2 = Ret h' -> bh_reachable h'
| br_delete_min h h' : bh_reachable h -> bh_delete_minimum h = Ret h' -> bh_reachable h'
| br_decrease h i p k h' : bh_reachable h -> bh_decrease_key h i p k = Ret h' -> bh_reachable h'
| br_delete h i p h' : bh_reachable h -> bh_delete h i p = Ret h' -> bh_reachable h'.
