(** Specification: textbook unbalanced binary search trees, as functional trees, with the number of cells of the array
    BinarySearchTree keeps its nodes in (arrays.py 398-473). Independent of the model. *)
From Verif Require Import Base.

Inductive stree (D : Type) := Leaf | Node (l : stree D) (k : Z) (d : option D) (r : stree D).
Arguments Leaf {D}.
Arguments Node {D}.

Section ShapeSpec.
  Context {D : Type}.
  Notation stree := (stree D).
  (** number of keys; keys with data in order; keys with data, every node before its subtrees *)
  Fixpoint st_size (t : stree) : Z := match t with Leaf => 0 | Node l _ _ r => st_size l + 1 + st_size r end.
  Fixpoint st_list (t : stree) : list (Z * option D) := match t with Leaf => [] | Node l k d r => st_list l ++ (k, d) :: st_list r end.
  Fixpoint st_pre (t : stree) : list (Z * option D) := match t with Leaf => [] | Node l k d r => (k, d) :: st_pre l ++ st_pre r end.
  (** insertion at a leaf; a present key gets the new data *)
  Fixpoint st_put (k : Z) (d : option D) (t : stree) : stree :=
    match t with
    | Leaf => Node Leaf k d Leaf
    | Node l j e r => if k =? j then Node l j d r else if k <? j then Node (st_put k d l) j e r else Node l j e (st_put k d r)
    end.
  (** the subtrees below a key *)
  Fixpoint st_find (k : Z) (t : stree) : option (stree * stree) :=
    match t with
    | Leaf => None
    | Node l j _ r => if k =? j then Some (l, r) else if k <? j then st_find k l else st_find k r
    end.
  (** the least key with its data, and the tree without it *)
  Fixpoint st_pop (t : stree) : option (Z * option D * stree) :=
    match t with
    | Leaf => None
    | Node l k d r => match st_pop l with None => Some (k, d, r) | Some (m, e, l') => Some (m, e, Node l' k d r) end
    end.
  (** deletion: a key with one subtree or none is replaced by it, a key with two by the next greater key *)
  Definition st_join (l r : stree) : stree :=
    match l, r with
    | Leaf, _ => r
    | _, Leaf => l
    | _, _ => match st_pop r with Some (k, d, r') => Node l k d r' | None => l end
    end.
  Fixpoint st_cut (k : Z) (t : stree) : stree :=
    match t with
    | Leaf => Leaf
    | Node l j d r => if k =? j then st_join l r else if k <? j then Node (st_cut k l) j d r else Node l j d (st_cut k r)
    end.
  (** a tree and the cells of its array *)
  Record sstate := mksstate { s_tree : stree; s_cells : Z }.
  (** the array doubles when a new key comes and all cells are in use *)
  Definition st_insert (k : Z) (d : option D) (s : sstate) : sstate :=
    mksstate (st_put k d (s_tree s))
      (match st_find k (s_tree s) with Some _ => s_cells s | None => if st_size (s_tree s) =? s_cells s then 2 * s_cells s + 1 else s_cells s end).
  Definition st_inserts (h : list (Z * option D)) : sstate := fold_left (fun s e => st_insert (fst e) (snd e) s) h (mksstate Leaf 1).
  (** one delete compacts the array when less than a quarter of the cells stay in use *)
  Definition compacting (s : sstate) : bool := 4 * (st_size (s_tree s) - 1) <? s_cells s.
  Definition is_leaf (t : stree) : bool := match t with Leaf => true | _ => false end.
  (** which deletes are meant: an absent key; a key with two subtrees; a key without subtrees that is not the only one; below the root a key
      with one subtree, unless the array is compacted; the root's key with one subtree, if that is a single key *)
  Definition deletable (s : sstate) (k : Z) : bool :=
    match st_find k (s_tree s) with
    | None => true
    | Some (l, r) =>
      if is_leaf l && is_leaf r then 2 <=? st_size (s_tree s)
      else if is_leaf l || is_leaf r then
        match s_tree s with Node _ j _ _ => if k =? j then st_size (s_tree s) =? 2 else negb (compacting s) | Leaf => false end
      else true
    end.
  Definition st_delete (k : Z) (s : sstate) : sstate :=
    match st_find k (s_tree s) with
    | None => s
    | Some _ => mksstate (st_cut k (s_tree s)) (if compacting s then 2 * (st_size (s_tree s) - 1) + 1 else s_cells s)
    end.
  (** deletes of [deletable] keys, with what delete should report *)
  Fixpoint st_deletes (ks : list Z) (s : sstate) : option (sstate * list bool) :=
    match ks with
    | [] => Some (s, [])
    | k :: ks' =>
      if deletable s k then
        match st_deletes ks' (st_delete k s) with
        | Some (s', fs) => Some (s', (match st_find k (s_tree s) with Some _ => true | None => false end) :: fs)
        | None => None
        end
      else None
    end.
  (** a delete of the root's key when one other key is left: the other key takes the root's place *)
  Definition swaps (k : Z) (s : sstate) : bool := match s_tree s with Node _ j _ _ => (k =? j) && (st_size (s_tree s) =? 2) | Leaf => false end.
End ShapeSpec.
Arguments sstate : clear implicits.
