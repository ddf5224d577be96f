(** Model of pydatastructs/trees/binary_trees.py: BinaryTree, BinarySearchTree, SelfBalancingBinaryTree, BinaryTreeTraversal
    (Python backend), and of ArrayForTrees (linear_data_structures/arrays.py 436-473).
    Keys are integers, compared by [<] and [==]; an index variable of the code is an [option Z] (None or an int). *)
From Verif Require Import Base.

Definition oeqb (a b : option Z) : bool :=
  match a, b with Some x, Some y => x =? y | None, None => true | _, _ => false end.
Definition is_none {A} (a : option A) : bool := match a with None => true | Some _ => false end.

(** TreeNode (utils/misc_util.py 52-97), CartesianTreeNode (99-130) and RedBlackTreeNode (132-160) in one record. A node without
    the attribute priority or color has None there. [info] holds the fields that are not links. *)
Record info (D : Type) := mkinfo { k_key : option Z; k_data : option D; k_height : Z; k_size : Z; k_isroot : bool; k_prio : option Z; k_color : option Z }.
Record node (D : Type) := mknode { n_inf : info D; n_left : option Z; n_right : option Z; n_parent : option Z }.
Arguments mkinfo {D}. Arguments k_key {D}. Arguments k_data {D}. Arguments k_height {D}. Arguments k_size {D}. Arguments k_isroot {D}. Arguments k_prio {D}. Arguments k_color {D}.
Arguments mknode {D}. Arguments n_inf {D}. Arguments n_left {D}. Arguments n_right {D}. Arguments n_parent {D}.

(** ArrayForTrees: [_data] (its length is [_size]), [_num], [_last_pos_filled]; load factor 0.25 *)
Record aft (D : Type) := mkaft { a_data : list (option (node D)); a_num : Z; a_last : Z }.
Arguments mkaft {D}. Arguments a_data {D}. Arguments a_num {D}. Arguments a_last {D}.
(** a BinarySearchTree object (binary_trees.py 55-76) *)
Record bst (D : Type) := mkbst { b_arr : aft D; b_root : option Z; b_size : Z; b_comp : option (Z -> Z -> bool); b_os : bool }.
Arguments mkbst {D}. Arguments b_arr {D}. Arguments b_root {D}. Arguments b_size {D}. Arguments b_comp {D}. Arguments b_os {D}.

Section Tree.
  Context {D : Type}.
  Notation info := (info D). Notation node := (node D). Notation aft := (aft D). Notation bst := (bst D).
  Definition mem : Type := list (option node).

  (** attribute stores *)
  Definition set_inf (f : info -> info) (n : node) : node := mknode (f (n_inf n)) (n_left n) (n_right n) (n_parent n).
  Definition set_left (v : option Z) (n : node) : node := mknode (n_inf n) v (n_right n) (n_parent n).
  Definition set_right (v : option Z) (n : node) : node := mknode (n_inf n) (n_left n) v (n_parent n).
  Definition set_parent (v : option Z) (n : node) : node := mknode (n_inf n) (n_left n) (n_right n) v.
  Definition with_key (k : option Z) (x : info) : info := mkinfo k (k_data x) (k_height x) (k_size x) (k_isroot x) (k_prio x) (k_color x).
  Definition with_data (d : option D) (x : info) : info := mkinfo (k_key x) d (k_height x) (k_size x) (k_isroot x) (k_prio x) (k_color x).
  Definition with_height (h : Z) (x : info) : info := mkinfo (k_key x) (k_data x) h (k_size x) (k_isroot x) (k_prio x) (k_color x).
  Definition with_size (s : Z) (x : info) : info := mkinfo (k_key x) (k_data x) (k_height x) s (k_isroot x) (k_prio x) (k_color x).
  Definition with_isroot (b : bool) (x : info) : info := mkinfo (k_key x) (k_data x) (k_height x) (k_size x) b (k_prio x) (k_color x).
  Definition with_color (c : Z) (x : info) : info := mkinfo (k_key x) (k_data x) (k_height x) (k_size x) (k_isroot x) (k_prio x) (Some c).
  Definition n_key (n : node) : option Z := k_key (n_inf n).

  (** TreeNode.__new__ (misc_util.py 80-90) *)
  Definition new_info (key : option Z) (data : option D) : info := mkinfo key data 0 1 false None None.
  Definition new_node (key : option Z) (data : option D) : node := mknode (new_info key data) None None None.

  (** self.tree[i] followed by an attribute access: TypeError for None (comparison with the size), IndexError outside the array
      (arrays.py 133-137), AttributeError for an empty cell *)
  Definition tget (t : mem) (i : option Z) : res node :=
    match i with
    | None => Raise TypeError
    | Some i => c <- aget t i ;; match c with Some n => Ret n | None => Raise AttributeError end
    end.
  (** self.tree[i].field = v *)
  Definition tmod (t : mem) (i : option Z) (f : node -> node) : res mem :=
    n <- tget t i ;; match i with Some i => aset t i (Some (f n)) | None => Raise TypeError end.

  (** dictionaries from keys to indices *)
  Fixpoint odget (d : list (option Z * Z)) (k : option Z) : option Z :=
    match d with [] => None | (k', v) :: d' => if oeqb k k' then Some v else odget d' k end.
  Fixpoint odset (d : list (option Z * Z)) (k : option Z) (v : Z) : list (option Z * Z) :=
    match d with [] => [(k, v)] | (k', w) :: d' => if oeqb k k' then (k', v) :: d' else (k', w) :: odset d' k v end.
  Definition odgetE (d : list (option Z * Z)) (k : option Z) : res Z := match odget d k with Some v => Ret v | None => Raise KeyError end.

  (** ArrayForTrees._modify (arrays.py 452-473); num/size < 0.25 is 4 num < size *)
  Definition aft_modify (a : aft) : res (aft * option (list (option Z * Z))) :=
    if 4 * a_num a <? len (a_data a) then
      ' (arr_new, new_indices, j) <- forM (zrange 0 (a_last a + 1)) (fun i '(arr_new, new_indices, j) =>
        c <- aget (a_data a) i ;;
        match c with
        | Some n => arr_new <- aset arr_new j (Some n) ;; Ret (arr_new, odset new_indices (n_key n) j, j + 1)
        | None => Ret (arr_new, new_indices, j)
        end) (repeat None (Z.to_nat (2 * a_num a + 1)), [], 0) ;;
      let rename (link : option Z) : res (option Z) :=
        match link with None => Ret None | Some _ => m <- tget (a_data a) link ;; v <- odgetE new_indices (n_key m) ;; Ret (Some v) end in
      arr_new <- forM (zrange 0 j) (fun i arr_new =>
        n <- tget arr_new (Some i) ;;
        l <- rename (n_left n) ;; r <- rename (n_right n) ;; p <- rename (n_parent n) ;;
        aset arr_new i (Some (mknode (n_inf n) l r p))) arr_new ;;
      Ret (mkaft arr_new (a_num a) (j - 1), Some new_indices)
    else Ret (a, None).
  (** append (arrays.py 398-410); when the array is full (_last_pos_filled + 1 == _size) the new array is the old one with size + 1
      more empty cells (399-402). The caller drops the dictionary _modify returns. *)
  Definition aft_append (a : aft) (el : option node) : res aft :=
    let data := if a_last a + 1 =? len (a_data a) then a_data a ++ repeat None (Z.to_nat (len (a_data a) + 1)) else a_data a in
    data <- aset data (a_last a + 1) el ;;
    ' (a, _) <- aft_modify (mkaft data (a_num a + 1) (a_last a + 1)) ;;
    Ret a.
  (** delete (arrays.py 412-419) *)
  Definition aft_delete (a : aft) (idx : option Z) : res (aft * option (list (option Z * Z))) :=
    match idx with
    | None => Raise TypeError
    | Some idx =>
      if (idx <=? a_last a) && (0 <=? idx) then
        c <- aget (a_data a) idx ;;
        match c with
        | Some _ =>
          data <- aset (a_data a) idx None ;;
          aft_modify (mkaft data (a_num a - 1) (if a_last a =? idx then a_last a - 1 else a_last a))
        | None => Ret (a, None)
        end
      else Ret (a, None)
    end.

  (** ** BinaryTree / BinarySearchTree *)
  (** BinaryTree.__new__ (binary_trees.py 65-76): BinarySearchTree(key, root_data, comp, is_order_statistic) *)
  Definition bst_new (key : option Z) (root_data : option D) (comp : option (Z -> Z -> bool)) (is_order_statistic : bool) : res bst :=
    match key, root_data with
    | None, Some _ => Raise ValueError
    | _, _ =>
      let key := match root_data with None => None | Some _ => key end in
      let root := set_inf (with_isroot true) (new_node key root_data) in
      Ret (mkbst (mkaft [Some root] 1 0) (Some 0) 1 comp is_order_statistic)
    end.
  (** self.comparator (73-74): [lambda key1, key2: key1 < key2 if comp is None else comp] is
      [lambda key1, key2: (key1 < key2) if comp is None else comp]: with a comp it returns the function itself, which is truthy *)
  Definition comparator (b : bst) (key1 key2 : option Z) : res bool :=
    match b_comp b with
    | Some _ => Ret true
    | None => match key1, key2 with Some x, Some y => Ret (x <? y) | _, _ => Raise TypeError end
    end.
  Definition b_mem (b : bst) : mem := a_data (b_arr b).
  Definition set_mem (b : bst) (t : mem) : bst := mkbst (mkaft t (a_num (b_arr b)) (a_last (b_arr b))) (b_root b) (b_size b) (b_comp b) (b_os b).
  Definition set_arr (b : bst) (a : aft) : bst := mkbst a (b_root b) (b_size b) (b_comp b) (b_os b).
  Definition set_root (b : bst) (r : option Z) : bst := mkbst (b_arr b) r (b_size b) (b_comp b) (b_os b).
  Definition set_bsize (b : bst) (s : Z) : bst := mkbst (b_arr b) (b_root b) s (b_comp b) (b_os b).
  (** one iteration more than there are cells is enough for a walk along a path of distinct nodes *)
  Definition fuel (t : mem) : nat := S (length t).

  (** left_size, right_size (220-223) *)
  Definition left_size (t : mem) (n : node) : res Z := match n_left n with None => Ret 0 | Some _ => m <- tget t (n_left n) ;; Ret (k_size (n_inf m)) end.
  Definition right_size (t : mem) (n : node) : res Z := match n_right n with None => Ret 0 | Some _ => m <- tget t (n_right n) ;; Ret (k_size (n_inf m)) end.
  (** tree[walk].size = left_size + right_size + 1 (237-239) *)
  Definition fix_size (t : mem) (walk : option Z) : res mem :=
    n <- tget t walk ;; l <- left_size t n ;; r <- right_size t n ;; tmod t walk (set_inf (with_size (l + r + 1))).
  (** _update_size (233-240) *)
  Definition update_size (b : bst) (start_idx : option Z) : res bst :=
    if b_os b then
      t <- while_loop (fuel (b_mem b)) (fun '(t, walk) =>
        match walk with
        | None => Ret (Break t)
        | Some _ => t <- fix_size t walk ;; n <- tget t walk ;; Ret (Next (t, n_parent n))
        end) (b_mem b, start_idx) ;;
      Ret (set_mem b t)
    else Ret b.

  (** search (272-286): the loop, and the two results. On a tree whose root has no key search returns None, also with parent=True. *)
  Definition search_loop (b : bst) (key : Z) : res (option Z * option Z) :=
    while_loop (fuel (b_mem b)) (fun '(walk, parent) =>
      match walk with
      | None => Ret (Break (walk, parent))
      | Some _ =>
        n <- tget (b_mem b) walk ;;
        if oeqb (n_key n) (Some key) then Ret (Break (walk, parent))
        else
          lt <- comparator b (Some key) (n_key n) ;;
          Ret (Next (if lt : bool then n_left n else n_right n, walk))
      end) (b_root b, None).
  Definition search (b : bst) (key : Z) : res (option Z) :=
    r <- tget (b_mem b) (b_root b) ;;
    match n_key r with None => Ret None | Some _ => ' (walk, _) <- search_loop b key ;; Ret walk end.
  (** walk, parent = self.search(key, parent=True): unpacking None raises TypeError *)
  Definition search_parent (b : bst) (key : Z) : res (option Z * option Z) :=
    r <- tget (b_mem b) (b_root b) ;;
    match n_key r with None => Raise TypeError | Some _ => search_loop b key end.

  (** insert (242-270) *)
  Definition insert (b : bst) (key : Z) (data : option D) : res bst :=
    r <- search b key ;;
    match r with
    | Some _ => t <- tmod (b_mem b) r (set_inf (with_data data)) ;; Ret (set_mem b t)
    | None =>
      root <- tget (b_mem b) (b_root b) ;;
      match n_key root with
      | None => t <- tmod (b_mem b) (b_root b) (fun n => set_inf (with_data data) (set_inf (with_key (Some key)) n)) ;; Ret (set_mem b t)
      | Some _ =>
        ' (b, walk) <- while_loop (fuel (b_mem b)) (fun '(walk, prev_node) =>
          n <- tget (b_mem b) walk ;;
          lt <- comparator b (Some key) (n_key n) ;;
          if negb lt then
            match n_right n with
            | None =>
              a <- aft_append (b_arr b) (Some (set_parent prev_node (new_node (Some key) data))) ;;
              t <- tmod (a_data a) walk (set_right (Some (b_size b))) ;;
              let b := set_bsize (set_mem (set_arr b a) t) (b_size b + 1) in
              n <- tget t walk ;;
              Ret (Break (b, n_right n))
            | Some _ => Ret (Next (n_right n, n_right n))
            end
          else
            match n_left n with
            | None =>
              a <- aft_append (b_arr b) (Some (set_parent prev_node (new_node (Some key) data))) ;;
              t <- tmod (a_data a) walk (set_left (Some (b_size b))) ;;
              let b := set_bsize (set_mem (set_arr b a) t) (b_size b + 1) in
              n <- tget t walk ;;
              Ret (Break (b, n_left n))
            | Some _ => Ret (Next (n_left n, n_left n))
            end) (b_root b, b_root b) ;;
        update_size b walk
      end
    end.

  (** _bound_helper (288-307) *)
  Fixpoint bound_helper (f : nat) (b : bst) (node_idx : option Z) (bound_key : Z) (is_upper : bool) : res (option Z) :=
    match f with
    | O => OutOfFuel
    | S f =>
      match node_idx with
      | None => Ret None
      | Some _ =>
        n <- tget (b_mem b) node_idx ;;
        match n_key n with
        | None => Ret None
        | Some _ =>
          if oeqb (n_key n) (Some bound_key) then
            if negb is_upper then Ret (n_key n) else bound_helper f b (n_right n) bound_key is_upper
          else
            lt <- comparator b (n_key n) (Some bound_key) ;;
            if lt : bool then bound_helper f b (n_right n) bound_key is_upper
            else
              res_bound <- bound_helper f b (n_left n) bound_key is_upper ;;
              Ret (match res_bound with Some _ => res_bound | None => n_key n end)
        end
      end
    end.
  (** lower_bound (310-342), upper_bound (345-377) *)
  Definition lower_bound (b : bst) (key : Z) : res (option Z) := bound_helper (fuel (b_mem b)) b (b_root b) key false.
  Definition upper_bound (b : bst) (key : Z) : res (option Z) := bound_helper (fuel (b_mem b)) b (b_root b) key true.

  (** new_indices[key], new_indices[root_key] after self.tree.delete (398-401, 425-428, 455-460): [a] and the new root *)
  Definition after_delete (b : bst) (a : option Z) (par_key root_key : option Z) (r : aft * option (list (option Z * Z))) : res (bst * option Z) :=
    let '(arr, new_indices) := r in
    let b := set_arr b arr in
    match new_indices with
    | None => Ret (b, a)
    | Some d => a <- odgetE d par_key ;; r <- odgetE d root_key ;; Ret (set_root b (Some r), Some a)
    end.
  (** delete (380-465): None if the key is absent, else the value [a] of balancing_info *)
  Definition delete_info (b : bst) (key : Z) : res (bst * option (option Z)) :=
    ' (walk, parent) <- search_parent b key ;;
    match walk with
    | None => Ret (b, None)
    | Some _ =>
      w <- tget (b_mem b) walk ;;
      match n_left w, n_right w with
      | None, None =>
        ' (b, a) <- (match parent with
          | None =>
            t <- tmod (b_mem b) (b_root b) (fun n => set_inf (with_key None) (set_inf (with_data None) n)) ;;
            Ret (set_mem b t, None)
          | Some _ =>
            p <- tget (b_mem b) parent ;;
            t <- (if oeqb (n_left p) walk then tmod (b_mem b) parent (set_left None) else tmod (b_mem b) parent (set_right None)) ;;
            let b := set_mem b t in
            p <- tget t parent ;; rt <- tget t (b_root b) ;;
            r <- aft_delete (b_arr b) walk ;;
            after_delete b parent (n_key p) (n_key rt) r
          end) ;;
        b <- update_size b a ;;
        Ret (b, Some a)
      | Some _, Some _ =>
        ' (twalk, par, flag) <- while_loop (fuel (b_mem b)) (fun '(twalk, par, flag) =>
          n <- tget (b_mem b) twalk ;;
          match n_left n with
          | None => Ret (Break (twalk, par, flag))
          | Some _ => Ret (Next (n_left n, twalk, true))
          end) (n_right w, walk, false) ;;
        n <- tget (b_mem b) twalk ;;
        t <- tmod (b_mem b) walk (fun m => set_inf (with_key (n_key n)) (set_inf (with_data (k_data (n_inf n))) m)) ;;
        n <- tget t twalk ;;
        t <- (if flag : bool then tmod t par (set_left (n_right n)) else tmod t par (set_right (n_right n))) ;;
        n <- tget t twalk ;;
        t <- (match n_right n with Some _ => tmod t (n_right n) (set_parent par) | None => Ret t end) ;;
        let b := set_mem b t in
        p <- tget t par ;; rt <- tget t (b_root b) ;;
        r <- aft_delete (b_arr b) twalk ;;
        ' (b, a) <- after_delete b par (n_key p) (n_key rt) r ;;
        b <- update_size b a ;;
        Ret (b, Some a)
      | _, _ =>
        let child := match n_left w with Some _ => n_left w | None => n_right w end in
        match parent with
        | None =>
          c <- tget (b_mem b) child ;;
          t <- tmod (b_mem b) (b_root b) (fun m => mknode (with_key (n_key c) (with_data (k_data (n_inf c)) (n_inf m))) (n_left c) (n_right c) None) ;;
          let b := set_mem b t in
          rt <- tget t (b_root b) ;;
          ' (arr, new_indices) <- aft_delete (b_arr b) child ;;
          let b := set_arr b arr in
          b <- (match new_indices with None => Ret b | Some d => r <- odgetE d (n_key rt) ;; Ret (set_root b (Some r)) end) ;;
          Ret (b, Some None)
        | Some _ =>
          p <- tget (b_mem b) parent ;;
          t <- (if oeqb (n_left p) walk then tmod (b_mem b) parent (set_left child) else tmod (b_mem b) parent (set_right child)) ;;
          t <- tmod t child (set_parent parent) ;;
          let b := set_mem b t in
          p <- tget t parent ;; rt <- tget t (b_root b) ;;
          ' (arr, new_indices) <- aft_delete (b_arr b) walk ;;
          let b := set_arr b arr in
          ' (b, a) <- (match new_indices with
            | None => Ret (b, parent)
            | Some d =>
              pi <- odgetE d (n_key p) ;;
              t <- tmod (b_mem b) child (set_parent (Some pi)) ;;
              r <- odgetE d (n_key rt) ;;
              Ret (set_root (set_mem b t) (Some r), Some pi)
            end) ;;
          b <- update_size b a ;;
          Ret (b, Some a)
        end
      end
    end.
  (** delete without balancing_info: whether it returned True *)
  Definition delete (b : bst) (key : Z) : res (bst * bool) :=
    ' (b, a) <- delete_info b key ;; Ret (b, negb (is_none a)).

  (** select (467-518): the node, or None *)
  Definition select (b : bst) (i : Z) : res (option node) :=
    let t := b_mem b in
    let i := i - 1 in
    if i <? 0 then Raise ValueError
    else if a_num (b_arr b) <=? i then Raise ValueError
    else while_loop (fuel t) (fun '(walk, i) =>
      match walk with
      | None => Ret (Break None)
      | Some _ =>
        n <- tget t walk ;;
        l <- left_size t n ;;
        if i =? l then Ret (Break (Some n))
        else
          match n_left n, n_right n with
          | None, None => Raise IndexError
          | _, _ =>
            if i <? l then
              go_left <- (match n_left n with None => Ret false | Some _ => m <- tget t (n_left n) ;; comparator b (n_key m) (n_key n) end) ;;
              Ret (Next (if go_left : bool then n_left n else n_right n, i))
            else
              go_right <- (match n_right n with None => Ret false | Some _ => m <- tget t (n_right n) ;; c <- comparator b (n_key m) (n_key n) ;; Ret (negb c) end) ;;
              Ret (Next (if go_right : bool then n_right n else n_left n, i - (l + 1)))
          end
      end) (b_root b, i).
  (** rank (520-541) *)
  Definition rank (b : bst) (x : Z) : res (option Z) :=
    let t := b_mem b in
    walk <- search b x ;;
    match walk with
    | None => Ret None
    | Some _ =>
      n <- tget t walk ;;
      l <- left_size t n ;;
      while_loop (fuel t) (fun '(walk, r) =>
        n <- tget t walk ;; rt <- tget t (b_root b) ;;
        if oeqb (n_key n) (n_key rt) then Ret (Break (Some r))
        else
          let p := n_parent n in
          pn <- tget t p ;;
          if oeqb walk (n_right pn) then l <- left_size t pn ;; Ret (Next (p, r + (l + 1)))
          else Ret (Next (p, r))) (walk, l + 1)
    end.

  (** _simple_path (543-583); Stack() (a LIFO stack, C06) is a list. Indices are tested for truth, so index 0 counts as absent. *)
  Definition truthy (i : option Z) : bool := match i with None => false | Some i => negb (i =? 0) end.
  Definition simple_path (b : bst) (key : Z) (root : option Z) : res (list Z) :=
    let t := b_mem b in
    node_idx <- while_loop (fuel t) (fun stack =>
      match stack with
      | [] => Ret (Break (Some (-1)))
      | nd :: stack =>
        n <- tget t nd ;;
        if oeqb (n_key n) (Some key) then Ret (Break nd)
        else
          let stack := if truthy (n_left n) then n_left n :: stack else stack in
          let stack := if truthy (n_right n) then n_right n :: stack else stack in
          Ret (Next stack)
      end) [root] ;;
    if oeqb node_idx (Some (-1)) then Ret []
    else
      while_loop (fuel t) (fun '(node_idx, path) =>
        if oeqb node_idx (Some 0) then Ret (Break (rev (path ++ [0])))
        else
          n <- tget t node_idx ;;
          match node_idx with Some i => Ret (Next (n_parent n, path ++ [i])) | None => Raise TypeError end) (node_idx, []).
  (** Python's < on lists of ints *)
  Fixpoint list_lt (a c : list Z) : bool :=
    match a, c with
    | _, [] => false
    | [], _ :: _ => true
    | x :: a', y :: c' => if x =? y then list_lt a' c' else x <? y
    end.
  (** _lca_1 (585-602) *)
  Definition lca_1 (b : bst) (j k : Z) : res (option Z) :=
    let t := b_mem b in
    path1 <- simple_path b j (b_root b) ;;
    path2 <- simple_path b k (b_root b) ;;
    if (len path1 =? 0) || (len path2 =? 0) then Raise ValueError
    else while_loop (S (length path1)) (fun i =>
      if (i <? len path1) && (i <? len path2) then
        x <- lget path1 i ;; y <- lget path2 i ;;
        if negb (x =? y) then p <- lget path1 (i - 1) ;; n <- tget t (Some p) ;; Ret (Break (n_key n))
        else Ret (Next (i + 1))
      else
        p <- (if list_lt path1 path2 then lget path1 (-1) else lget path2 (-1)) ;;
        n <- tget t (Some p) ;; Ret (Break (n_key n))) 0.
  (** _lca_2 (604-632) *)
  Definition lca_2 (b : bst) (j k : Z) : res (option Z) :=
    let t := b_mem b in
    u <- search b j ;; v <- search b k ;;
    match u, v with
    | Some _, Some _ =>
      un <- tget t u ;; vn <- tget t v ;; rt <- tget t (b_root b) ;;
      u_left <- comparator b (n_key un) (n_key rt) ;;
      v_left <- comparator b (n_key vn) (n_key rt) ;;
      while_loop (fuel t) (fun '(curr_root, u_left, v_left) =>
        if negb (xorb u_left v_left) then
          c <- tget t curr_root ;;
          let curr_root := if u_left && v_left then n_left c else n_right c in
          if oeqb curr_root u || oeqb curr_root v then c <- tget t curr_root ;; Ret (Break (n_key c))
          else
            c <- tget t curr_root ;;
            u_left <- comparator b (n_key un) (n_key c) ;;
            v_left <- comparator b (n_key vn) (n_key c) ;;
            Ret (Next (curr_root, u_left, v_left))
        else
          c <- tget t curr_root ;; Ret (Break (n_key c))) (b_root b, u_left, v_left)
    | _, _ => Raise ValueError
    end.

  (** ** Rotations (SelfBalancingBinaryTree, 694-766) on the nodes and root_idx *)
  (** the parent's link to the subtree (700-704, 723-727, 743-747, 757-761) *)
  Definition relink (t : mem) (p j k : option Z) : res mem :=
    pn <- tget t p ;;
    if oeqb (n_left pn) j then tmod t p (set_left k) else tmod t p (set_right k).
  (** _right_rotate (694-709) *)
  Definition right_rotate (t : mem) (root : option Z) (j k : option Z) : res (mem * option Z) :=
    kn <- tget t k ;;
    let y := n_right kn in
    t <- (match y with Some _ => tmod t y (set_parent j) | None => Ret t end) ;;
    t <- tmod t j (set_left y) ;;
    jn <- tget t j ;;
    t <- tmod t k (set_parent (n_parent jn)) ;;
    kn <- tget t k ;;
    t <- (match n_parent kn with Some _ => relink t (n_parent kn) j k | None => Ret t end) ;;
    t <- tmod t j (set_parent k) ;;
    t <- tmod t k (set_right j) ;;
    kn <- tget t k ;;
    Ret (t, match n_parent kn with None => k | Some _ => root end).
  (** _left_rotate (751-766) *)
  Definition left_rotate (t : mem) (root : option Z) (j k : option Z) : res (mem * option Z) :=
    kn <- tget t k ;;
    let y := n_left kn in
    t <- (match y with Some _ => tmod t y (set_parent j) | None => Ret t end) ;;
    t <- tmod t j (set_right y) ;;
    jn <- tget t j ;;
    t <- tmod t k (set_parent (n_parent jn)) ;;
    kn <- tget t k ;;
    t <- (match n_parent kn with Some _ => relink t (n_parent kn) j k | None => Ret t end) ;;
    t <- tmod t j (set_parent k) ;;
    t <- tmod t k (set_left j) ;;
    kn <- tget t k ;;
    Ret (t, match n_parent kn with None => k | Some _ => root end).
  (** _left_right_rotate (711-729) *)
  Definition left_right_rotate (t : mem) (root : option Z) (j k : option Z) : res (mem * option Z) :=
    kn <- tget t k ;;
    let i := n_right kn in
    in_ <- tget t i ;;
    let v := n_left in_ in
    let w := n_right in_ in
    t <- tmod t k (set_right v) ;;
    t <- tmod t j (set_left w) ;;
    t <- (match v with Some _ => tmod t v (set_parent k) | None => Ret t end) ;;
    t <- (match w with Some _ => tmod t w (set_parent j) | None => Ret t end) ;;
    jn <- tget t j ;;
    t <- tmod t i (fun n => mknode (n_inf n) k j (n_parent jn)) ;;
    t <- tmod t k (set_parent i) ;;
    t <- tmod t j (set_parent i) ;;
    in_ <- tget t i ;;
    match n_parent in_ with
    | Some _ => t <- relink t (n_parent in_) j i ;; Ret (t, root)
    | None => Ret (t, i)
    end.
  (** _right_left_rotate (731-749) *)
  Definition right_left_rotate (t : mem) (root : option Z) (j k : option Z) : res (mem * option Z) :=
    kn <- tget t k ;;
    let i := n_left kn in
    in_ <- tget t i ;;
    let v := n_left in_ in
    let w := n_right in_ in
    t <- tmod t k (set_left w) ;;
    t <- tmod t j (set_right v) ;;
    t <- (match v with Some _ => tmod t v (set_parent j) | None => Ret t end) ;;
    t <- (match w with Some _ => tmod t w (set_parent k) | None => Ret t end) ;;
    jn <- tget t j ;;
    t <- tmod t i (fun n => mknode (n_inf n) j k (n_parent jn)) ;;
    t <- tmod t k (set_parent i) ;;
    t <- tmod t j (set_parent i) ;;
    in_ <- tget t i ;;
    match n_parent in_ with
    | Some _ => t <- relink t (n_parent in_) j i ;; Ret (t, root)
    | None => Ret (t, i)
    end.

  (** ** BinaryTreeTraversal (1624-1761): the infos of the visited nodes; stacks and the queue are lists *)
  (** _pre_order (1624-1640) *)
  Definition pre_order (t : mem) (start : option Z) : res (list info) :=
    while_loop (fuel t) (fun '(s, visit) =>
      match s with
      | [] => Ret (Break visit)
      | nd :: s =>
        n <- tget t nd ;;
        let s := match n_right n with Some _ => n_right n :: s | None => s end in
        let s := match n_left n with Some _ => n_left n :: s | None => s end in
        Ret (Next (s, visit ++ [n_inf n]))
      end) ([start], []).
  (** _in_order (1642-1658): at most two iterations per node *)
  Definition in_order (t : mem) (start : option Z) : res (list info) :=
    while_loop (2 * fuel t) (fun '(s, nd, visit) =>
      match nd, s with
      | Some _, _ => n <- tget t nd ;; Ret (Next (nd :: s, n_left n, visit))
      | None, [] => Ret (Break visit)
      | None, nd :: s => n <- tget t nd ;; Ret (Next (s, n_right n, visit ++ [n_inf n]))
      end) ([], start, []).
  (** _post_order (1660-1684): [last] is an int array of [size] cells; at most two iterations per node *)
  Definition post_order (t : mem) (size : Z) (start : option Z) : res (list info) :=
    let done (last : list bool) (i : option Z) : res bool := match i with None => Ret true | Some i => aget last i end in
    while_loop (2 * fuel t) (fun '(s, last, visit) =>
      match s with
      | [] => Ret (Break visit)
      | nd :: s' =>
        n <- tget t nd ;;
        cl <- done last (n_left n) ;;
        cr <- done last (n_right n) ;;
        if cl && cr then
          last <- (match nd with Some i => aset last i true | None => Raise TypeError end) ;;
          Ret (Next (s', last, visit ++ [n_inf n]))
        else
          let s := if negb cr then n_right n :: s else s in
          let s := if negb cl then n_left n :: s else s in
          Ret (Next (s, last, visit))
      end) ([start], repeat false (Z.to_nat size), []).
  (** _out_order (1686-1691) *)
  Definition out_order (t : mem) (start : option Z) : res (list info) := v <- in_order t start ;; Ret (rev v).
  (** breadth_first_search (1750-1761) *)
  Definition tree_bfs (t : mem) (start : option Z) : res (list info) :=
    while_loop (fuel t) (fun '(q, visit) =>
      match q with
      | [] => Ret (Break visit)
      | nd :: q =>
        n <- tget t nd ;;
        let q := match n_left n with Some _ => q ++ [n_left n] | None => q end in
        let q := match n_right n with Some _ => q ++ [n_right n] | None => q end in
        Ret (Next (q, visit ++ [n_inf n]))
      end) ([start], []).
End Tree.
Arguments mem : clear implicits.
