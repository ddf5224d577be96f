(** Model of the C++ backend of the binary trees (pydatastructs/trees/_backend/cpp/BinaryTree.hpp, BinarySearchTree.hpp,
    SelfBalancingBinaryTree.hpp, AVLTree.hpp, BinaryTreeTraversal.hpp), of ArrayForTrees
    (pydatastructs/linear_data_structures/_backend/cpp/arrays/ArrayForTrees.hpp) and of TreeNode
    (pydatastructs/utils/_backend/cpp/TreeNode.hpp).

    - A key is a pointer to a Python object, an element of [K]; [same] is pointer identity, [val k] is the integer the object
      stands for (what dictionaries and PyLong_AsLong see). Two objects with one value may be different pointers.
    - The comparator is a total function to the C long its result is converted to. Called with None for a key it raises, and the code
      then looks at a NULL result: undefined.
    - An index is a pointer to an int object, or None. Here it is an [option Z], and two index pointers are equal when the ints are
      equal: all links to one node are copies of one pointer, or they are at most 256 and CPython has one object for each such int.
      Where an index object has just been made by PyLong_FromLong and is compared with an older one the model looks at the
      bound 256 explicitly ([cached]).
    - [_data[PyLong_AsLong(i)]->field] on None, outside the malloc'ed buffer or on an empty cell is [undefined].
    - Reference counts are not modelled. *)
From Verif Require Import Base TreeModel CppArrayModel.

(** TreeNode (TreeNode.hpp 10-24). [ck_prio] is None until it is set; [ck_color] is None for the 1 of line 48, until it is set. *)
Record cinfo (K D : Type) := mkci { ck_key : option K; ck_data : option D; ck_height : Z; ck_size : Z; ck_isroot : bool; ck_prio : option Z; ck_color : option Z }.
Record cnode (K D : Type) := mkcn { cn_inf : cinfo K D; cn_left : option Z; cn_right : option Z; cn_parent : option Z }.
Arguments mkci {K D}. Arguments ck_key {K D}. Arguments ck_data {K D}. Arguments ck_height {K D}. Arguments ck_size {K D}. Arguments ck_isroot {K D}. Arguments ck_prio {K D}. Arguments ck_color {K D}.
Arguments mkcn {K D}. Arguments cn_inf {K D}. Arguments cn_left {K D}. Arguments cn_right {K D}. Arguments cn_parent {K D}.
(** ArrayForTrees (ArrayForTrees.hpp 13-20): the buffer [_one_dimensional_array->_data], [_one_dimensional_array->_size], [_size],
    [_num], [_last_pos_filled]; the load factor is 0.25 (47-48: no kwds entry "load_factor") *)
Record carr (K D : Type) := mkca { cr_buf : list (option (cnode K D)); cr_isize : Z; cr_size : Z; cr_num : Z; cr_last : Z }.
Arguments mkca {K D}. Arguments cr_buf {K D}. Arguments cr_isize {K D}. Arguments cr_size {K D}. Arguments cr_num {K D}. Arguments cr_last {K D}.
(** BinaryTree (BinaryTree.hpp 13-20) *)
Record ctree (K D : Type) := mkct { ct_arr : carr K D; ct_root : option Z; ct_size : Z; ct_comp : K -> K -> Z; ct_os : bool }.
Arguments mkct {K D}. Arguments ct_arr {K D}. Arguments ct_root {K D}. Arguments ct_size {K D}. Arguments ct_comp {K D}. Arguments ct_os {K D}.

Section CppTree.
  Context {K D : Type} (same : K -> K -> bool) (val : K -> Z).
  Notation cinfo := (cinfo K D). Notation cnode := (cnode K D). Notation carr := (carr K D). Notation ctree := (ctree K D).
  Definition cmem : Type := list (option cnode).

  (** stores into the members of a TreeNode *)
  Definition cs_inf (f : cinfo -> cinfo) (n : cnode) : cnode := mkcn (f (cn_inf n)) (cn_left n) (cn_right n) (cn_parent n).
  Definition cs_left (v : option Z) (n : cnode) : cnode := mkcn (cn_inf n) v (cn_right n) (cn_parent n).
  Definition cs_right (v : option Z) (n : cnode) : cnode := mkcn (cn_inf n) (cn_left n) v (cn_parent n).
  Definition cs_parent (v : option Z) (n : cnode) : cnode := mkcn (cn_inf n) (cn_left n) (cn_right n) v.
  Definition cw_key (k : option K) (x : cinfo) : cinfo := mkci k (ck_data x) (ck_height x) (ck_size x) (ck_isroot x) (ck_prio x) (ck_color x).
  Definition cw_data (d : option D) (x : cinfo) : cinfo := mkci (ck_key x) d (ck_height x) (ck_size x) (ck_isroot x) (ck_prio x) (ck_color x).
  Definition cw_height (h : Z) (x : cinfo) : cinfo := mkci (ck_key x) (ck_data x) h (ck_size x) (ck_isroot x) (ck_prio x) (ck_color x).
  Definition cw_size (s : Z) (x : cinfo) : cinfo := mkci (ck_key x) (ck_data x) (ck_height x) s (ck_isroot x) (ck_prio x) (ck_color x).
  Definition cw_isroot (b : bool) (x : cinfo) : cinfo := mkci (ck_key x) (ck_data x) (ck_height x) (ck_size x) b (ck_prio x) (ck_color x).
  Definition cw_color (c : Z) (x : cinfo) : cinfo := mkci (ck_key x) (ck_data x) (ck_height x) (ck_size x) (ck_isroot x) (ck_prio x) (Some c).
  Definition cn_key (n : cnode) : option K := ck_key (cn_inf n).

  (** TreeNode___new__ (TreeNode.hpp 30-53) *)
  Definition c_new_node (key : option K) (data : option D) : cnode := mkcn (mkci key data 0 1 false None None) None None None.

  (** reinterpret_cast<TreeNode*>(_data[PyLong_AsLong(i)])->.. *)
  Definition cget (t : cmem) (i : option Z) : res cnode :=
    match i with
    | None => undefined
    | Some i => c <- rawget t i ;; match c with Some n => Ret n | None => undefined end
    end.
  (** reinterpret_cast<TreeNode*>(_data[PyLong_AsLong(i)])->field = v *)
  Definition cmod (t : cmem) (i : option Z) (f : cnode -> cnode) : res cmem :=
    n <- cget t i ;; match i with Some i => rawset t i (Some (f n)) | None => undefined end.
  (** CPython keeps one object for each of the ints -5 .. 256 *)
  Definition cached (z : Z) : bool := (-5 <=? z) && (z <=? 256).
  (** key pointers; None is one object *)
  Definition sameo (a b : option K) : bool :=
    match a, b with Some x, Some y => same x y | None, None => true | _, _ => false end.

  (** ** ArrayForTrees *)
  (** ArrayForTrees__modify (ArrayForTrees.hpp 87-137); _num/_size < 0.25 on doubles is 4 num < size. The inner array's _size (which
      append looks at) is left alone: lines 130-131 both set the outer _size. *)
  Definition carr_modify (a : carr) : res (carr * option (list (option Z * Z))) :=
    if 4 * cr_num a <? cr_size a then
      ' (arr_new, new_indices, j) <- forM (zrange 0 (cr_last a + 1)) (fun i '(arr_new, new_indices, j) =>
        c <- rawget (cr_buf a) i ;;
        match c with
        | Some n => arr_new <- rawset arr_new j (Some n) ;; Ret (arr_new, odset new_indices (option_map val (cn_key n)) j, j + 1)
        | None => Ret (arr_new, new_indices, j)
        end) (repeat None (Z.to_nat (2 * cr_num a + 1)), [], 0) ;;
      let rename (link : option Z) : res (option Z) :=
        match link with
        | None => Ret None
        | Some _ => m <- cget (cr_buf a) link ;; match odget new_indices (option_map val (cn_key m)) with Some v => Ret (Some v) | None => undefined end
        end in
      arr_new <- forM (zrange 0 j) (fun i arr_new =>
        n <- cget arr_new (Some i) ;;
        l <- rename (cn_left n) ;; r <- rename (cn_right n) ;; p <- rename (cn_parent n) ;;
        rawset arr_new i (Some (mkcn (cn_inf n) l r p))) arr_new ;;
      Ret (mkca arr_new (cr_isize a) (2 * cr_num a + 1) (cr_num a) (j - 1), Some new_indices)
    else Ret (a, None).
  (** ArrayForTrees_append (139-170) *)
  Definition carr_append (a : carr) (el : option cnode) : res carr :=
    a <- (if cr_last a + 1 =? cr_isize a then
            let new_size := 2 * cr_isize a + 1 in
            arr_new <- forM (zrange 0 (cr_last a + 1)) (fun i arr_new => x <- rawget (cr_buf a) i ;; rawset arr_new i x) (repeat None (Z.to_nat new_size)) ;;
            arr_new <- rawset arr_new (cr_last a + 1) el ;;
            Ret (mkca arr_new new_size new_size (cr_num a) (cr_last a))
          else
            data <- rawset (cr_buf a) (cr_last a + 1) el ;;
            Ret (mkca data (cr_isize a) (cr_size a) (cr_num a) (cr_last a))) ;;
    ' (a, _) <- carr_modify (mkca (cr_buf a) (cr_isize a) (cr_size a) (cr_num a + 1) (cr_last a + 1)) ;;
    Ret a.
  (** ArrayForTrees_delete (172-196) *)
  Definition carr_delete (a : carr) (idx : option Z) : res (carr * option (list (option Z * Z))) :=
    match idx with
    | None => undefined
    | Some idx =>
      if (idx <=? cr_last a) && (0 <=? idx) then
        c <- rawget (cr_buf a) idx ;;
        match c with
        | Some _ =>
          data <- rawset (cr_buf a) idx None ;;
          carr_modify (mkca data (cr_isize a) (cr_size a) (cr_num a - 1) (if cr_last a =? idx then cr_last a - 1 else cr_last a))
        | None => Ret (a, None)
        end
      else Ret (a, None)
    end.

  (** ** BinaryTree, BinarySearchTree *)
  (** BinaryTree___new__ (BinaryTree.hpp 26-81): TreeNode___new__ is given the arguments as they came, so the node keeps the key also
      when root_data is None *)
  Definition cpp_bst_new (key : option K) (root_data : option D) (comp : K -> K -> Z) (os : bool) : res ctree :=
    match key, root_data with
    | None, Some _ => Raise ValueError
    | _, _ => Ret (mkct (mkca [Some (cs_inf (cw_isroot true) (c_new_node key root_data))] 1 1 1 0) (Some 0) 1 comp os)
    end.
  (** PyObject_CallObject(bt->comparator, (key1, key2)) and PyLong_AsLongLong (BinarySearchTree.hpp 107-114 and others) *)
  Definition ccomp (b : ctree) (key1 key2 : option K) : res Z :=
    match key1, key2 with Some x, Some y => Ret (ct_comp b x y) | _, _ => undefined end.
  Definition ct_mem (b : ctree) : cmem := cr_buf (ct_arr b).
  Definition cset_mem (b : ctree) (t : cmem) : ctree :=
    let a := ct_arr b in mkct (mkca t (cr_isize a) (cr_size a) (cr_num a) (cr_last a)) (ct_root b) (ct_size b) (ct_comp b) (ct_os b).
  Definition cset_arr (b : ctree) (a : carr) : ctree := mkct a (ct_root b) (ct_size b) (ct_comp b) (ct_os b).
  Definition cset_root (b : ctree) (r : option Z) : ctree := mkct (ct_arr b) r (ct_size b) (ct_comp b) (ct_os b).
  Definition cset_size (b : ctree) (s : Z) : ctree := mkct (ct_arr b) (ct_root b) s (ct_comp b) (ct_os b).
  (** one iteration more than there are cells *)
  Definition cfuel (t : cmem) : nat := S (length t).

  (** left_size (43-52), right_size (54-63) *)
  Definition c_left_size (t : cmem) (n : cnode) : res Z := match cn_left n with None => Ret 0 | Some _ => m <- cget t (cn_left n) ;; Ret (ck_size (cn_inf m)) end.
  Definition c_right_size (t : cmem) (n : cnode) : res Z := match cn_right n with None => Ret 0 | Some _ => m <- cget t (cn_right n) ;; Ret (ck_size (cn_inf m)) end.
  (** node->size = left_size + right_size + 1 (71) *)
  Definition c_fix_size (t : cmem) (walk : option Z) : res cmem :=
    n <- cget t walk ;; l <- c_left_size t n ;; r <- c_right_size t n ;; cmod t walk (cs_inf (cw_size (l + r + 1))).
  (** _update_size (65-76) *)
  Definition c_update_size (b : ctree) (start_idx : option Z) : res ctree :=
    if ct_os b then
      t <- while_loop (cfuel (ct_mem b)) (fun '(t, walk) =>
        match walk with
        | None => Ret (Break t)
        | Some _ => t <- c_fix_size t walk ;; n <- cget t walk ;; Ret (Next (t, cn_parent n))
        end) (ct_mem b, start_idx) ;;
      Ret (cset_mem b t)
    else Ret b.

  (** search (78-132): the loop *)
  Definition c_search_loop (b : ctree) (key : K) : res (option Z * option Z) :=
    while_loop (cfuel (ct_mem b)) (fun '(walk, parent) =>
      match walk with
      | None => Ret (Break (walk, parent))
      | Some _ =>
        n <- cget (ct_mem b) walk ;;
        if sameo (cn_key n) (Some key) then Ret (Break (walk, parent))
        else
          comp <- ccomp b (Some key) (cn_key n) ;;
          Ret (Next (if comp =? 1 then cn_left n else cn_right n, walk))
      end) (ct_root b, None).
  (** search(key) *)
  Definition c_search (b : ctree) (key : K) : res (option Z) :=
    r <- cget (ct_mem b) (ct_root b) ;;
    match cn_key r with None => Ret None | Some _ => ' (walk, _) <- c_search_loop b key ;; Ret walk end.
  (** the tuple of search(key, parent=1) taken apart by PyTuple_GetItem (219-221); for None it returns NULL, which is dereferenced (228) *)
  Definition c_search_parent (b : ctree) (key : K) : res (option Z * option Z) :=
    r <- cget (ct_mem b) (ct_root b) ;;
    match cn_key r with None => undefined | Some _ => c_search_loop b key end.

  (** insert (134-206) *)
  Definition c_insert (b : ctree) (key : K) (data : option D) : res ctree :=
    r <- c_search b key ;;
    match r with
    | Some _ => t <- cmod (ct_mem b) r (cs_inf (cw_data data)) ;; Ret (cset_mem b t)
    | None =>
      root <- cget (ct_mem b) (ct_root b) ;;
      match cn_key root with
      | None => t <- cmod (ct_mem b) (ct_root b) (fun n => cs_inf (cw_data data) (cs_inf (cw_key (Some key)) n)) ;; Ret (cset_mem b t)
      | Some _ =>
        ' (b, walk) <- while_loop (cfuel (ct_mem b)) (fun '(walk, prev_node) =>
          n <- cget (ct_mem b) walk ;;
          comp <- ccomp b (Some key) (cn_key n) ;;
          if comp =? 0 then
            match cn_right n with
            | None =>
              a <- carr_append (ct_arr b) (Some (cs_parent prev_node (c_new_node (Some key) data))) ;;
              t <- cmod (cr_buf a) walk (cs_right (Some (ct_size b))) ;;
              let b := cset_size (cset_mem (cset_arr b a) t) (ct_size b + 1) in
              n <- cget t walk ;;
              Ret (Break (b, cn_right n))
            | Some _ => Ret (Next (cn_right n, cn_right n))
            end
          else
            match cn_left n with
            | None =>
              a <- carr_append (ct_arr b) (Some (cs_parent prev_node (c_new_node (Some key) data))) ;;
              t <- cmod (cr_buf a) walk (cs_left (Some (ct_size b))) ;;
              let b := cset_size (cset_mem (cset_arr b a) t) (ct_size b + 1) in
              n <- cget t walk ;;
              Ret (Break (b, cn_left n))
            | Some _ => Ret (Next (cn_left n, cn_left n))
            end) (ct_root b, ct_root b) ;;
        c_update_size b walk
      end
    end.

  (** PyDict_GetItem(new_indices, key): NULL, later dereferenced, when the key is missing *)
  Definition cdict (d : list (option Z * Z)) (k : option K) : res Z :=
    match odget d (option_map val k) with Some v => Ret v | None => undefined end.
  (** lines 245-249 and 279-283: ArrayForTrees_delete, then [a] and root_idx through the dictionary *)
  Definition c_after_delete (b : ctree) (a : option Z) (par_key root_key : option K) (r : carr * option (list (option Z * Z))) : res (ctree * option Z) :=
    let '(arr, new_indices) := r in
    let b := cset_arr b arr in
    match new_indices with
    | None => Ret (b, a)
    | Some d => a <- cdict d par_key ;; r <- cdict d root_key ;; Ret (cset_root b (Some r), Some a)
    end.
  (** delete (208-336): None if the key is absent, else the value [a] returned with balancing_info. In the last case but one the five stores
      (296-301) are one update. In the last case lines 322-323 take the root's index for the child's parent and for [a]. *)
  Definition c_delete_info (b : ctree) (key : K) : res (ctree * option (option Z)) :=
    ' (walk, parent) <- c_search_parent b key ;;
    match walk with
    | None => Ret (b, None)
    | Some _ =>
      w <- cget (ct_mem b) walk ;;
      match cn_left w, cn_right w with
      | None, None =>
        ' (b, a) <- (match parent with
          | None =>
            t <- cmod (ct_mem b) (ct_root b) (fun n => cs_inf (cw_key None) (cs_inf (cw_data None) n)) ;;
            Ret (cset_mem b t, None)
          | Some _ =>
            p <- cget (ct_mem b) parent ;;
            t <- (if oeqb (cn_left p) walk then cmod (ct_mem b) parent (cs_left None) else cmod (ct_mem b) parent (cs_right None)) ;;
            let b := cset_mem b t in
            p <- cget t parent ;; rt <- cget t (ct_root b) ;;
            r <- carr_delete (ct_arr b) walk ;;
            c_after_delete b parent (cn_key p) (cn_key rt) r
          end) ;;
        b <- c_update_size b a ;;
        Ret (b, Some a)
      | Some _, Some _ =>
        ' (twalk, par, flag) <- while_loop (cfuel (ct_mem b)) (fun '(twalk, par, flag) =>
          n <- cget (ct_mem b) twalk ;;
          match cn_left n with
          | None => Ret (Break (twalk, par, flag))
          | Some _ => Ret (Next (cn_left n, twalk, true))
          end) (cn_right w, walk, false) ;;
        n <- cget (ct_mem b) twalk ;;
        t <- cmod (ct_mem b) walk (fun m => cs_inf (cw_key (cn_key n)) (cs_inf (cw_data (ck_data (cn_inf n))) m)) ;;
        n <- cget t twalk ;;
        t <- (if flag : bool then cmod t par (cs_left (cn_right n)) else cmod t par (cs_right (cn_right n))) ;;
        n <- cget t twalk ;;
        t <- (match cn_right n with Some _ => cmod t (cn_right n) (cs_parent par) | None => Ret t end) ;;
        let b := cset_mem b t in
        p <- cget t par ;; rt <- cget t (ct_root b) ;;
        r <- carr_delete (ct_arr b) twalk ;;
        ' (b, a) <- c_after_delete b par (cn_key p) (cn_key rt) r ;;
        b <- c_update_size b a ;;
        Ret (b, Some a)
      | _, _ =>
        let child := match cn_left w with Some _ => cn_left w | None => cn_right w end in
        match parent with
        | None =>
          c <- cget (ct_mem b) child ;;
          t <- cmod (ct_mem b) (ct_root b) (fun m => mkcn (cw_key (cn_key c) (cw_data (ck_data (cn_inf c)) (cn_inf m))) (cn_left c) (cn_right c) None) ;;
          let b := cset_mem b t in
          rt <- cget t (ct_root b) ;;
          ' (arr, new_indices) <- carr_delete (ct_arr b) child ;;
          let b := cset_arr b arr in
          b <- (match new_indices with None => Ret b | Some d => r <- cdict d (cn_key rt) ;; Ret (cset_root b (Some r)) end) ;;
          Ret (b, Some None)
        | Some _ =>
          p <- cget (ct_mem b) parent ;;
          t <- (if oeqb (cn_left p) walk then cmod (ct_mem b) parent (cs_left child) else cmod (ct_mem b) parent (cs_right child)) ;;
          t <- cmod t child (cs_parent parent) ;;
          let b := cset_mem b t in
          p <- cget t parent ;; rt <- cget t (ct_root b) ;;
          ' (arr, new_indices) <- carr_delete (ct_arr b) walk ;;
          let b := cset_arr b arr in
          ' (b, a) <- (match new_indices with
            | None => Ret (b, parent)
            | Some d =>
              r <- cdict d (cn_key rt) ;;
              t <- cmod (ct_mem b) child (cs_parent (Some r)) ;;
              Ret (cset_root (cset_mem b t) (Some r), Some r)
            end) ;;
          b <- c_update_size b a ;;
          Ret (b, Some a)
        end
      end
    end.
  (** delete without balancing_info: None or True *)
  Definition c_delete (b : ctree) (key : K) : res (ctree * bool) :=
    ' (b, a) <- c_delete_info b key ;; Ret (b, negb (is_none a)).

  (** _bound_helper (338-384) *)
  Fixpoint c_bound_helper (f : nat) (b : ctree) (node_idx : option Z) (bound_key : K) (is_upper : bool) : res (option K) :=
    match f with
    | O => OutOfFuel
    | S f =>
      match node_idx with
      | None => Ret None
      | Some _ =>
        n <- cget (ct_mem b) node_idx ;;
        match cn_key n with
        | None => Ret None
        | Some _ =>
          if sameo (cn_key n) (Some bound_key) then
            if negb is_upper then Ret (cn_key n) else c_bound_helper f b (cn_right n) bound_key is_upper
          else
            comp <- ccomp b (cn_key n) (Some bound_key) ;;
            if comp =? 1 then c_bound_helper f b (cn_right n) bound_key is_upper
            else
              res_bound <- c_bound_helper f b (cn_left n) bound_key is_upper ;;
              Ret (match res_bound with Some _ => res_bound | None => cn_key n end)
        end
      end
    end.
  (** lower_bound (386-389), upper_bound (391-394) *)
  Definition c_lower_bound (b : ctree) (key : K) : res (option K) := c_bound_helper (cfuel (ct_mem b)) b (ct_root b) key false.
  Definition c_upper_bound (b : ctree) (key : K) : res (option K) := c_bound_helper (cfuel (ct_mem b)) b (ct_root b) key true.

  (** _simple_path (396-429); [hit] says whether the key object looked for is the one in the node. The std::stack holds C longs. *)
  Definition c_simple_path (b : ctree) (hit : option K -> bool) (root : option Z) : res (list Z) :=
    let t := ct_mem b in
    root <- (match root with Some r => Ret r | None => undefined end) ;;
    node_idx <- while_loop (cfuel t) (fun stack =>
      match stack with
      | [] => Ret (Break (-1))
      | nd :: stack =>
        n <- cget t (Some nd) ;;
        if hit (cn_key n) then Ret (Break nd)
        else
          let stack := match cn_left n with Some l => l :: stack | None => stack end in
          let stack := match cn_right n with Some r => r :: stack | None => stack end in
          Ret (Next stack)
      end) [root] ;;
    if node_idx =? -1 then Ret []
    else
      while_loop (cfuel t) (fun '(node_idx, path) =>
        if node_idx =? 0 then Ret (Break (rev (path ++ [0])))
        else
          n <- cget t (Some node_idx) ;;
          match cn_parent n with Some p => Ret (Next (p, path ++ [node_idx])) | None => undefined end) (node_idx, []).
  (** a key object made by PyLong_FromLong(j) is the node's key object only for the cached ints (436-437) *)
  Definition fresh_key (j : Z) (k : option K) : bool := match k with Some k => (val k =? j) && cached j | None => false end.
  (** _lca_1 (431-465): the path lists hold objects made by PyLong_FromLong (423, 426), compared as pointers (447). The second loop (454-463)
      has the condition of the first, so it is not entered. *)
  Definition c_lca_1 (b : ctree) (j k : K) : res (option K) :=
    let t := ct_mem b in
    path1 <- c_simple_path b (fresh_key (val j)) (ct_root b) ;;
    path2 <- c_simple_path b (fresh_key (val k)) (ct_root b) ;;
    let n := len path1 in let m := len path2 in
    if (n =? 0) || (m =? 0) then Raise ValueError
    else while_loop (S (length path1)) (fun i =>
      if (i <? n) && (i <? m) then
        x <- rawget (map Some path1) i ;; y <- rawget (map Some path2) i ;;
        if negb (oeqb x y && match x with Some x => cached x | None => false end)
        then p <- rawget (map Some path1) (i - 1) ;; nd <- cget t p ;; Ret (Break (cn_key nd))
        else Ret (Next (i + 1))
      else
        p <- rawget (map Some path2) (m - 1) ;; nd <- cget t p ;; Ret (Break (cn_key nd))) 0.
  (** _lca_2 (467-553) *)
  Definition c_lca_2 (b : ctree) (j k : K) : res (option K) :=
    let t := ct_mem b in
    u <- c_search b j ;; v <- c_search b k ;;
    match u, v with
    | Some _, Some _ =>
      un <- cget t u ;; vn <- cget t v ;; rt <- cget t (ct_root b) ;;
      u_left <- ccomp b (cn_key un) (cn_key rt) ;;
      v_left <- ccomp b (cn_key vn) (cn_key rt) ;;
      while_loop (cfuel t) (fun '(curr_root, u_left, v_left) =>
        if Z.lxor u_left v_left =? 0 then
          c <- cget t curr_root ;;
          let curr_root := if negb (u_left =? 0) && negb (v_left =? 0) then cn_left c else cn_right c in
          if oeqb curr_root u || oeqb curr_root v then
            match curr_root with None => Ret (Break None) | Some _ => c <- cget t curr_root ;; Ret (Break (cn_key c)) end
          else
            c <- cget t curr_root ;;
            u_left <- ccomp b (cn_key un) (cn_key c) ;;
            v_left <- ccomp b (cn_key vn) (cn_key c) ;;
            Ret (Next (curr_root, u_left, v_left))
        else
          match curr_root with None => Ret (Break None) | Some _ => c <- cget t curr_root ;; Ret (Break (cn_key c)) end) (ct_root b, u_left, v_left)
    | _, _ => Raise ValueError
    end.

  (** rank (573-589) *)
  Definition c_rank (b : ctree) (x : K) : res (option Z) :=
    let t := ct_mem b in
    walk <- c_search b x ;;
    match walk with
    | None => Ret None
    | Some _ =>
      n <- cget t walk ;;
      l <- c_left_size t n ;;
      while_loop (cfuel t) (fun '(walk, r) =>
        n <- cget t walk ;; rt <- cget t (ct_root b) ;;
        if sameo (cn_key n) (cn_key rt) then Ret (Break (Some r))
        else
          let p := cn_parent n in
          pn <- cget t p ;;
          if oeqb walk (cn_right pn) then l <- c_left_size t pn ;; Ret (Next (p, r + (l + 1)))
          else Ret (Next (p, r))) (walk, l + 1)
    end.
  (** select (591-660): the child is read before it is known to exist (620, 641) *)
  Definition c_select (b : ctree) (i : Z) : res (option cnode) :=
    let t := ct_mem b in
    let i := i - 1 in
    if i <? 0 then Raise ValueError
    else if cr_num (ct_arr b) <=? i then Raise ValueError
    else while_loop (cfuel t) (fun '(walk, i) =>
      match walk with
      | None => Ret (Break None)
      | Some _ =>
        n <- cget t walk ;;
        l <- c_left_size t n ;;
        if i =? l then Ret (Break (Some n))
        else
          match cn_left n, cn_right n with
          | None, None => Raise IndexError
          | _, _ =>
            if i <? l then
              m <- cget t (cn_left n) ;; comp <- ccomp b (cn_key m) (cn_key n) ;;
              Ret (Next (if negb (is_none (cn_left n)) && negb (comp =? 0) then cn_left n else cn_right n, i))
            else
              m <- cget t (cn_right n) ;; comp <- ccomp b (cn_key m) (cn_key n) ;;
              Ret (Next (if negb (is_none (cn_right n)) && (comp =? 0) then cn_right n else cn_left n, i - (l + 1)))
          end
      end) (ct_root b, i).

  (** ** SelfBalancingBinaryTree.hpp: rotations, on the nodes and root_idx *)
  (** the parent's link (97-102, 124-129, 168-173, 209-214) *)
  Definition c_relink (t : cmem) (p j k : option Z) : res cmem :=
    pn <- cget t p ;;
    if oeqb (cn_left pn) j then cmod t p (cs_left k) else cmod t p (cs_right k).
  (** _right_rotate (86-111) *)
  Definition c_right_rotate (t : cmem) (root : option Z) (j k : option Z) : res (cmem * option Z) :=
    kn <- cget t k ;;
    let y := cn_right kn in
    t <- (match y with Some _ => cmod t y (cs_parent j) | None => Ret t end) ;;
    t <- cmod t j (cs_left y) ;;
    jn <- cget t j ;;
    t <- cmod t k (cs_parent (cn_parent jn)) ;;
    kn <- cget t k ;;
    t <- (match cn_parent kn with Some _ => c_relink t (cn_parent kn) j k | None => Ret t end) ;;
    t <- cmod t j (cs_parent k) ;;
    t <- cmod t k (cs_right j) ;;
    kn <- cget t k ;;
    Ret (t, match cn_parent kn with None => k | Some _ => root end).
  (** _left_rotate (113-138) *)
  Definition c_left_rotate (t : cmem) (root : option Z) (j k : option Z) : res (cmem * option Z) :=
    kn <- cget t k ;;
    let y := cn_left kn in
    t <- (match y with Some _ => cmod t y (cs_parent j) | None => Ret t end) ;;
    t <- cmod t j (cs_right y) ;;
    jn <- cget t j ;;
    t <- cmod t k (cs_parent (cn_parent jn)) ;;
    kn <- cget t k ;;
    t <- (match cn_parent kn with Some _ => c_relink t (cn_parent kn) j k | None => Ret t end) ;;
    t <- cmod t j (cs_parent k) ;;
    t <- cmod t k (cs_left j) ;;
    kn <- cget t k ;;
    Ret (t, match cn_parent kn with None => k | Some _ => root end).
  (** _left_right_rotate (140-179); the three stores 159-161 are one update *)
  Definition c_left_right_rotate (t : cmem) (root : option Z) (j k : option Z) : res (cmem * option Z) :=
    kn <- cget t k ;;
    let i := cn_right kn in
    in_ <- cget t i ;;
    let v := cn_left in_ in
    let w := cn_right in_ in
    t <- cmod t k (cs_right v) ;;
    t <- cmod t j (cs_left w) ;;
    t <- (match v with Some _ => cmod t v (cs_parent k) | None => Ret t end) ;;
    t <- (match w with Some _ => cmod t w (cs_parent j) | None => Ret t end) ;;
    jn <- cget t j ;;
    t <- cmod t i (fun n => mkcn (cn_inf n) k j (cn_parent jn)) ;;
    t <- cmod t k (cs_parent i) ;;
    t <- cmod t j (cs_parent i) ;;
    in_ <- cget t i ;;
    match cn_parent in_ with
    | Some _ => t <- c_relink t (cn_parent in_) j i ;; Ret (t, root)
    | None => Ret (t, i)
    end.
  (** _right_left_rotate (181-220); the three stores 200-202 are one update *)
  Definition c_right_left_rotate (t : cmem) (root : option Z) (j k : option Z) : res (cmem * option Z) :=
    kn <- cget t k ;;
    let i := cn_left kn in
    in_ <- cget t i ;;
    let v := cn_left in_ in
    let w := cn_right in_ in
    t <- cmod t k (cs_left w) ;;
    t <- cmod t j (cs_right v) ;;
    t <- (match v with Some _ => cmod t v (cs_parent j) | None => Ret t end) ;;
    t <- (match w with Some _ => cmod t w (cs_parent k) | None => Ret t end) ;;
    jn <- cget t j ;;
    t <- cmod t i (fun n => mkcn (cn_inf n) j k (cn_parent jn)) ;;
    t <- cmod t k (cs_parent i) ;;
    t <- cmod t j (cs_parent i) ;;
    in_ <- cget t i ;;
    match cn_parent in_ with
    | Some _ => t <- c_relink t (cn_parent in_) j i ;; Ret (t, root)
    | None => Ret (t, i)
    end.
  (** the method applied to the object *)
  Definition crot (f : cmem -> option Z -> option Z -> option Z -> res (cmem * option Z)) (b : ctree) (j k : option Z) : res ctree :=
    ' (t, r) <- f (ct_mem b) (ct_root b) j k ;; Ret (cset_root (cset_mem b t) r).
  Definition con_mem (f : cmem -> res cmem) (b : ctree) : res ctree := t <- f (ct_mem b) ;; Ret (cset_mem b t).

  (** ** AVLTree.hpp *)
  (** left_height (54-63), right_height (65-74) *)
  Definition c_left_height (t : cmem) (n : cnode) : res Z := match cn_left n with None => Ret (-1) | Some _ => m <- cget t (cn_left n) ;; Ret (ck_height (cn_inf m)) end.
  Definition c_right_height (t : cmem) (n : cnode) : res Z := match cn_right n with None => Ret (-1) | Some _ => m <- cget t (cn_right n) ;; Ret (ck_height (cn_inf m)) end.
  (** balance_factor (76-79) *)
  Definition c_balance_factor (t : cmem) (n : cnode) : res Z := r <- c_right_height t n ;; l <- c_left_height t n ;; Ret (r - l).
  (** N(i)->height = max(lh, rh) + 1 (87-89 and others) *)
  Definition c_fix_height (t : cmem) (i : option Z) : res cmem :=
    n <- cget t i ;; l <- c_left_height t n ;; r <- c_right_height t n ;; cmod t i (cs_inf (cw_height (Z.max l r + 1))).
  (** if (bt->is_order_statistic == true) N(i)->size = ls + rs + 1 (91-95 and others) *)
  Definition c_os_size (b : ctree) (i : option Z) : res ctree := if ct_os b then con_mem (fun t => c_fix_size t i) b else Ret b.
  (** _right_rotate (81-98) *)
  Definition c_avl_right_rotate (b : ctree) (j k : option Z) : res ctree :=
    b <- crot c_right_rotate b j k ;; b <- con_mem (fun t => c_fix_height t j) b ;; c_os_size b j.
  (** _left_right_rotate (100-125) *)
  Definition c_avl_left_right_rotate (b : ctree) (j k : option Z) : res ctree :=
    b <- crot c_left_right_rotate b j k ;; b <- con_mem (fun t => c_fix_height t j) b ;; b <- con_mem (fun t => c_fix_height t k) b ;; b <- c_os_size b j ;; c_os_size b k.
  (** _right_left_rotate (127-152) *)
  Definition c_avl_right_left_rotate (b : ctree) (j k : option Z) : res ctree :=
    b <- crot c_right_left_rotate b j k ;; b <- con_mem (fun t => c_fix_height t j) b ;; b <- con_mem (fun t => c_fix_height t k) b ;; b <- c_os_size b j ;; c_os_size b k.
  (** _left_rotate (154-175) *)
  Definition c_avl_left_rotate (b : ctree) (j k : option Z) : res ctree :=
    b <- crot c_left_rotate b j k ;; b <- con_mem (fun t => c_fix_height t j) b ;; b <- con_mem (fun t => c_fix_height t k) b ;; c_os_size b j.
  (** an index object of the queue [path], marked if it was made by PyLong_FromLong in insert (241) *)
  Definition pix : Type := option Z * bool.
  Definition ixsame (x : option Z) (y : pix) : bool :=
    oeqb x (fst y) && (negb (snd y) || match x with Some x => cached x | None => true end).
  (** x != Py_None && x == last && N(x)->f == last2last (205, 210, 214, 218) *)
  Definition c_hangs (t : cmem) (x : option Z) (last : pix) (f : cnode -> option Z) (last2last : pix) : res bool :=
    match x with
    | None => Ret false
    | Some _ => if ixsame x last then n <- cget t x ;; Ret (ixsame (f n) last2last) else Ret false
    end.
  (** lines 202-221 of _balance_insertion *)
  Definition c_rebalance (b : ctree) (walk : option Z) (last last2last : pix) : res ctree :=
    n <- cget (ct_mem b) walk ;;
    bf <- c_balance_factor (ct_mem b) n ;;
    if negb (bf =? 1) && negb (bf =? 0) && negb (bf =? -1) then
      let l := cn_left n in
      c <- c_hangs (ct_mem b) l last cn_left last2last ;;
      b <- (if c : bool then c_avl_right_rotate b walk (fst last) else Ret b) ;;
      n <- cget (ct_mem b) walk ;;
      let r := cn_right n in
      c <- c_hangs (ct_mem b) r last cn_right last2last ;;
      b <- (if c : bool then c_avl_left_rotate b walk (fst last) else Ret b) ;;
      c <- c_hangs (ct_mem b) l last cn_right last2last ;;
      b <- (if c : bool then c_avl_left_right_rotate b walk (fst last) else Ret b) ;;
      c <- c_hangs (ct_mem b) r last cn_left last2last ;;
      if c : bool then c_avl_right_left_rotate b walk (fst last) else Ret b
    else Ret b.
  (** _balance_insertion (177-228); the std::queue is a list *)
  Definition c_balance_insertion (b : ctree) (curr last : option Z) : res ctree :=
    while_loop (2 * cfuel (ct_mem b)) (fun '(b, walk, path) =>
      match walk with
      | None => Ret (Break b)
      | Some _ =>
        b <- con_mem (fun t => c_fix_height t walk) b ;;
        b <- c_os_size b walk ;;
        match path with
        | last :: last2last :: path =>
          b <- c_rebalance b walk last last2last ;;
          n <- cget (ct_mem b) walk ;;
          Ret (Next (b, cn_parent n, path ++ [(walk, false); last]))
        | _ => undefined
        end
      end) (b, last, [(curr, true); (last, false)]).
  (** insert (230-244) *)
  Definition c_avl_insert (b : ctree) (key : K) (data : option D) : res ctree :=
    b <- c_insert b key data ;;
    n <- cget (ct_mem b) (Some (ct_size b - 1)) ;;
    c_balance_insertion b (Some (ct_size b - 1)) (cn_parent n).
  (** _balance_delete (254-296) *)
  Definition c_balance_deletion (b : ctree) (start_idx : option Z) : res ctree :=
    while_loop (2 * cfuel (ct_mem b)) (fun '(b, walk) =>
      match walk with
      | None => Ret (Break b)
      | Some _ =>
        b <- con_mem (fun t => c_fix_height t walk) b ;;
        b <- c_os_size b walk ;;
        n <- cget (ct_mem b) walk ;;
        bf <- c_balance_factor (ct_mem b) n ;;
        b <- (if negb (bf =? 1) && negb (bf =? 0) && negb (bf =? -1) then
          if bf <? 0 then
            let c := cn_left n in
            cn <- cget (ct_mem b) c ;; bc <- c_balance_factor (ct_mem b) cn ;;
            if bc <=? 0 then c_avl_right_rotate b walk c else c_avl_left_right_rotate b walk c
          else
            let c := cn_right n in
            cn <- cget (ct_mem b) c ;; bc <- c_balance_factor (ct_mem b) cn ;;
            if 0 <=? bc then c_avl_left_rotate b walk c else c_avl_right_left_rotate b walk c
        else Ret b) ;;
        n <- cget (ct_mem b) walk ;;
        Ret (Next (b, cn_parent n))
      end) (b, start_idx).
  (** delete (298-307): returns True whatever happens *)
  Definition c_avl_delete (b : ctree) (key : K) : res (ctree * bool) :=
    ' (b, a) <- c_delete_info b key ;;
    b <- c_balance_deletion b (match a with Some a => a | None => None end) ;;
    Ret (b, true).

  (** ** BinaryTreeTraversal.hpp: the infos of the visited nodes. Stacks and the queue of longs or index objects are lists. *)
  (** _pre_order (81-102) *)
  Definition c_pre_order (t : cmem) (start : option Z) : res (list cinfo) :=
    start <- (match start with Some i => Ret i | None => undefined end) ;;
    while_loop (cfuel t) (fun '(s, visit) =>
      match s with
      | [] => Ret (Break visit)
      | nd :: s =>
        n <- cget t (Some nd) ;;
        let s := match cn_right n with Some r => r :: s | None => s end in
        let s := match cn_left n with Some l => l :: s | None => s end in
        Ret (Next (s, visit ++ [cn_inf n]))
      end) ([start], []).
  (** _in_order (104-125) *)
  Definition c_in_order (t : cmem) (start : option Z) : res (list cinfo) :=
    while_loop (2 * cfuel t) (fun '(s, nd, visit) =>
      match nd, s with
      | Some _, _ => n <- cget t nd ;; Ret (Next (nd :: s, cn_left n, visit))
      | None, [] => Ret (Break visit)
      | None, nd :: s => n <- cget t nd ;; Ret (Next (s, cn_right n, visit ++ [cn_inf n]))
      end) ([], start, []).
  (** _post_order (127-165); [last] is a list of [size] ints. Outside it PyList_GetItem and PyList_SetItem fail without being noticed, and
      the loop does not end: undefined *)
  Definition c_post_order (t : cmem) (size : Z) (start : option Z) : res (list cinfo) :=
    let done (last : list bool) (i : option Z) : res bool := match i with None => Ret true | Some i => b <- rawget (map Some last) i ;; match b with Some b => Ret b | None => undefined end end in
    while_loop (2 * cfuel t) (fun '(s, last, visit) =>
      match s with
      | [] => Ret (Break visit)
      | nd :: s' =>
        n <- cget t nd ;;
        cl <- done last (cn_left n) ;;
        cr <- done last (cn_right n) ;;
        if cl && cr then
          last <- (match nd with Some i => if (i <? 0) || (len last <=? i) then undefined else Ret (upd last (Z.to_nat i) true) | None => undefined end) ;;
          Ret (Next (s', last, visit ++ [cn_inf n]))
        else
          let s := if negb cr then cn_right n :: s else s in
          let s := if negb cl then cn_left n :: s else s in
          Ret (Next (s, last, visit))
      end) ([start], repeat false (Z.to_nat size), []).
  (** _out_order (167-172) *)
  Definition c_out_order (t : cmem) (start : option Z) : res (list cinfo) := v <- c_in_order t start ;; Ret (rev v).
  (** breadth_first_search (203-237) *)
  Definition c_bfs (t : cmem) (start : option Z) : res (list cinfo) :=
    while_loop (cfuel t) (fun '(q, visit) =>
      match q with
      | [] => Ret (Break visit)
      | nd :: q =>
        n <- cget t nd ;;
        let q := match cn_left n with Some _ => q ++ [cn_left n] | None => q end in
        let q := match cn_right n with Some _ => q ++ [cn_right n] | None => q end in
        Ret (Next (q, visit ++ [cn_inf n]))
      end) ([start], []).
End CppTree.
Arguments cmem : clear implicits.
