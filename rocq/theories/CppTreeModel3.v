(** Model of join and split of the C++ backend of SplayTree (pydatastructs/trees/_backend/cpp/SplayTree.hpp 163-285), on top of CppTreeModel2.v. *)
From Verif Require Import Base TreeModel CppArrayModel CppTreeModel CppTreeModel2.

Section CppTree3.
  Context {K D : Type} (same : K -> K -> bool) (val : K -> Z).
  Notation cinfo := (cinfo K D). Notation cnode := (cnode K D). Notation carr := (carr K D). Notation ctree := (ctree K D). Notation cmem := (cmem K D).
  (** the two loops at the start of join (168-175) *)
  Definition c_follow (f : cnode -> option Z) (t : cmem) (start : option Z) : res (option Z) :=
    while_loop (cfuel t) (fun i => n <- cget t i ;; match f n with Some _ => Ret (Next (f n)) | None => Ret (Break i) end) start.
  (** node_copy (199-210): key and data, no parent, links moved by idx_update *)
  Definition c_copy_node (idx_update : Z) (n : cnode) : cnode :=
    mkcn (mkci (cn_key n) (ck_data (cn_inf n)) 0 1 false None None) (option_map (fun i => i + idx_update) (cn_left n)) (option_map (fun i => i + idx_update) (cn_right n)) None.
  (** join (163-220). [other] is another object than [self]. idx_update and n are the _size of the inner arrays. *)
  Definition c_splay_join (b other : ctree) : res ctree :=
    maxm <- c_follow cn_right (ct_mem b) (ct_root b) ;;
    minm <- c_follow cn_left (ct_mem other) (ct_root other) ;;
    x <- cget (ct_mem b) maxm ;; y <- cget (ct_mem other) minm ;;
    comp <- ccomp b (cn_key x) (cn_key y) ;;
    if comp =? 0 then Raise ValueError else
    b <- c_splay b maxm (cn_parent x) ;;
    let idx_update := cr_isize (ct_arr b) in
    arr <- forM (zrange 0 (cr_isize (ct_arr other))) (fun i arr => c <- rawget (ct_mem other) i ;; carr_append val arr (option_map (c_copy_node idx_update) c)) (ct_arr b) ;;
    match ct_root other with
    | None => undefined
    | Some r => t <- cmod (cr_buf arr) (ct_root b) (cs_right (Some (r + idx_update))) ;; Ret (cset_mem (cset_arr b arr) t)
    end.
  (** the key of a visited node; every visited node has one (a node without a key is a root, and split is not past its search then) *)
  Definition c_key_of (x : cinfo) : res K := match ck_key x with Some k => Ret k | None => undefined end.
  (** the second loop of split (275-280), from the last element to the first *)
  Definition c_clear_nodes (b : ctree) (els : list cinfo) : res ctree :=
    forM (rev els) (fun x b =>
      k <- c_key_of x ;;
      ' (e, _) <- c_search_parent same b k ;;
      match e with
      | None => undefined
      | Some i => t <- rawset (ct_mem b) i None ;; Ret (cset_mem b t)
      end) b.
  (** split (245-285): the tree afterwards, and what is returned (None, or the new tree, which never keeps order statistics). _pre_order (222-243) is the
      loop of c_pre_order; the inserts into [other] are BinarySearchTree_insert. *)
  Definition c_splay_split (b : ctree) (x : K) : res (ctree * option ctree) :=
    ' (e, p) <- c_search_parent same b x ;;
    match e with
    | None => Ret (b, None)
    | Some _ =>
      b <- c_splay b e p ;;
      other <- cpp_bst_new None None (ct_comp b) false ;;
      rt <- cget (ct_mem b) (ct_root b) ;;
      match cn_right rt with
      | None => Ret (b, Some other)
      | Some _ =>
        elements <- c_pre_order (ct_mem b) (cn_right rt) ;;
        other <- forM elements (fun el other => k <- c_key_of el ;; c_insert same val other k (ck_data el)) other ;;
        b <- c_clear_nodes b elements ;;
        t <- cmod (ct_mem b) (ct_root b) (cs_right None) ;;
        Ret (cset_mem b t, Some other)
      end
    end.
End CppTree3.
