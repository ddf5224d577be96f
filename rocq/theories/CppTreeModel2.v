(** Model of the C++ backend of CartesianTree, Treap, SplayTree and RedBlackTree (pydatastructs/trees/_backend/cpp/CartesianTree.hpp, Treap.hpp,
    SplayTree.hpp, RedBlackTree.hpp), on top of CppTreeModel.v. A node read twice between two stores is read once here. *)
From Verif Require Import Base TreeModel CppArrayModel CppTreeModel.

Section CppTree2.
  Context {K D : Type} (same : K -> K -> bool) (val : K -> Z).
  Notation cinfo := (cinfo K D). Notation cnode := (cnode K D). Notation carr := (carr K D). Notation ctree := (ctree K D). Notation cmem := (cmem K D).

  (** ** SplayTree.hpp *)
  (** _zig (46-59), _zig_zig (61-70), _zig_zag (72-79), _zag_zag (81-90), _zag_zig (92-99) *)
  Definition c_zig (b : ctree) (x p : option Z) : res ctree :=
    pn <- cget (ct_mem b) p ;; if oeqb (cn_left pn) x then crot c_right_rotate b p x else crot c_left_rotate b p x.
  Definition c_zig_zig (b : ctree) (x p : option Z) : res ctree :=
    pn <- cget (ct_mem b) p ;; b <- crot c_right_rotate b (cn_parent pn) p ;; crot c_right_rotate b p x.
  Definition c_zig_zag (b : ctree) (p : option Z) : res ctree := pn <- cget (ct_mem b) p ;; crot c_left_right_rotate b (cn_parent pn) p.
  Definition c_zag_zag (b : ctree) (x p : option Z) : res ctree :=
    pn <- cget (ct_mem b) p ;; b <- crot c_left_rotate b (cn_parent pn) p ;; crot c_left_rotate b p x.
  Definition c_zag_zig (b : ctree) (p : option Z) : res ctree := pn <- cget (ct_mem b) p ;; crot c_right_left_rotate b (cn_parent pn) p.
  (** splay (101-126) *)
  Definition c_splay (b : ctree) (x p : option Z) : res ctree :=
    while_loop (cfuel (ct_mem b)) (fun '(b, p) =>
      xn <- cget (ct_mem b) x ;;
      match cn_parent xn with
      | None => Ret (Break b)
      | Some _ =>
        pn <- cget (ct_mem b) p ;;
        b <- (match cn_parent pn with
          | None => c_zig b x p
          | Some _ =>
            g <- cget (ct_mem b) (cn_parent pn) ;;
            if oeqb (cn_left pn) x && oeqb (cn_left g) p then c_zig_zig b x p
            else if oeqb (cn_right pn) x && oeqb (cn_right g) p then c_zag_zag b x p
            else if oeqb (cn_left pn) x && oeqb (cn_right g) p then c_zag_zig b p
            else c_zig_zag b p
          end) ;;
        xn <- cget (ct_mem b) x ;;
        Ret (Next (b, cn_parent xn))
      end) (b, p).
  (** insert (128-143) *)
  Definition c_splay_insert (b : ctree) (key : K) (data : option D) : res ctree :=
    b <- c_insert same val b key data ;;
    ' (e, p) <- c_search_parent same b key ;;
    t <- cmod (ct_mem b) (Some (ct_size b - 1)) (cs_parent p) ;;
    c_splay (cset_mem b t) e p.
  (** delete (145-161): whether it returned True (None if the key is absent) *)
  Definition c_splay_delete (b : ctree) (key : K) : res (ctree * bool) :=
    ' (e, p) <- c_search_parent same b key ;;
    match e with
    | None => Ret (b, false)
    | Some _ => b <- c_splay b e p ;; c_delete same val b key
    end.

  (** ** CartesianTree.hpp, Treap.hpp *)
  (** node->priority: the node is allocated by tp_alloc, which clears it, so 0.0 until it is set. The doubles are only compared; here they are integers. *)
  Definition c_prio (n : cnode) : Z := match ck_prio (cn_inf n) with Some p => p | None => 0 end.
  (** _bubble_up (47-71): line 52 reads the parent's cell before it is known that there is a parent *)
  Definition c_bubble_up (b : ctree) (node_idx : option Z) : res ctree :=
    n <- cget (ct_mem b) node_idx ;;
    _ <- (match cn_parent n with None => undefined | Some p => rawget (ct_mem b) p end) ;;
    b <- while_loop (cfuel (ct_mem b)) (fun b =>
      n <- cget (ct_mem b) node_idx ;;
      match cn_parent n with
      | None => Ret (Break b)
      | Some _ =>
        pn <- cget (ct_mem b) (cn_parent n) ;;
        if c_prio n <? c_prio pn then
          b <- (if oeqb (cn_right pn) node_idx then crot c_left_rotate b (cn_parent n) node_idx else crot c_right_rotate b (cn_parent n) node_idx) ;;
          Ret (Next b)
        else Ret (Break b)
      end) b ;;
    n <- cget (ct_mem b) node_idx ;;
    match cn_parent n with
    | None => con_mem (fun t => cmod t node_idx (cs_inf (cw_isroot true))) b
    | Some _ => Ret b
    end.
  (** _trickle_down (73-93) *)
  Definition c_trickle_down (b : ctree) (node_idx : option Z) : res ctree :=
    while_loop (cfuel (ct_mem b)) (fun b =>
      n <- cget (ct_mem b) node_idx ;;
      match cn_left n, cn_right n with
      | None, None => Ret (Break b)
      | None, Some _ => b <- crot c_left_rotate b node_idx (cn_right n) ;; Ret (Next b)
      | Some _, None => b <- crot c_right_rotate b node_idx (cn_left n) ;; Ret (Next b)
      | Some _, Some _ =>
        l <- cget (ct_mem b) (cn_left n) ;; r <- cget (ct_mem b) (cn_right n) ;;
        b <- (if c_prio l <? c_prio r then crot c_right_rotate b node_idx (cn_left n) else crot c_left_rotate b node_idx (cn_right n)) ;;
        Ret (Next b)
      end) b.
  (** the new TreeNode with the links of the node it replaces (113-118) *)
  Definition c_cart_node (key : K) (priority : Z) (data : option D) (n : cnode) : cnode :=
    mkcn (mkci (Some key) data 0 1 false (Some priority) None) (cn_left n) (cn_right n) (cn_parent n).
  (** insert (95-127) *)
  Definition c_cart_insert (b : ctree) (key : K) (priority : Z) (data : option D) : res ctree :=
    b <- c_insert same val b key data ;;
    node_idx <- c_search same b key ;;
    n <- cget (ct_mem b) node_idx ;;
    b <- con_mem (fun t => cmod t node_idx (c_cart_node key priority data)) b ;;
    if ck_isroot (cn_inf n) then con_mem (fun t => cmod t node_idx (cs_inf (cw_isroot true))) b
    else c_bubble_up b node_idx.
  (** delete (129-145): whether it returned True (None if the key is absent) *)
  Definition c_cart_delete (b : ctree) (key : K) : res (ctree * bool) :=
    node_idx <- c_search same b key ;;
    match node_idx with
    | None => Ret (b, false)
    | Some _ => b <- c_trickle_down b node_idx ;; c_delete same val b key
    end.
  (** Treap insert (Treap.hpp 52-63): [priority] is what rand() leads to *)
  Definition c_treap_insert (b : ctree) (key : K) (data : option D) (priority : Z) : res ctree := c_cart_insert b key priority data.

  (** ** RedBlackTree.hpp *)
  (** node->color: 1 until it is set (TreeNode.hpp 48) *)
  Definition c_color (n : cnode) : Z := match ck_color (cn_inf n) with Some c => c | None => 1 end.
  (** _get_parent (43-48), _get_sibling (59-79), _is_onleft (89-98) *)
  Definition c_get_parent (t : cmem) (i : option Z) : res (option Z) := n <- cget t i ;; Ret (cn_parent n).
  Definition c_get_sibling (t : cmem) (i : option Z) : res (option Z) :=
    p <- c_get_parent t i ;;
    match p with None => Ret None | Some _ => pn <- cget t p ;; Ret (if oeqb i (cn_left pn) then cn_right pn else cn_left pn) end.
  Definition c_is_onleft (t : cmem) (i : option Z) : res bool := p <- c_get_parent t i ;; pn <- cget t p ;; Ret (oeqb (cn_left pn) i).
  (** N(i)->color == 1 *)
  Definition c_is_red (t : cmem) (i : option Z) : res bool := n <- cget t i ;; Ret (c_color n =? 1).
  (** N(i)->color = c; N(bt->root_idx)->is_root = v *)
  Definition c_paint (c : Z) (i : option Z) (b : ctree) : res ctree := con_mem (fun t => cmod t i (cs_inf (cw_color c))) b.
  Definition c_flag_root (v : bool) (b : ctree) : res ctree := con_mem (fun t => cmod t (ct_root b) (cs_inf (cw_isroot v))) b.
  (** the branch of __fix_insert for a black or missing uncle (123-146); the node it continues with. _is_onright is the negation of _is_onleft (100-106). *)
  Definition c_rotate_insert (b : ctree) (node_idx parent_idx : option Z) : res (ctree * option Z) :=
    b <- c_flag_root false b ;;
    left <- c_is_onleft (ct_mem b) parent_idx ;;
    ' (b, node_idx, parent_idx) <- (if negb left then
      nl <- c_is_onleft (ct_mem b) node_idx ;;
      ' (b, node_idx, parent_idx) <- (if nl : bool then
        b <- crot c_right_rotate b parent_idx node_idx ;;
        let node_idx := parent_idx in
        parent_idx <- c_get_parent (ct_mem b) node_idx ;;
        Ret (b, node_idx, parent_idx)
      else Ret (b, node_idx, parent_idx)) ;;
      let node_idx := parent_idx in
      parent_idx <- c_get_parent (ct_mem b) node_idx ;;
      b <- crot c_left_rotate b parent_idx node_idx ;;
      Ret (b, node_idx, parent_idx)
    else
      nl <- c_is_onleft (ct_mem b) node_idx ;;
      ' (b, node_idx, parent_idx) <- (if negb nl then
        b <- crot c_left_rotate b parent_idx node_idx ;;
        let node_idx := parent_idx in
        parent_idx <- c_get_parent (ct_mem b) node_idx ;;
        Ret (b, node_idx, parent_idx)
      else Ret (b, node_idx, parent_idx)) ;;
      let node_idx := parent_idx in
      parent_idx <- c_get_parent (ct_mem b) node_idx ;;
      b <- crot c_right_rotate b parent_idx node_idx ;;
      Ret (b, node_idx, parent_idx)) ;;
    b <- c_paint 0 node_idx b ;;
    b <- c_paint 1 parent_idx b ;;
    b <- c_flag_root true b ;;
    Ret (b, node_idx).
  (** __fix_insert (108-154), with _get_grand_parent (50-57) and _get_uncle (81-87) *)
  Definition c_fix_insert (b : ctree) (node_idx : option Z) : res ctree :=
    b <- while_loop (cfuel (ct_mem b)) (fun '(b, node_idx) =>
      parent_idx <- c_get_parent (ct_mem b) node_idx ;;
      match parent_idx with
      | None => Ret (Break b)
      | Some _ =>
        pr <- c_is_red (ct_mem b) parent_idx ;;
        nr <- (if pr : bool then c_is_red (ct_mem b) node_idx else Ret false) ;;
        if nr : bool then
          grand_parent_idx <- c_get_parent (ct_mem b) parent_idx ;;
          uncle_idx <- c_get_sibling (ct_mem b) parent_idx ;;
          ur <- (match uncle_idx with None => Ret false | Some _ => c_is_red (ct_mem b) uncle_idx end) ;;
          ' (b, node_idx) <- (if ur : bool then
            b <- c_paint 0 uncle_idx b ;; b <- c_paint 0 parent_idx b ;; b <- c_paint 1 grand_parent_idx b ;;
            Ret (b, grand_parent_idx)
          else c_rotate_insert b node_idx parent_idx) ;;
          n <- cget (ct_mem b) node_idx ;;
          if ck_isroot (cn_inf n) then Ret (Break b) else Ret (Next (b, node_idx))
        else Ret (Break b)
      end) (b, node_idx) ;;
    c_paint 0 (ct_root b) b.
  (** the new TreeNode, with its color 1, and the links of the node it replaces (173-176) *)
  Definition c_rb_node (key : K) (data : option D) (n : cnode) : cnode :=
    mkcn (mkci (Some key) data 0 1 false None (Some 1)) (cn_left n) (cn_right n) (cn_parent n).
  (** insert (156-188) *)
  Definition c_rb_insert (b : ctree) (key : K) (data : option D) : res ctree :=
    b <- c_insert same val b key data ;;
    node_idx <- c_search same b key ;;
    n <- cget (ct_mem b) node_idx ;;
    b <- con_mem (fun t => cmod t node_idx (c_rb_node key data)) b ;;
    if ck_isroot (cn_inf n) then con_mem (fun t => cmod t node_idx (fun n => cs_inf (cw_color 0) (cs_inf (cw_isroot true) n))) b
    else
      p <- c_get_parent (ct_mem b) node_idx ;;
      pr <- c_is_red (ct_mem b) p ;;
      if pr : bool then c_fix_insert b node_idx else Ret b.

  (** _find_predecessor (198-206) *)
  Definition c_find_predecessor (t : cmem) (i : option Z) : res (option Z) :=
    while_loop (cfuel t) (fun i => n <- cget t i ;; match cn_right n with None => Ret (Break i) | Some _ => Ret (Next (cn_right n)) end) i.
  (** _is_leaf (208-215), _has_two_child (217-224), _has_one_child (226-232) *)
  Definition c_kids_of (t : cmem) (i : option Z) : res (option Z * option Z) := n <- cget t i ;; Ret (cn_left n, cn_right n).
  Definition c_is_leaf (t : cmem) (i : option Z) : res bool := ' (l, r) <- c_kids_of t i ;; Ret (is_none l && is_none r).
  Definition c_has_two_child (t : cmem) (i : option Z) : res bool := ' (l, r) <- c_kids_of t i ;; Ret (negb (is_none l) && negb (is_none r)).
  Definition c_has_one_child (t : cmem) (i : option Z) : res bool := lf <- c_is_leaf t i ;; two <- c_has_two_child t i ;; Ret (negb lf && negb two).
  (** __has_red_child (256-265) *)
  Definition c_has_red_child (t : cmem) (i : option Z) : res bool :=
    ' (l, r) <- c_kids_of t i ;;
    lr <- (match l with None => Ret false | Some _ => c_is_red t l end) ;;
    if lr : bool then Ret true else match r with None => Ret false | Some _ => c_is_red t r end.
  (** _replace_node (267-290) *)
  Definition c_replace_node (t : cmem) (i : option Z) : res (option Z) :=
    ' (l, r) <- c_kids_of t i ;;
    match l, r with
    | None, None => Ret None
    | Some _, None => Ret l
    | None, Some _ => Ret r
    | Some _, Some _ => c_find_predecessor t l
    end.
  (** __walk1_walk_isblack (292-301); 0 is a cached int *)
  Definition c_walk1_walk_isblack (t : cmem) (color : Z) (i : option Z) : res bool :=
    k <- (match i with None => Ret true | Some _ => n <- cget t i ;; Ret (c_color n =? 0) end) ;; Ret (k && (color =? 0)).
  Definition c_color_of (t : cmem) (i : option Z) : res Z := n <- cget t i ;; Ret (c_color n).
  (** __left_left_sublingcase (303-315), __right_left_sublingcase (317-330), __left_right_sublingcase (332-345), __right_right_sublingcase (347-359) *)
  Definition c_left_left_case (b : ctree) (i : option Z) : res ctree :=
    n <- cget (ct_mem b) i ;; let l := cn_left n in let p := cn_parent n in
    pc <- c_color_of (ct_mem b) p ;; c <- c_color_of (ct_mem b) i ;;
    b <- c_paint c l b ;; b <- c_paint pc i b ;; crot c_right_rotate b p i.
  Definition c_right_left_case (b : ctree) (i : option Z) : res ctree :=
    n <- cget (ct_mem b) i ;; let l := cn_left n in let p := cn_parent n in
    pc <- c_color_of (ct_mem b) p ;;
    b <- c_paint pc l b ;; b <- crot c_right_rotate b i l ;; child <- c_get_parent (ct_mem b) i ;; crot c_left_rotate b p child.
  Definition c_left_right_case (b : ctree) (i : option Z) : res ctree :=
    n <- cget (ct_mem b) i ;; let r := cn_right n in let p := cn_parent n in
    pc <- c_color_of (ct_mem b) p ;;
    b <- c_paint pc r b ;; b <- crot c_left_rotate b i r ;; child <- c_get_parent (ct_mem b) i ;; crot c_right_rotate b p child.
  Definition c_right_right_case (b : ctree) (i : option Z) : res ctree :=
    n <- cget (ct_mem b) i ;; let r := cn_right n in let p := cn_parent n in
    pc <- c_color_of (ct_mem b) p ;; c <- c_color_of (ct_mem b) i ;;
    b <- c_paint c r b ;; b <- c_paint pc i b ;; crot c_left_rotate b p i.
  (** __fix_deletion (361-426) *)
  Definition c_fix_deletion (b : ctree) (node_idx : option Z) : res ctree :=
    color <- c_color_of (ct_mem b) node_idx ;;
    while_loop (2 * cfuel (ct_mem b)) (fun '(b, node_idx, color) =>
      if negb (oeqb node_idx (ct_root b)) && (color =? 0) then
        sibling_idx <- c_get_sibling (ct_mem b) node_idx ;;
        parent_idx <- c_get_parent (ct_mem b) node_idx ;;
        match sibling_idx with
        | None => Ret (Next (b, parent_idx, color))
        | Some _ =>
          sr <- c_is_red (ct_mem b) sibling_idx ;;
          if sr : bool then
            b <- c_flag_root false b ;;
            b <- c_paint 1 parent_idx b ;; b <- c_paint 0 sibling_idx b ;;
            left <- c_is_onleft (ct_mem b) sibling_idx ;;
            b <- (if left : bool then crot c_right_rotate b parent_idx sibling_idx else crot c_left_rotate b parent_idx sibling_idx) ;;
            b <- c_flag_root true b ;;
            Ret (Next (b, node_idx, color))
          else
            rc <- c_has_red_child (ct_mem b) sibling_idx ;;
            if rc : bool then
              b <- c_flag_root false b ;;
              ' (l, _) <- c_kids_of (ct_mem b) sibling_idx ;;
              lr <- (match l with None => Ret false | Some _ => c_is_red (ct_mem b) l end) ;;
              left <- c_is_onleft (ct_mem b) sibling_idx ;;
              b <- (match lr, left with
                    | true, true => c_left_left_case b sibling_idx
                    | true, false => c_right_left_case b sibling_idx
                    | false, true => c_left_right_case b sibling_idx
                    | false, false => c_right_right_case b sibling_idx
                    end) ;;
              b <- c_flag_root true b ;;
              b <- c_paint 0 parent_idx b ;;
              Ret (Next (b, node_idx, 1))
            else
              b <- c_paint 1 sibling_idx b ;;
              pc <- c_color_of (ct_mem b) parent_idx ;;
              if pc =? 0 then Ret (Next (b, parent_idx, color))
              else b <- c_paint 0 parent_idx b ;; Ret (Next (b, node_idx, 1))
        end
      else Ret (Break b)) (b, node_idx, color).
  (** _remove_node (428-452): in the one-child case the dictionary of moved nodes is dropped (448) *)
  Definition c_remove_node (b : ctree) (i : option Z) : res ctree :=
    parent <- c_get_parent (ct_mem b) i ;;
    lf <- c_is_leaf (ct_mem b) i ;;
    if lf : bool then
      p <- cget (ct_mem b) parent ;; rt <- cget (ct_mem b) (ct_root b) ;;
      ' (arr, new_indices) <- carr_delete val (ct_arr b) i ;;
      let b := cset_arr b arr in
      match new_indices with
      | None => c_update_size b parent
      | Some d => a <- cdict val d (cn_key p) ;; r <- cdict val d (cn_key rt) ;; c_update_size (cset_root b (Some r)) (Some a)
      end
    else
      one <- c_has_one_child (ct_mem b) i ;;
      if one : bool then
        p <- cget (ct_mem b) parent ;; rt <- cget (ct_mem b) (ct_root b) ;;
        ' (arr, _) <- carr_delete val (ct_arr b) i ;;
        c_update_size (cset_arr b arr) parent
      else c_update_size b parent.
  (** _transplant_values (234-254): the key it returns, None when it returns nothing. Line 245 compares where an assignment is meant: no effect. *)
  Definition c_transplant_values (b : ctree) (i1 i2 : option Z) : res (ctree * option K) :=
    n1 <- cget (ct_mem b) i1 ;;
    one <- (if ck_isroot (cn_inf n1) then c_has_one_child (ct_mem b) i1 else Ret false) ;;
    n2 <- cget (ct_mem b) i2 ;;
    if one : bool then
      b <- con_mem (fun t => cmod t (ct_root b) (fun m => mkcn (cw_key (cn_key n2) (cw_data (ck_data (cn_inf n2)) (cn_inf m))) (cn_left n2) (cn_right n2) (cn_parent m))) b ;;
      rt <- cget (ct_mem b) (ct_root b) ;;
      Ret (b, cn_key rt)
    else
      b <- con_mem (fun t => cmod t i1 (cs_inf (fun x => cw_key (cn_key n2) (cw_data (ck_data (cn_inf n2)) x)))) b ;;
      Ret (b, None).
  (** _delete_root (454-471) *)
  Definition c_delete_root (b : ctree) (i i1 : option Z) : res ctree :=
    lf <- c_is_leaf (ct_mem b) i ;;
    if lf : bool then con_mem (fun t => cmod t (ct_root b) (cs_inf (fun x => cw_key None (cw_data None x)))) b
    else
      one <- c_has_one_child (ct_mem b) i ;;
      if one : bool then
        ' (b, root_key) <- c_transplant_values b i i1 ;;
        ' (arr, new_indices) <- carr_delete val (ct_arr b) i1 ;;
        let b := cset_arr b arr in
        match new_indices with None => Ret b | Some d => r <- cdict val d root_key ;; Ret (cset_root b (Some r)) end
      else Ret b.
  (** the parent's link (495-500, 519-524) *)
  Definition c_set_link (b : ctree) (parent i v : option Z) : res ctree :=
    left <- c_is_onleft (ct_mem b) i ;;
    con_mem (fun t => if left : bool then cmod t parent (cs_left v) else cmod t parent (cs_right v)) b.
  (** __leaf_case (473-504) *)
  Definition c_leaf_case (b : ctree) (walk walk1 : option Z) : res ctree :=
    parent <- c_get_parent (ct_mem b) walk ;;
    color <- c_color_of (ct_mem b) walk ;;
    match parent with
    | None => c_delete_root b walk walk1
    | Some _ =>
      black <- c_walk1_walk_isblack (ct_mem b) color walk1 ;;
      b <- (if black : bool then c_fix_deletion b walk
            else sibling_idx <- c_get_sibling (ct_mem b) walk ;; match sibling_idx with None => Ret b | Some _ => c_paint 1 sibling_idx b end) ;;
      b <- c_set_link b parent walk None ;;
      c_remove_node b walk
    end.
  (** __one_child_case (506-535) *)
  Definition c_one_child_case (b : ctree) (walk walk1 : option Z) : res ctree :=
    color <- c_color_of (ct_mem b) walk ;;
    parent <- c_get_parent (ct_mem b) walk ;;
    match parent with
    | None => c_delete_root b walk walk1
    | Some _ =>
      b <- c_set_link b parent walk walk1 ;;
      b <- con_mem (fun t => cmod t walk1 (cs_parent parent)) b ;;
      b <- c_remove_node b walk ;;
      black <- c_walk1_walk_isblack (ct_mem b) color walk1 ;;
      if black : bool then c_fix_deletion b walk1 else c_paint 0 walk1 b
    end.
  (** delete (551-575), with __two_child_case (537-549): whether it returned True (None otherwise) *)
  Definition c_rb_delete (b : ctree) (key : K) : res (ctree * bool) :=
    walk <- c_search same b key ;;
    match walk with
    | None => Ret (b, false)
    | Some _ =>
      walk1 <- c_replace_node (ct_mem b) walk ;;
      two <- c_has_two_child (ct_mem b) walk ;;
      ' (b, walk, walk1) <- (if two : bool then
          successor <- c_replace_node (ct_mem b) walk ;;
          ' (b, _) <- c_transplant_values b walk successor ;;
          walk1 <- c_replace_node (ct_mem b) successor ;;
          Ret (b, successor, walk1)
        else Ret (b, walk, walk1)) ;;
      lf <- c_is_leaf (ct_mem b) walk ;;
      b <- (if lf : bool then c_leaf_case b walk walk1
            else one <- c_has_one_child (ct_mem b) walk ;; if one : bool then c_one_child_case b walk walk1 else Ret b) ;;
      Ret (b, true)
    end.
End CppTree2.
