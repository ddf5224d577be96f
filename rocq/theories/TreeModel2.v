(** Model of the balanced trees of pydatastructs/trees/binary_trees.py (Python backend): CartesianTree, Treap, AVLTree, SplayTree,
    RedBlackTree, and of miscellaneous_data_structures/multiset.py. *)
From Verif Require Import Base TreeModel.

Section Tree2.
  Context {D : Type}.
  Notation info := (info D). Notation node := (node D). Notation mem := (mem D). Notation bst := (bst D).

  (** a rotation method of SelfBalancingBinaryTree applied to the object *)
  Definition rot (f : mem -> option Z -> option Z -> option Z -> res (mem * option Z)) (b : bst) (j k : option Z) : res bst :=
    ' (t, r) <- f (b_mem b) (b_root b) j k ;; Ret (set_root (set_mem b t) r).
  (** a store into the nodes of the object *)
  Definition on_mem (f : mem -> res mem) (b : bst) : res bst := t <- f (b_mem b) ;; Ret (set_mem b t).

  (** ** AVLTree *)
  (** left_height, right_height (953-956) *)
  Definition left_height (t : mem) (n : node) : res Z := match n_left n with None => Ret (-1) | Some _ => m <- tget t (n_left n) ;; Ret (k_height (n_inf m)) end.
  Definition right_height (t : mem) (n : node) : res Z := match n_right n with None => Ret (-1) | Some _ => m <- tget t (n_right n) ;; Ret (k_height (n_inf m)) end.
  (** balance_factor (957-958) *)
  Definition balance_factor (t : mem) (n : node) : res Z := r <- right_height t n ;; l <- left_height t n ;; Ret (r - l).
  (** self.tree[i].height = max(left_height, right_height) + 1 (965-966 and others) *)
  Definition fix_height (t : mem) (i : option Z) : res mem :=
    n <- tget t i ;; l <- left_height t n ;; r <- right_height t n ;; tmod t i (set_inf (with_height (Z.max l r + 1))).
  (** if self.is_order_statistic: self.tree[i].size = .. (967-969 and others) *)
  Definition os_size (b : bst) (i : option Z) : res bst := if b_os b then on_mem (fun t => fix_size t i) b else Ret b.
  (** _right_rotate (963-969) *)
  Definition avl_right_rotate (b : bst) (j k : option Z) : res bst :=
    b <- rot right_rotate b j k ;; b <- on_mem (fun t => fix_height t j) b ;; os_size b j.
  (** _left_right_rotate (971-981) *)
  Definition avl_left_right_rotate (b : bst) (j k : option Z) : res bst :=
    b <- rot left_right_rotate b j k ;; b <- on_mem (fun t => fix_height t j) b ;; b <- on_mem (fun t => fix_height t k) b ;; b <- os_size b j ;; os_size b k.
  (** _right_left_rotate (983-993) *)
  Definition avl_right_left_rotate (b : bst) (j k : option Z) : res bst :=
    b <- rot right_left_rotate b j k ;; b <- on_mem (fun t => fix_height t j) b ;; b <- on_mem (fun t => fix_height t k) b ;; b <- os_size b j ;; os_size b k.
  (** _left_rotate (995-1003) *)
  Definition avl_left_rotate (b : bst) (j k : option Z) : res bst :=
    b <- rot left_rotate b j k ;; b <- on_mem (fun t => fix_height t j) b ;; b <- on_mem (fun t => fix_height t k) b ;; os_size b j.
  (** x is not None and x == last and self.tree[x].f == last2last (1019-1026) *)
  Definition hangs (t : mem) (x last : option Z) (f : node -> option Z) (last2last : option Z) : res bool :=
    match x with
    | None => Ret false
    | Some _ => if oeqb x last then n <- tget t x ;; Ret (oeqb (f n) last2last) else Ret false
    end.
  (** the four cases of the loop below (1017-1027), for the node [walk] *)
  Definition rebalance (b : bst) (walk last last2last : option Z) : res bst :=
    n <- tget (b_mem b) walk ;;
    bf <- balance_factor (b_mem b) n ;;
    if negb ((bf =? 1) || (bf =? 0) || (bf =? -1)) then
      let l := n_left n in
      c <- hangs (b_mem b) l last n_left last2last ;;
      b <- (if c : bool then avl_right_rotate b walk last else Ret b) ;;
      n <- tget (b_mem b) walk ;;
      let r := n_right n in
      c <- hangs (b_mem b) r last n_right last2last ;;
      b <- (if c : bool then avl_left_rotate b walk last else Ret b) ;;
      c <- hangs (b_mem b) l last n_right last2last ;;
      b <- (if c : bool then avl_left_right_rotate b walk last else Ret b) ;;
      c <- hangs (b_mem b) r last n_left last2last ;;
      if c : bool then avl_right_left_rotate b walk last else Ret b
    else Ret b.
  (** _balance_insertion (1005-1029); [path], a Queue (FIFO, C07), is a list: it has two elements at the head of the loop.
      The walk visits each node once, and one more per rotation. *)
  Definition balance_insertion (b : bst) (curr last : option Z) : res bst :=
    while_loop (2 * fuel (b_mem b)) (fun '(b, walk, path) =>
      match walk with
      | None => Ret (Break b)
      | Some _ =>
        b <- on_mem (fun t => fix_height t walk) b ;;
        b <- os_size b walk ;;
        match path with
        | last :: last2last :: path =>
          b <- rebalance b walk last last2last ;;
          n <- tget (b_mem b) walk ;;
          Ret (Next (b, n_parent n, path ++ [walk; last]))
        | _ => Raise IndexError
        end
      end) (b, last, [curr; last]).
  (** insert (1031-1033) *)
  Definition avl_insert (b : bst) (key : Z) (data : option D) : res bst :=
    b <- insert b key data ;;
    n <- tget (b_mem b) (Some (b_size b - 1)) ;;
    balance_insertion b (Some (b_size b - 1)) (n_parent n).
  (** _balance_deletion (1035-1056) *)
  Definition balance_deletion (b : bst) (start_idx : option Z) : res bst :=
    while_loop (2 * fuel (b_mem b)) (fun '(b, walk) =>
      match walk with
      | None => Ret (Break b)
      | Some _ =>
        b <- on_mem (fun t => fix_height t walk) b ;;
        b <- os_size b walk ;;
        n <- tget (b_mem b) walk ;;
        bf <- balance_factor (b_mem b) n ;;
        b <- (if negb ((bf =? 1) || (bf =? 0) || (bf =? -1)) then
          if bf <? 0 then
            let c := n_left n in
            cn <- tget (b_mem b) c ;; bc <- balance_factor (b_mem b) cn ;;
            if bc <=? 0 then avl_right_rotate b walk c else avl_left_right_rotate b walk c
          else
            let c := n_right n in
            cn <- tget (b_mem b) c ;; bc <- balance_factor (b_mem b) cn ;;
            if 0 <=? bc then avl_left_rotate b walk c else avl_right_left_rotate b walk c
        else Ret b) ;;
        n <- tget (b_mem b) walk ;;
        Ret (Next (b, n_parent n))
      end) (b, start_idx).
  (** delete (1059-1062): always returns True *)
  Definition avl_delete (b : bst) (key : Z) : res (bst * bool) :=
    ' (b, a) <- delete_info b key ;;
    b <- balance_deletion b (match a with Some a => a | None => None end) ;;
    Ret (b, true).

  (** ** SplayTree *)
  (** _zig (1088-1092) .. _zag_zig (1105-1106) *)
  Definition zig (b : bst) (x p : option Z) : res bst :=
    pn <- tget (b_mem b) p ;; if oeqb (n_left pn) x then rot right_rotate b p x else rot left_rotate b p x.
  Definition zig_zig (b : bst) (x p : option Z) : res bst :=
    pn <- tget (b_mem b) p ;; b <- rot right_rotate b (n_parent pn) p ;; rot right_rotate b p x.
  Definition zig_zag (b : bst) (p : option Z) : res bst := pn <- tget (b_mem b) p ;; rot left_right_rotate b (n_parent pn) p.
  Definition zag_zag (b : bst) (x p : option Z) : res bst :=
    pn <- tget (b_mem b) p ;; b <- rot left_rotate b (n_parent pn) p ;; rot left_rotate b p x.
  Definition zag_zig (b : bst) (p : option Z) : res bst := pn <- tget (b_mem b) p ;; rot right_left_rotate b (n_parent pn) p.
  (** splay (1108-1123) *)
  Definition splay (b : bst) (x p : option Z) : res bst :=
    while_loop (fuel (b_mem b)) (fun '(b, p) =>
      xn <- tget (b_mem b) x ;;
      match n_parent xn with
      | None => Ret (Break b)
      | Some _ =>
        pn <- tget (b_mem b) p ;;
        b <- (match n_parent pn with
          | None => zig b x p
          | Some _ =>
            g <- tget (b_mem b) (n_parent pn) ;;
            if oeqb (n_left pn) x && oeqb (n_left g) p then zig_zig b x p
            else if oeqb (n_right pn) x && oeqb (n_right g) p then zag_zag b x p
            else if oeqb (n_left pn) x && oeqb (n_right g) p then zag_zig b p
            else zig_zag b p
          end) ;;
        xn <- tget (b_mem b) x ;;
        Ret (Next (b, n_parent xn))
      end) (b, p).
  (** insert (1125-1129) *)
  Definition splay_insert (b : bst) (key : Z) (data : option D) : res bst :=
    b <- insert b key data ;;
    ' (e, p) <- search_parent b key ;;
    t <- tmod (b_mem b) (Some (b_size b - 1)) (set_parent p) ;;
    splay (set_mem b t) e p.
  (** delete (1131-1137): whether it returned True (None if the key is absent) *)
  Definition splay_delete (b : bst) (key : Z) : res (bst * bool) :=
    ' (e, p) <- search_parent b key ;;
    match e with
    | None => Ret (b, false)
    | Some _ => b <- splay b e p ;; delete b key
    end.

  (** ** CartesianTree and Treap *)
  Definition n_prio (n : node) : res Z := match k_prio (n_inf n) with Some p => Ret p | None => Raise AttributeError end.
  (** _bubble_up (818-832); [node] and [parent] are references, re-read after each rotation *)
  Definition bubble_up (b : bst) (node_idx : option Z) : res bst :=
    n <- tget (b_mem b) node_idx ;;
    _ <- (match n_parent n with None => Raise TypeError | Some p => aget (b_mem b) p end) ;;
    b <- while_loop (fuel (b_mem b)) (fun b =>
      n <- tget (b_mem b) node_idx ;;
      match n_parent n with
      | None => Ret (Break b)
      | Some _ =>
        pn <- tget (b_mem b) (n_parent n) ;; pp <- n_prio pn ;; np <- n_prio n ;;
        if np <? pp then
          b <- (if oeqb (n_right pn) node_idx then rot left_rotate b (n_parent n) node_idx else rot right_rotate b (n_parent n) node_idx) ;;
          Ret (Next b)
        else Ret (Break b)
      end) b ;;
    n <- tget (b_mem b) node_idx ;;
    match n_parent n with
    | None => on_mem (fun t => tmod t node_idx (set_inf (with_isroot true))) b
    | Some _ => Ret b
    end.
  (** _trickle_down (834-845) *)
  Definition trickle_down (b : bst) (node_idx : option Z) : res bst :=
    while_loop (fuel (b_mem b)) (fun b =>
      n <- tget (b_mem b) node_idx ;;
      match n_left n, n_right n with
      | None, None => Ret (Break b)
      | None, Some _ => b <- rot left_rotate b node_idx (n_right n) ;; Ret (Next b)
      | Some _, None => b <- rot right_rotate b node_idx (n_left n) ;; Ret (Next b)
      | Some _, Some _ =>
        l <- tget (b_mem b) (n_left n) ;; lp <- n_prio l ;;
        r <- tget (b_mem b) (n_right n) ;; rp <- n_prio r ;;
        b <- (if lp <? rp then rot right_rotate b node_idx (n_left n) else rot left_rotate b node_idx (n_right n)) ;;
        Ret (Next b)
      end) b.
  (** CartesianTreeNode.__new__ (misc_util.py 114-119) with the links of the node it replaces (850-855) *)
  Definition cart_node (key : Z) (priority : Z) (data : option D) (n : node) : node :=
    mknode (mkinfo (Some key) data 0 1 false (Some priority) None) (n_left n) (n_right n) (n_parent n).
  (** insert (847-859) *)
  Definition cart_insert (b : bst) (key priority : Z) (data : option D) : res bst :=
    b <- insert b key data ;;
    node_idx <- search b key ;;
    n <- tget (b_mem b) node_idx ;;
    b <- on_mem (fun t => tmod t node_idx (cart_node key priority data)) b ;;
    if k_isroot (n_inf n) then on_mem (fun t => tmod t node_idx (set_inf (with_isroot true))) b
    else bubble_up b node_idx.
  (** delete (861-866) *)
  Definition cart_delete (b : bst) (key : Z) : res (bst * bool) :=
    node_idx <- search b key ;;
    match node_idx with
    | None => Ret (b, false)
    | Some _ => b <- trickle_down b node_idx ;; delete b key
    end.
  (** Treap.insert (919-921): [priority] is what random.random() returns *)
  Definition treap_insert (b : bst) (key : Z) (data : option D) (priority : Z) : res bst := cart_insert b key priority data.

  (** ** RedBlackTree *)
  Definition n_color (n : node) : res Z := match k_color (n_inf n) with Some c => Ret c | None => Raise AttributeError end.
  (** _get_parent .. _is_onright (1252-1284) *)
  Definition get_parent (t : mem) (i : option Z) : res (option Z) := n <- tget t i ;; Ret (n_parent n).
  Definition get_sibling (t : mem) (i : option Z) : res (option Z) :=
    p <- get_parent t i ;;
    match p with None => Ret None | Some _ => pn <- tget t p ;; Ret (if oeqb i (n_left pn) then n_right pn else n_left pn) end.
  Definition is_onleft (t : mem) (i : option Z) : res bool := p <- get_parent t i ;; pn <- tget t p ;; Ret (oeqb (n_left pn) i).
  Definition is_red (t : mem) (i : option Z) : res bool := n <- tget t i ;; c <- n_color n ;; Ret (c =? 1).
  (** self.tree[i].color = c, self.tree[i].is_root = v *)
  Definition paint (c : Z) (i : option Z) (b : bst) : res bst := on_mem (fun t => tmod t i (set_inf (with_color c))) b.
  Definition flag_root (v : bool) (b : bst) : res bst := on_mem (fun t => tmod t (b_root b) (set_inf (with_isroot v))) b.
  (** the branch of __fix_insert for a black or missing uncle (1299-1317); the node it continues with *)
  Definition rotate_insert (b : bst) (node_idx parent_idx : option Z) : res (bst * option Z) :=
    b <- flag_root false b ;;
    left <- is_onleft (b_mem b) parent_idx ;;
    ' (b, node_idx, parent_idx) <- (if negb left then
      nl <- is_onleft (b_mem b) node_idx ;;
      ' (b, node_idx, parent_idx) <- (if nl : bool then
        b <- rot right_rotate b parent_idx node_idx ;;
        let node_idx := parent_idx in
        parent_idx <- get_parent (b_mem b) node_idx ;;
        Ret (b, node_idx, parent_idx)
      else Ret (b, node_idx, parent_idx)) ;;
      let node_idx := parent_idx in
      parent_idx <- get_parent (b_mem b) node_idx ;;
      b <- rot left_rotate b parent_idx node_idx ;;
      Ret (b, node_idx, parent_idx)
    else
      nl <- is_onleft (b_mem b) node_idx ;;
      ' (b, node_idx, parent_idx) <- (if negb nl then
        b <- rot left_rotate b parent_idx node_idx ;;
        let node_idx := parent_idx in
        parent_idx <- get_parent (b_mem b) node_idx ;;
        Ret (b, node_idx, parent_idx)
      else Ret (b, node_idx, parent_idx)) ;;
      let node_idx := parent_idx in
      parent_idx <- get_parent (b_mem b) node_idx ;;
      b <- rot right_rotate b parent_idx node_idx ;;
      Ret (b, node_idx, parent_idx)) ;;
    b <- paint 0 node_idx b ;;
    b <- paint 1 parent_idx b ;;
    b <- flag_root true b ;;
    Ret (b, node_idx).
  (** __fix_insert (1286-1320) *)
  Definition fix_insert (b : bst) (node_idx : option Z) : res bst :=
    b <- while_loop (fuel (b_mem b)) (fun '(b, node_idx) =>
      parent_idx <- get_parent (b_mem b) node_idx ;;
      match parent_idx with
      | None => Ret (Break b)
      | Some _ =>
        pr <- is_red (b_mem b) parent_idx ;;
        nr <- (if pr : bool then is_red (b_mem b) node_idx else Ret false) ;;
        if nr : bool then
          grand_parent_idx <- get_parent (b_mem b) parent_idx ;;
          uncle_idx <- get_sibling (b_mem b) parent_idx ;;
          ur <- (match uncle_idx with None => Ret false | Some _ => is_red (b_mem b) uncle_idx end) ;;
          ' (b, node_idx) <- (if ur : bool then
            b <- paint 0 uncle_idx b ;; b <- paint 0 parent_idx b ;; b <- paint 1 grand_parent_idx b ;;
            Ret (b, grand_parent_idx)
          else rotate_insert b node_idx parent_idx) ;;
          n <- tget (b_mem b) node_idx ;;
          if k_isroot (n_inf n) then Ret (Break b) else Ret (Next (b, node_idx))
        else Ret (Break b)
      end) (b, node_idx) ;;
    paint 0 (b_root b) b.
  (** RedBlackTreeNode.__new__ (misc_util.py 154-160) with the links of the node it replaces (1325-1330) *)
  Definition rb_node (key : Z) (data : option D) (n : node) : node :=
    mknode (mkinfo (Some key) data 0 1 false None (Some 1)) (n_left n) (n_right n) (n_parent n).
  (** insert (1322-1335) *)
  Definition rb_insert (b : bst) (key : Z) (data : option D) : res bst :=
    b <- insert b key data ;;
    node_idx <- search b key ;;
    n <- tget (b_mem b) node_idx ;;
    b <- on_mem (fun t => tmod t node_idx (rb_node key data)) b ;;
    if k_isroot (n_inf n) then on_mem (fun t => tmod t node_idx (fun n => set_inf (with_color 0) (set_inf (with_isroot true) n))) b
    else
      p <- get_parent (b_mem b) node_idx ;;
      pr <- is_red (b_mem b) p ;;
      if pr : bool then fix_insert b node_idx else Ret b.

  (** _find_predecessor (1337-1340) *)
  Definition find_predecessor (t : mem) (i : option Z) : res (option Z) :=
    while_loop (fuel t) (fun i => n <- tget t i ;; match n_right n with None => Ret (Break i) | Some _ => Ret (Next (n_right n)) end) i.
  (** _is_leaf, _has_two_child, _has_one_child (1355-1368) *)
  Definition kids_of (t : mem) (i : option Z) : res (option Z * option Z) := n <- tget t i ;; Ret (n_left n, n_right n).
  Definition is_leaf (t : mem) (i : option Z) : res bool := ' (l, r) <- kids_of t i ;; Ret (is_none l && is_none r).
  Definition has_two_child (t : mem) (i : option Z) : res bool := ' (l, r) <- kids_of t i ;; Ret (negb (is_none l) && negb (is_none r)).
  Definition has_one_child (t : mem) (i : option Z) : res bool := lf <- is_leaf t i ;; two <- has_two_child t i ;; Ret (negb lf && negb two).
  (** __has_red_child (1370-1376) *)
  Definition has_red_child (t : mem) (i : option Z) : res bool :=
    ' (l, r) <- kids_of t i ;;
    lr <- (match l with None => Ret false | Some _ => is_red t l end) ;;
    if lr : bool then Ret true else match r with None => Ret false | Some _ => is_red t r end.
  (** _replace_node (1378-1388) *)
  Definition replace_node (t : mem) (i : option Z) : res (option Z) :=
    ' (l, r) <- kids_of t i ;;
    match l, r with
    | None, None => Ret None
    | Some _, None => Ret l
    | None, Some _ => Ret r
    | Some _, Some _ => find_predecessor t l
    end.
  (** __walk1_walk_isblack (1390-1393); the color is an attribute that may be missing *)
  Definition walk1_walk_isblack (t : mem) (color : Z) (i : option Z) : res bool :=
    k <- (match i with None => Ret true | Some _ => n <- tget t i ;; c <- n_color n ;; Ret (c =? 0) end) ;; Ret (k && (color =? 0)).
  Definition color_of (t : mem) (i : option Z) : res Z := n <- tget t i ;; n_color n.
  (** the four sibling cases (1395-1427) *)
  Definition left_left_case (b : bst) (i : option Z) : res bst :=
    n <- tget (b_mem b) i ;; let l := n_left n in let p := n_parent n in
    pc <- color_of (b_mem b) p ;; c <- color_of (b_mem b) i ;;
    b <- paint c l b ;; b <- paint pc i b ;; rot right_rotate b p i.
  Definition right_left_case (b : bst) (i : option Z) : res bst :=
    n <- tget (b_mem b) i ;; let l := n_left n in let p := n_parent n in
    pc <- color_of (b_mem b) p ;;
    b <- paint pc l b ;; b <- rot right_rotate b i l ;; child <- get_parent (b_mem b) i ;; rot left_rotate b p child.
  Definition left_right_case (b : bst) (i : option Z) : res bst :=
    n <- tget (b_mem b) i ;; let r := n_right n in let p := n_parent n in
    pc <- color_of (b_mem b) p ;;
    b <- paint pc r b ;; b <- rot left_rotate b i r ;; child <- get_parent (b_mem b) i ;; rot right_rotate b p child.
  Definition right_right_case (b : bst) (i : option Z) : res bst :=
    n <- tget (b_mem b) i ;; let r := n_right n in let p := n_parent n in
    pc <- color_of (b_mem b) p ;; c <- color_of (b_mem b) i ;;
    b <- paint c r b ;; b <- paint pc i b ;; rot left_rotate b p i.
  (** __fix_deletion (1429-1473) *)
  Definition fix_deletion (b : bst) (node_idx : option Z) : res bst :=
    color <- color_of (b_mem b) node_idx ;;
    while_loop (2 * fuel (b_mem b)) (fun '(b, node_idx, color) =>
      if negb (oeqb node_idx (b_root b)) && (color =? 0) then
        sibling_idx <- get_sibling (b_mem b) node_idx ;;
        parent_idx <- get_parent (b_mem b) node_idx ;;
        match sibling_idx with
        | None => Ret (Next (b, parent_idx, color))
        | Some _ =>
          sr <- is_red (b_mem b) sibling_idx ;;
          if sr : bool then
            b <- flag_root false b ;;
            b <- paint 1 parent_idx b ;; b <- paint 0 sibling_idx b ;;
            left <- is_onleft (b_mem b) sibling_idx ;;
            b <- (if left : bool then rot right_rotate b parent_idx sibling_idx else rot left_rotate b parent_idx sibling_idx) ;;
            b <- flag_root true b ;;
            Ret (Next (b, node_idx, color))
          else
            rc <- has_red_child (b_mem b) sibling_idx ;;
            if rc : bool then
              b <- flag_root false b ;;
              ' (l, _) <- kids_of (b_mem b) sibling_idx ;;
              lr <- (match l with None => Ret false | Some _ => is_red (b_mem b) l end) ;;
              left <- is_onleft (b_mem b) sibling_idx ;;
              b <- (match lr, left with
                    | true, true => left_left_case b sibling_idx
                    | true, false => right_left_case b sibling_idx
                    | false, true => left_right_case b sibling_idx
                    | false, false => right_right_case b sibling_idx
                    end) ;;
              b <- flag_root true b ;;
              b <- paint 0 parent_idx b ;;
              Ret (Next (b, node_idx, 1))
            else
              b <- paint 1 sibling_idx b ;;
              pc <- color_of (b_mem b) parent_idx ;;
              if pc =? 0 then Ret (Next (b, parent_idx, color))
              else b <- paint 0 parent_idx b ;; Ret (Next (b, node_idx, 1))
        end
      else Ret (Break b)) (b, node_idx, color).
  (** _remove_node (1475-1489) *)
  Definition remove_node (b : bst) (i : option Z) : res bst :=
    parent <- get_parent (b_mem b) i ;;
    lf <- is_leaf (b_mem b) i ;;
    if lf : bool then
      p <- tget (b_mem b) parent ;; rt <- tget (b_mem b) (b_root b) ;;
      ' (arr, new_indices) <- aft_delete (b_arr b) i ;;
      let b := set_arr b arr in
      match new_indices with
      | None => update_size b parent
      | Some d => a <- odgetE d (n_key p) ;; r <- odgetE d (n_key rt) ;; update_size (set_root b (Some r)) (Some a)
      end
    else
      one <- has_one_child (b_mem b) i ;;
      if one : bool then
        p <- tget (b_mem b) parent ;; rt <- tget (b_mem b) (b_root b) ;;
        ' (arr, _) <- aft_delete (b_arr b) i ;;
        update_size (set_arr b arr) parent
      else update_size b parent.
  (** _transplant_values (1342-1353): the key it returns, None when it returns nothing *)
  Definition transplant_values (b : bst) (i1 i2 : option Z) : res (bst * option Z) :=
    n1 <- tget (b_mem b) i1 ;;
    one <- (if k_isroot (n_inf n1) then has_one_child (b_mem b) i1 else Ret false) ;;
    n2 <- tget (b_mem b) i2 ;;
    if one : bool then
      b <- on_mem (fun t => tmod t (b_root b) (fun m => mknode (with_key (n_key n2) (with_data (k_data (n_inf n2)) (n_inf m))) (n_left n2) (n_right n2) (n_parent m))) b ;;
      b <- on_mem (fun t => tmod t i1 (set_parent None)) b ;;
      rt <- tget (b_mem b) (b_root b) ;;
      Ret (b, n_key rt)
    else
      b <- on_mem (fun t => tmod t i1 (set_inf (fun x => with_key (n_key n2) (with_data (k_data (n_inf n2)) x)))) b ;;
      Ret (b, None).
  (** _delete_root (1491-1499) *)
  Definition delete_root (b : bst) (i i1 : option Z) : res bst :=
    lf <- is_leaf (b_mem b) i ;;
    if lf : bool then on_mem (fun t => tmod t (b_root b) (set_inf (fun x => with_key None (with_data None x)))) b
    else
      one <- has_one_child (b_mem b) i ;;
      if one : bool then
        ' (b, root_key) <- transplant_values b i i1 ;;
        ' (arr, new_indices) <- aft_delete (b_arr b) i1 ;;
        let b := set_arr b arr in
        match new_indices with None => Ret b | Some d => r <- odgetE d root_key ;; Ret (set_root b (Some r)) end
      else Ret b.
  (** the parent's link (1515-1518, 1529-1532) *)
  Definition set_link (b : bst) (parent i v : option Z) : res bst :=
    left <- is_onleft (b_mem b) i ;;
    on_mem (fun t => if left : bool then tmod t parent (set_left v) else tmod t parent (set_right v)) b.
  (** __leaf_case (1501-1519) *)
  Definition leaf_case (b : bst) (walk walk1 : option Z) : res bst :=
    parent <- get_parent (b_mem b) walk ;;
    color <- color_of (b_mem b) walk ;;
    match parent with
    | None => delete_root b walk walk1
    | Some _ =>
      black <- walk1_walk_isblack (b_mem b) color walk1 ;;
      b <- (if black : bool then fix_deletion b walk
            else sibling_idx <- get_sibling (b_mem b) walk ;; match sibling_idx with None => Ret b | Some _ => paint 1 sibling_idx b end) ;;
      b <- set_link b parent walk None ;;
      remove_node b walk
    end.
  (** __one_child_case (1521-1538) *)
  Definition one_child_case (b : bst) (walk walk1 : option Z) : res bst :=
    color <- color_of (b_mem b) walk ;;
    parent <- get_parent (b_mem b) walk ;;
    match parent with
    | None => delete_root b walk walk1
    | Some _ =>
      b <- set_link b parent walk walk1 ;;
      b <- on_mem (fun t => tmod t walk1 (set_parent parent)) b ;;
      b <- remove_node b walk ;;
      black <- walk1_walk_isblack (b_mem b) color walk1 ;;
      if black : bool then fix_deletion b walk1 else paint 0 walk1 b
    end.
  (** delete (1548-1560), with __two_child_case (1540-1546): whether it returned True (None otherwise) *)
  Definition rb_delete (b : bst) (key : Z) : res (bst * bool) :=
    walk <- search b key ;;
    match walk with
    | None => Ret (b, false)
    | Some _ =>
      walk1 <- replace_node (b_mem b) walk ;;
      two <- has_two_child (b_mem b) walk ;;
      ' (b, walk, walk1) <- (if two : bool then
          successor <- replace_node (b_mem b) walk ;;
          ' (b, _) <- transplant_values b walk successor ;;
          walk1 <- replace_node (b_mem b) successor ;;
          Ret (b, successor, walk1)
        else Ret (b, walk, walk1)) ;;
      lf <- is_leaf (b_mem b) walk ;;
      b <- (if lf : bool then leaf_case b walk walk1
            else one <- has_one_child (b_mem b) walk ;; if one : bool then one_child_case b walk walk1 else Ret b) ;;
      Ret (b, true)
    end.
End Tree2.

(** ** Multiset (miscellaneous_data_structures/multiset.py): elements are integers, the tree stores no data *)
Record multiset := mkms { ms_counter : list (Z * Z); ms_tree : bst Z; ms_n : Z }.
Fixpoint cget (d : list (Z * Z)) (k : Z) : option Z := match d with [] => None | (k', v) :: d' => if k =? k' then Some v else cget d' k end.
Fixpoint cset (d : list (Z * Z)) (k v : Z) : list (Z * Z) := match d with [] => [(k, v)] | (k', w) :: d' => if k =? k' then (k', v) :: d' else (k', w) :: cset d' k v end.
(** count (41-42): self.counter.get(element, 0) *)
Definition ms_count (m : multiset) (x : Z) : Z := match cget (ms_counter m) x with Some v => v | None => 0 end.
(** __init__ without arguments (7-12) *)
Definition ms_new : res multiset := b <- bst_new None None None false ;; Ret (mkms [] b 0).
(** add (16-20) *)
Definition ms_add (m : multiset) (x : Z) : res multiset :=
  let c := cset (ms_counter m) x (ms_count m x + 1) in
  let m := mkms c (ms_tree m) (ms_n m + 1) in
  if ms_count m x =? 1 then t <- rb_insert (ms_tree m) x None ;; Ret (mkms c t (ms_n m)) else Ret m.
(** remove (22-27): self.counter[element] raises KeyError for an element never added *)
Definition ms_remove (m : multiset) (x : Z) : res multiset :=
  match cget (ms_counter m) x with
  | None => Raise KeyError
  | Some c =>
    t <- (if c =? 1 then ' (t, _) <- rb_delete (ms_tree m) x ;; Ret t else Ret (ms_tree m)) ;;
    if 0 <? c then Ret (mkms (cset (ms_counter m) x (c - 1)) t (ms_n m - 1)) else Ret (mkms (ms_counter m) t (ms_n m))
  end.
(** lower_bound, upper_bound, __contains__, __len__ (29-39) *)
Definition ms_lower_bound (m : multiset) (x : Z) : res (option Z) := lower_bound (ms_tree m) x.
Definition ms_upper_bound (m : multiset) (x : Z) : res (option Z) := upper_bound (ms_tree m) x.
Definition ms_contains (m : multiset) (x : Z) : bool := 0 <? ms_count m x.
Definition ms_len (m : multiset) : Z := ms_n m.
