(** Model of OneDimensionalSegmentTree (pydatastructs/trees/space_partitioning_trees.py 11-242).
    Coordinates are integers in units of 1/[one]: [one] stands for the literal 1 of lines 146 and 153, so choosing [one] as a common
    denominator covers every rational (hence float) input exactly. The TreeNode made for a segment (177) is represented by the
    position of the segment in self.segments; the set returned by query by the list of those positions. *)
From Verif Require Import Base.

(** node.key = [bool, lo, hi, bool] *)
Record ikey := IK { k_cl : bool; k_lo : Z; k_hi : Z; k_cr : bool }.
Record inode := IN { n_key : ikey; n_left : option Z; n_right : option Z; n_data : option (list nat) }.
Definition fresh (k : ikey) : inode := {| n_key := k; n_left := None; n_right := None; n_data := None |}.

(** __new__ (53-65): every segment is sorted *)
Definition norm_seg (s : Z * Z) : Z * Z := (Z.min (fst s) (snd s), Z.max (fst s) (snd s)).

(** _union (71-76) *)
Definition iunion (i1 i2 : inode) : inode := fresh (IK (k_cl (n_key i1)) (k_lo (n_key i1)) (k_hi (n_key i2)) (k_cr (n_key i2))).

(** _intersect (78-94); None arguments give False *)
Definition intersect (i1 i2 : ikey) : bool :=
  if (k_hi i1 <? k_lo i2) || (k_hi i2 <? k_lo i1) then false
  else
    let c1 := if k_hi i1 =? k_lo i2 then Some (k_cr i1 && k_cl i2) else None in
    let c2 := if k_hi i2 =? k_lo i1 then Some (k_cr i2 && k_cl i1) else None in
    match c1, c2 with Some false, Some false => false | _, _ => true end.

(** _contains (96-111) *)
Definition contains (i1 i2 : ikey) : bool :=
  if (k_lo i1 <? k_lo i2) && (k_hi i2 <? k_hi i1) then true
  else if (k_lo i1 =? k_lo i2) && (k_hi i2 <? k_hi i1) then k_cl i1 || negb (k_cl i2)
  else if (k_lo i1 <? k_lo i2) && (k_hi i1 =? k_hi i2) then k_cr i1 || negb (k_cr i2)
  else if (k_lo i1 =? k_lo i2) && (k_hi i1 =? k_hi i2) then
    negb ((negb (k_cr i1) && k_cr i2) || (negb (k_cl i1) && k_cl i2))
  else false.

(** _iterate (113-131); the list [calls] is a stack, here top first *)
Definition iterate (tree : list inode) (calls : list Z) (I : ikey) (idx : Z) : res (list Z) :=
  node <- lget tree idx ;;
  rc <- match n_right node with None => Ret None | Some r => x <- lget tree r ;; Ret (Some (n_key x)) end ;;
  lc <- match n_left node with None => Ret None | Some l => x <- lget tree l ;; Ret (Some (n_key x)) end ;;
  let calls := match rc, n_right node with Some k, Some r => if intersect I k then r :: calls else calls | _, _ => calls end in
  let calls := match lc, n_left node with Some k, Some l => if intersect I k then l :: calls else calls | _, _ => calls end in
  Ret calls.

(** list.sort of numbers *)
Fixpoint zinsert (x : Z) (l : list Z) : list Z := match l with [] => [x] | y :: l' => if x <=? y then x :: l else y :: zinsert x l' end.
Fixpoint zsort (l : list Z) : list Z := match l with [] => [] | x :: l' => zinsert x (zsort l') end.

Section B.
  Context (one : Z).
  (** the elementary intervals (140-153) *)
  Definition elementary (segs : list (Z * Z)) : res (list inode) :=
    let endpoints := zsort (concat (map (fun s => [fst s; snd s]) segs)) in
    e0 <- lget endpoints 0 ;;
    q <- forM (zrange 0 (len endpoints - 1)) (fun i q =>
      a <- lget endpoints i ;; b <- lget endpoints (i + 1) ;;
      Ret (q ++ [fresh (IK true a a true); fresh (IK false a b false)])) [fresh (IK false (e0 - one) e0 false)] ;;
    e <- lget endpoints (len endpoints - 1) ;;
    Ret (q ++ [fresh (IK true e e true); fresh (IK false e (e + one) false)]).

  (** the inner loop of the pairing (158-166) *)
  Definition pair_inner (m : Z) (queue tree : list inode) : res (Z * list inode * list inode) :=
    while_loop (S (length queue)) (fun '(m, queue, tree) =>
      if 2 <=? m then
        match queue with
        | I1 :: I2 :: queue' =>
          let I := iunion I1 I2 in
          let I := {| n_key := n_key I; n_left := Some (len tree); n_right := Some (len tree + 1); n_data := None |} in
          Ret (Next (m - 2, queue' ++ [I], tree ++ [I1; I2]))
        | _ => Raise IndexError
        end
      else Ret (Break (m, queue, tree))) (m, queue, tree).
  (** the pairing (155-169) *)
  Definition pair_up (queue : list inode) : res (list inode * list inode) :=
    while_loop (S (length queue)) (fun '(queue, tree) =>
      if 1 <? len queue then
        ' (m, queue, tree) <- pair_inner (len queue) queue tree ;;
        if Z.land m 1 =? 1 then
          match queue with Il :: queue' => Ret (Next (queue' ++ [Il], tree)) | [] => Raise IndexError end
        else Ret (Next (queue, tree))
      else Ret (Break (queue, tree))) (queue, []).

  (** the insertion of one segment (177-186); [k] is its position *)
  Definition insert_seg (k : nat) (seg : Z * Z) (tree : list inode) : res (list inode) :=
    let I := IK true (fst seg) (snd seg) true in
    while_loop (S (length tree)) (fun '(calls, tree) =>
      match calls with
      | [] => Ret (Break tree)
      | idx :: calls =>
        node <- lget tree idx ;;
        if contains I (n_key node) then
          let d := match n_data node with None => [] | Some l => l end in
          tree <- aset tree idx {| n_key := n_key node; n_left := n_left node; n_right := n_right node; n_data := Some (d ++ [k]) |} ;;
          Ret (Next (calls, tree))
        else calls <- iterate tree calls I idx ;; Ret (Next (calls, tree))
      end) ([-1], tree).

  (** build (133-187) on the sorted segments *)
  Definition ist_build (segs : list (Z * Z)) : res (list inode) :=
    q <- elementary segs ;;
    ' (queue, tree) <- pair_up q ;;
    match queue with
    | Ir :: _ =>
      let tree := tree ++ [{| n_key := n_key Ir; n_left := Some (-3); n_right := Some (-2); n_data := n_data Ir |}] in
      ' (_, tree) <- forM segs (fun seg '(k, tree) => tree <- insert_seg k seg tree ;; Ret (S k, tree)) (0%nat, tree) ;;
      Ret tree
    | [] => Raise IndexError
    end.

  (** query (189-227) from the root *)
  Definition ist_query (tree : list inode) (qx : Z) : res (list nat) :=
    let qn := IK true qx qx true in
    while_loop (S (length tree)) (fun '(calls, intervals) =>
      match calls with
      | [] => Ret (Break intervals)
      | idx :: calls =>
        node <- lget tree idx ;;
        let intervals := match n_data node with Some l => intervals ++ l | None => intervals end in
        calls <- iterate tree calls qn idx ;;
        Ret (Next (calls, intervals))
      end) ([-1], []).

  (** OneDimensionalSegmentTree(segs).query(qx): the first query builds *)
  Definition stabbing (segs : list (Z * Z)) (qx : Z) : res (list nat) :=
    tree <- ist_build (map norm_seg segs) ;; ist_query tree qx.
End B.
