(** Histories that mix inserts and deletes on the self-balancing trees: C93, C94, C96, C98. *)
From Coq Require Import Sorting.Sorted.
From Verif Require Import Base TreeModel TreeModel2 TreeSpec TreeProofs TreeRotate TreeBst TreeTrav TreeQuery TreeLca TreeDel TreeHist TreeBalSpec TreeAvl TreeAvl2 TreeReins TreeMulti TreeDel2 TreeHist2Spec TreeHist2 TreeHist3 TreeProps3 TreeMixSpec TreeMix TreeMix2 TreeMix3 TreeTreap TreeSplay TreeMix4 TreeMix5 TreeRb TreeMix8.

(** an AVLTree made with or without a first entry, then any inserts and deletes in any order; a delete spares the newest key and the key just before it,
    leaves two keys, and leaves half of the keys ever inserted. The tree has the entries the calls leave, is balanced, stores the right heights and
    (if asked for) sizes, and its queries agree with the sorted list of the entries *)
Theorem C93_avl_history_partial : forall (D : Type) (start : option (Z * D)) (os : bool) (ops : list (bop D)) (s : mmap D) (fs : list bool), m_history always spare_newest start ops = Some (s, fs) ->
  let l := m_ents s in
  exists b T v, history_with avl_insert avl_delete start os ops = Ret (b, map (fun _ => true) fs) /\
    finds b l /\ in_order (b_mem b) (b_root b) = Ret v /\ shows v l /\
    (forall key, exists lo hi, lower_bound b key = Ret lo /\ upper_bound b key = Ret hi /\ least (fun k => key <= k) (map fst l) lo /\ least (fun k => key < k) (map fst l) hi) /\
    tree_at (b_mem b) (b_root b) T /\ balanced T /\ heights_stored T /\
    (os = true -> sizes_stored T /\
      (forall i, 1 <= i <= len l -> exists n e, select b i = Ret (Some n) /\ nth_error l (Z.to_nat (i - 1)) = Some e /\ n_key n = Some (fst e) /\ k_data (n_inf n) = snd e /\ rank b (fst e) = Ret (Some i)) /\
      (forall i, i < 1 \/ len l < i -> select b i = Raise ValueError) /\
      (forall x, ~ In x (map fst l) -> rank b x = Ret None)).
Proof.
  intros D start os ops s fs H l. destruct (a_history start os ops s fs H) as (b & T & E1 & G & AV & O). destruct G as [GD GH GO GE GI GU GN]. subst l. rewrite <- GI. assert (HT := o_at _ _ GH). assert (W := tree_wtree _ _ _ HT).
  exists b, T, (infos T). split; [exact E1|]. split; [apply wfinds; assumption|]. split; [apply in_order_w; assumption|]. split; [apply (ents_okeys T GO)|].
  split; [intros key; apply bounds_view_at; assumption|]. split; [exact HT|]. destruct (avl_spec _ _ AV) as (A1 & A2 & A3). split; [exact A1|]. split; [exact A2|]. intros ->. split; [apply A3; reflexivity|].
  apply os_view_at; try assumption; [apply (o_num _ _ GH)|apply sizes_sized, A3; reflexivity].
Qed.
Print Assumptions C93_avl_history_partial.
(** fifteen calls: inserts after deletes, an overwritten entry, a deleted root, an absent key; rotations on both kinds of calls *)
Definition mixed_ops : list (bop Z) :=
  [BIns 1 (Some 1); BIns 2 (Some 2); BIns 3 (Some 3); BIns 4 (Some 4); BIns 5 (Some 5); BIns 6 None; BDel 1; BDel 9; BIns 7 (Some 7); BDel 2; BIns 3 (Some 30); BDel 4; BIns 8 (Some 8); BIns 9 (Some 9); BIns 1 (Some 11); BDel 7].
Example C93_history_case : exists u n, m_history always spare_newest None mixed_ops = Some (mkmmap [(1, Some 11); (3, Some 30); (5, Some 5); (6, None); (8, Some 8); (9, Some 9)] u n, [true; false; true; true; true]) /\
  exists b, history_with avl_insert avl_delete None true mixed_ops = Ret (b, [true; true; true; true; true]) /\ rank b 8 = Ret (Some 5) /\ lower_bound b 4 = Ret (Some 5) /\ option_map n_left (cell (b_mem b) 4) <> Some None.
Proof. eexists. eexists. split; [vm_compute; reflexivity|]. eexists. split; [vm_compute; reflexivity|]. repeat apply conj; vm_compute; try reflexivity. discriminate. Qed.

(** a CartesianTree or Treap: inserts of new keys with any priorities and deletes in any order; a delete spares the newest key and the last one, and leaves
    half of the keys ever inserted. delete reports whether the key was there; the tree has the entries the calls leave, in search order and in heap order *)
Theorem C94_cartesian_history_partial : forall (D : Type) (os : bool) (ops : list (pop D)) (s : mmap D) (fs : list bool), m_history absent_key keep_newest None (map no_prio ops) = Some (s, fs) ->
  let l := m_ents s in
  exists b T v, (b0 <- bst_new None None None os ;; perform_prio b0 ops) = Ret (b, fs) /\
    finds b l /\ in_order (b_mem b) (b_root b) = Ret v /\ shows v l /\
    (forall key, exists lo hi, lower_bound b key = Ret lo /\ upper_bound b key = Ret hi /\ least (fun k => key <= k) (map fst l) lo /\ least (fun k => key < k) (map fst l) hi) /\
    tree_at (b_mem b) (b_root b) T /\ heap_ordered T.
Proof.
  intros D os ops s fs H l. destruct (c_history os ops s fs H) as (b & T & E1 & G & HH & O). destruct G as [GD GH GO GE GI GU GN]. subst l. rewrite <- GI. assert (HT := o_at _ _ GH). assert (W := tree_wtree _ _ _ HT).
  exists b, T, (infos T). split; [exact E1|]. split; [apply wfinds; assumption|]. split; [apply in_order_w; assumption|]. split; [apply (ents_okeys T GO)|].
  split; [intros key; apply bounds_view_at; assumption|]. split; [exact HT|]. apply (heap_spec T None HH).
Qed.
Print Assumptions C94_cartesian_history_partial.
Example C94_history_case : exists u n, let ops := [PIns 4 4 (Some 4); PIns 2 6 (Some 2); PIns 6 1 (Some 6); PIns 1 3 None; PDel 6; PDel 5; PIns 5 9 (Some 5); PIns 3 0 (Some 3); PDel 4; PIns 6 2 (Some 60)] in
  m_history absent_key keep_newest None (map no_prio ops) = Some (mkmmap [(1, None); (2, Some 2); (3, Some 3); (5, Some 5); (6, Some 60)] u n, [true; false; true]) /\
  exists b, (b0 <- bst_new None None None false ;; perform_prio b0 ops) = Ret (b, [true; false; true]) /\ b_root b = Some 5 /\ lower_bound b 4 = Ret (Some 5).
Proof. eexists. eexists. split; [vm_compute; reflexivity|]. eexists. split; [vm_compute; reflexivity|]. split; vm_compute; reflexivity. Qed.

(** a SplayTree made with or without a first entry: inserts of new keys (or again of the newest) and deletes in any order; a delete spares the newest key, the
    key just before it, the least and the greatest key, and leaves half of the keys ever inserted. delete reports whether the key was there, the tree has the
    entries the calls leave, and an insert brings its key to the root *)
Theorem C98_splay_history_partial : forall (D : Type) (start : option (Z * D)) (os : bool) (ops : list (bop D)) (s : mmap D) (fs : list bool), m_history absent_or_newest spare_ends start ops = Some (s, fs) ->
  let l := m_ents s in
  exists b v, history_with splay_insert splay_delete start os ops = Ret (b, fs) /\
    finds b l /\ in_order (b_mem b) (b_root b) = Ret v /\ shows v l /\
    (forall key, exists lo hi, lower_bound b key = Ret lo /\ upper_bound b key = Ret hi /\ least (fun k => key <= k) (map fst l) lo /\ least (fun k => key < k) (map fst l) hi) /\
    (forall k d, absent_or_newest s k = true -> exists b' n, splay_insert b k d = Ret b' /\ tget (b_mem b') (b_root b') = Ret n /\ n_key n = Some k).
Proof.
  intros D start os ops s fs H l. destruct (p_history start os ops s fs H) as (b & T & E1 & G & O). assert (GG := G). destruct G as [GD GH GO GE GI GU GN]. subst l. rewrite <- GI. assert (HT := o_at _ _ GH). assert (W := tree_wtree _ _ _ HT).
  exists b, (infos T). split; [exact E1|]. split; [apply wfinds; assumption|]. split; [apply in_order_w; assumption|]. split; [apply (ents_okeys T GO)|].
  split; [intros key; apply bounds_view_at; assumption|]. intros k d HA. destruct (p_insert b T s k d GG HA) as (b' & T' & E2 & G2 & RK & _). destruct T' as [|l' i' x' r']; [discriminate|]. cbn [rkey] in RK. assert (HT2 := o_at _ _ (mg_h _ _ _ G2)). exists b', (mknode x' (root l') (root r') None). split; [exact E2|].
  split; [|exact RK]. assert (HR := proj2 (proj2 HT2)). cbn [root] in HR. rewrite HR. apply tget_ok. apply (proj1 (proj1 HT2)).
Qed.
Print Assumptions C98_splay_history_partial.
Example C98_history_case : exists u n, let ops := [BIns 4 (Some 4); BIns 2 (Some 2); BIns 6 (Some 6); BIns 1 None; BDel 4; BDel 5; BIns 5 (Some 5); BIns 5 (Some 50); BIns 3 (Some 3); BIns 7 (Some 7); BDel 2; BIns 8 (Some 8); BDel 6] in
  m_history absent_or_newest spare_ends None ops = Some (mkmmap [(1, None); (3, Some 3); (5, Some 50); (7, Some 7); (8, Some 8)] u n, [true; false; true; true]) /\
  exists b, history_with splay_insert splay_delete None true ops = Ret (b, [true; false; true; true]) /\ lower_bound b 4 = Ret (Some 5).
Proof. eexists. eexists. split; [vm_compute; reflexivity|]. eexists. split; [vm_compute; reflexivity|]. vm_compute; reflexivity. Qed.

(** a RedBlackTree: inserts of new keys and deletes in any order; a delete spares the newest key and the key just after it, leaves two keys, and leaves half of
    the keys ever inserted. delete reports whether the key was there; the tree has the entries the calls leave, the root is black, no red node has a red child
    and every way down meets the same number of black nodes *)
Theorem C96_rb_history_partial : forall (D : Type) (os : bool) (ops : list (bop D)) (s : mmap D) (fs : list bool), m_history absent_key spare_older None ops = Some (s, fs) ->
  let l := m_ents s in
  exists b T v, history_with rb_insert rb_delete None os ops = Ret (b, fs) /\
    finds b l /\ in_order (b_mem b) (b_root b) = Ret v /\ shows v l /\
    (forall key, exists lo hi, lower_bound b key = Ret lo /\ upper_bound b key = Ret hi /\ least (fun k => key <= k) (map fst l) lo /\ least (fun k => key < k) (map fst l) hi) /\
    tree_at (b_mem b) (b_root b) T /\ black T /\ no_red_red T /\ exists n, black_count T n.
Proof.
  intros D os ops s fs H l. destruct (r_history os ops s fs H) as (b & T & E1 & [G TT MK BK (n & RB) FU] & O). destruct G as [GD GH GO GE GI GU GN]. subst l. rewrite <- GI. assert (HT := o_at _ _ GH). assert (W := tree_wtree _ _ _ HT).
  exists b, T, (infos T). split; [exact E1|]. split; [apply wfinds; assumption|]. split; [apply in_order_w; assumption|]. split; [apply (ents_okeys T GO)|].
  split; [intros key; apply bounds_view_at; assumption|]. split; [exact HT|]. split; [exact BK|]. destruct (rb_spec _ _ RB) as (A1 & A2). split; [exact A1|]. exists n. exact A2.
Qed.
Print Assumptions C96_rb_history_partial.
Example C96_history_case : exists u n, let ops := [BIns 4 (Some 4); BIns 2 (Some 2); BIns 6 (Some 6); BIns 1 None; BIns 8 (Some 8); BDel 4; BDel 5; BIns 5 (Some 5); BIns 3 (Some 3); BIns 7 (Some 7); BDel 2; BIns 9 (Some 9); BDel 6; BDel 1; BIns 4 (Some 40)] in
  m_history absent_key spare_older None ops = Some (mkmmap [(3, Some 3); (4, Some 40); (5, Some 5); (7, Some 7); (8, Some 8); (9, Some 9)] u n, [true; false; true; true; true]) /\
  exists b, history_with rb_insert rb_delete None true ops = Ret (b, [true; false; true; true; true]) /\ lower_bound b 6 = Ret (Some 7).
Proof. eexists. eexists. split; [vm_compute; reflexivity|]. eexists. split; [vm_compute; reflexivity|]. vm_compute; reflexivity. Qed.
