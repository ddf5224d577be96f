(** Inserts and deletes on a BinarySearchTree in any order: C58, C60, C61, C62. [bmap_run] (TreeHist2Spec.v) follows the history on a sorted list and says
    which histories are meant: those that stay clear of the failures shown by the C58 counterexamples. *)
From Coq Require Import Sorting.Sorted.
From Verif Require Import Base TreeModel TreeModel2 TreeSpec TreeProofs TreeRotate TreeBst TreeTrav TreeQuery TreeLca TreeDel TreeHist TreeMulti TreeHist2Spec TreeHist2 TreeHist3.

Definition start_history {D} (os : bool) (k0 : Z) (d0 : option D) (ops : list (bop D)) : res (bst D * list bool) := b <- build None None os [(k0, d0)] ;; perform b ops.
Lemma history_ok {D} os k0 (d0 : option D) ops s fs : bmap_run (bmap_first k0 d0) ops = Some (s, fs) -> exists b T, start_history os k0 d0 ops = Ret (b, fs) /\ hgood b T s /\ b_os b = os.
Proof. intros H. destruct (hg_run ops _ _ _ _ _ (hg_start os k0 d0) H) as (b & T & E1 & G & O). exists b, T. auto. Qed.

(** C58: the deletes report which keys were there; afterwards search and the in-order traversal show exactly the entries of the sorted list *)
Theorem C58_bst_history_partial : forall (D : Type) (os : bool) (k0 : Z) (d0 : option D) (ops : list (bop D)) (s : bmap D) (fs : list bool),
  bmap_run (bmap_first k0 d0) ops = Some (s, fs) ->
  exists b v, start_history os k0 d0 ops = Ret (b, fs) /\ StronglySorted Z.lt (map fst (s_ents s)) /\ finds b (s_ents s) /\ in_order (b_mem b) (b_root b) = Ret v /\ shows v (s_ents s).
Proof.
  intros D os k0 d0 ops s fs H. destruct (history_ok os k0 d0 ops s fs H) as (b & T & E1 & G & _). assert (W := tree_wtree _ _ _ (o_at _ _ (hg_h _ _ _ G))). exists b, (infos T). split; [exact E1|]. rewrite <- (hg_ents _ _ _ G). assert (OO := hg_ord _ _ _ G).
  split; [apply (entries_ok _ OO)|]. split; [apply wfinds; [apply (hg_def _ _ _ G)|exact W|exact OO|apply (hg_ne _ _ _ G)]|]. split; [apply in_order_w; [exact W|apply (hg_ne _ _ _ G)]|]. apply (ents_okeys T OO).
Qed.
Print Assumptions C58_bst_history_partial.
(** a history with inserts after deletes: leaves, a node with two children, the root, an absent key, a key inserted again after its delete, an update *)
Definition demo_ops : list (bop Z) := [BIns 20 (Some 1); BIns 60 (Some 2); BIns 10 (Some 3); BIns 30 (Some 4); BIns 70 (Some 5); BIns 55 (Some 6); BIns 99 None; BDel 20; BDel 21; BIns 57 (Some 7); BDel 50; BIns 20 (Some 8); BDel 30; BIns 70 (Some 9)].
Example C58_history_case : bmap_run (bmap_first 50 (Some 0)) demo_ops = Some (mkbmap [(10, Some 3); (20, Some 8); (55, Some 6); (57, Some 7); (60, Some 2); (70, Some 9); (99, None)] 10 20 55, [true; false; true; true]) /\
  exists b, start_history true 50 (Some 0) demo_ops = Ret (b, [true; false; true; true]) /\ search b 57 = Ret (Some 8) /\ select b 3 <> Ret None /\ rank b 55 = Ret (Some 3) /\ lca_1 b 57 99 = Ret (Some 60) /\ lca_2 b 57 99 = Ret (Some 60) /\ lower_bound b 56 = Ret (Some 57).
Proof. split; [vm_compute; reflexivity|]. eexists. split; [vm_compute; reflexivity|]. repeat split; try (vm_compute; reflexivity). vm_compute. discriminate. Qed.

(** C60: lower_bound and upper_bound give the least key of the list that is >= resp. > the given key *)
Theorem C60_bounds_history : forall (D : Type) (os : bool) (k0 : Z) (d0 : option D) (ops : list (bop D)) (s : bmap D) (fs : list bool) (key : Z),
  bmap_run (bmap_first k0 d0) ops = Some (s, fs) ->
  exists b lo hi, start_history os k0 d0 ops = Ret (b, fs) /\ lower_bound b key = Ret lo /\ upper_bound b key = Ret hi /\
    least (fun k => key <= k) (map fst (s_ents s)) lo /\ least (fun k => key < k) (map fst (s_ents s)) hi.
Proof.
  intros D os k0 d0 ops s fs key H. destruct (history_ok os k0 d0 ops s fs H) as (b & T & E1 & G & _). rewrite <- (hg_ents _ _ _ G). destruct (bounds_view_at b T key (hg_def _ _ _ G) (o_at _ _ (hg_h _ _ _ G)) (hg_ord _ _ _ G)) as (lo & hi & X). exists b, lo, hi. tauto.
Qed.
Print Assumptions C60_bounds_history.

(** whatever led to it: every array that holds a search tree (links and parents right, keys ascending in order), balanced or not, compacted or not *)
Theorem C60_bounds_any_tree : forall (D : Type) (b : bst D) (T : bt D) (key : Z), default b -> tree_at (b_mem b) (b_root b) T -> ordered (infos T) ->
  exists lo hi, lower_bound b key = Ret lo /\ upper_bound b key = Ret hi /\ least (fun k => key <= k) (map fst (entries T)) lo /\ least (fun k => key < k) (map fst (entries T)) hi.
Proof. intros D b T key HD HT HO. apply bounds_view_at; assumption. Qed.
Print Assumptions C60_bounds_any_tree.

(** C61: select(i) is the i-th entry, rank its inverse, ValueError outside the range, None for an absent key *)
Theorem C61_order_statistics_history_partial : forall (D : Type) (k0 : Z) (d0 : option D) (ops : list (bop D)) (s : bmap D) (fs : list bool),
  bmap_run (bmap_first k0 d0) ops = Some (s, fs) -> let l := s_ents s in
  exists b, start_history true k0 d0 ops = Ret (b, fs) /\
    (forall i, 1 <= i <= len l -> exists n e, select b i = Ret (Some n) /\ nth_error l (Z.to_nat (i - 1)) = Some e /\ n_key n = Some (fst e) /\ k_data (n_inf n) = snd e /\ rank b (fst e) = Ret (Some i)) /\
    (forall i, i < 1 \/ len l < i -> select b i = Raise ValueError) /\
    (forall x, ~ In x (map fst l) -> rank b x = Ret None).
Proof.
  intros D k0 d0 ops s fs H l. destruct (history_ok true k0 d0 ops s fs H) as (b & T & E1 & G & O). exists b. split; [exact E1|]. unfold l. rewrite <- (hg_ents _ _ _ G).
  apply os_view_at; [apply (hg_def _ _ _ G)|apply (o_at _ _ (hg_h _ _ _ G))|apply (o_num _ _ (hg_h _ _ _ G))|apply (hg_ord _ _ _ G)|apply (hg_ne _ _ _ G)|apply (hg_sz _ _ _ G); exact O].
Qed.
Print Assumptions C61_order_statistics_history_partial.

(** C62: both algorithms; algorithm 2 unless a key is the root's. T is the tree in the array, its keys are those of the list *)
Theorem C62_lca_history_partial : forall (D : Type) (os : bool) (k0 : Z) (d0 : option D) (ops : list (bop D)) (s : bmap D) (fs : list bool) (j k : Z),
  bmap_run (bmap_first k0 d0) ops = Some (s, fs) ->
  exists b T, start_history os k0 d0 ops = Ret (b, fs) /\ tree_at (b_mem b) (b_root b) T /\ (forall x, has T x <-> In x (map fst (s_ents s))) /\ rkey T = Some (s_rootk s) /\
    (has T j -> has T k -> exists z, lca_1 b j k = Ret (Some z) /\ is_lca T j k z) /\ (~ has T j \/ ~ has T k -> lca_1 b j k = Raise ValueError) /\
    (has T j -> has T k -> j <> s_rootk s -> k <> s_rootk s -> exists z, lca_2 b j k = Ret (Some z) /\ is_lca T j k z) /\ (~ has T j \/ ~ has T k -> lca_2 b j k = Raise ValueError).
Proof.
  intros D os k0 d0 ops s fs j k H. destruct (history_ok os k0 d0 ops s fs H) as (b & T & E1 & G & _). assert (HT := o_at _ _ (hg_h _ _ _ G)). assert (OO := hg_ord _ _ _ G). exists b, T. split; [exact E1|]. split; [exact HT|]. split.
  - intros x. rewrite <- (hg_ents _ _ _ G). unfold entries. rewrite map_map, in_map_iff. unfold has. destruct OO as [OO _]. rewrite Forall_forall in OO. split.
    + intros (y & Hy & Ey). exists y. split; [apply fst_entry; exact Ey|exact Hy].
    + intros (y & Ey & Hy). exists y. split; [exact Hy|]. specialize (OO y Hy). unfold kis in OO. destruct (k_key y) as [ky|] eqn:Eky; [|destruct OO]. rewrite (fst_entry y ky Eky) in Ey. congruence.
  - split; [apply (hg_rk _ _ _ G)|]. destruct (lca_1_ok b T j k HT (hg_root _ _ _ G) OO) as [A1 A2]. split; [exact A1|]. split; [exact A2|].
    assert (RR := hg_rk _ _ _ G). apply (lca_2_ok b T j k (s_rootk s) (hg_def _ _ _ G) HT OO). destruct T as [|l i x r]; [discriminate|]. exists l, i, x, r. auto.
Qed.
Print Assumptions C62_lca_history_partial.
