(** The tree a BinarySearchTree is after inserts and deletes is the textbook tree (C57, C58, C61), also when deletes compact the array. *)
From Coq Require Import Sorting.Sorted.
From Verif Require Import Base TreeModel TreeModel2 TreeSpec TreeProofs TreeBst TreeTrav TreeQuery TreeLca TreeDel TreeHist TreeHist2 TreeSim TreeDel2 TreeCompact TreeDel5 TreeRbDel2 TreeMulti TreeMix2 TreeMix3 TreeShapeSpec TreeShape TreeShape2 TreeShape3.

(** a BinarySearchTree made with or without a first entry, then any inserts, then deletes of keys [deletable] allows (any number, compactions included): delete
    reports which keys were there; the tree is the textbook tree, node by node (the pre-order traversal with search order determines it); search finds its
    entries; both bounds are those of its keys *)
Theorem C58_bst_shape_partial : forall (D : Type) (start : option (Z * D)) (os : bool) (h : list (Z * option D)) (ks : list Z) (s : sstate D) (fs : list bool),
  started start ++ h <> [] -> st_deletes ks (st_inserts (started start ++ h)) = Some (s, fs) ->
  exists b b' v w, build start None os h = Ret b /\ delete_all b ks = Ret (b', fs) /\
    pre_order (b_mem b') (b_root b') = Ret v /\ shows v (st_pre (s_tree s)) /\
    in_order (b_mem b') (b_root b') = Ret w /\ shows w (st_list (s_tree s)) /\ StronglySorted Z.lt (map fst (st_list (s_tree s))) /\
    finds b' (st_list (s_tree s)) /\
    (forall key, exists lo hi, lower_bound b' key = Ret lo /\ upper_bound b' key = Ret hi /\ least (fun k => key <= k) (map fst (st_list (s_tree s))) lo /\ least (fun k => key < k) (map fst (st_list (s_tree s))) hi).
Proof.
  intros D start os h ks s fs NE H. destruct (build_shape start os h NE) as (b & T & E1 & G & _). destruct (shape_deletes ks _ _ _ _ _ (shaped_stands _ _ _ _ G) H) as (b' & T' & E2 & G' & _).
  destruct (stands_shows _ _ _ G') as (F & (w & I1 & I2) & (v & P1 & P2)). exists b, b', v, w. split; [exact E1|]. split; [exact E2|]. split; [exact P1|]. split; [exact P2|]. split; [exact I1|]. split; [exact I2|].
  destruct G' as (HD & SN & HO & HE & SK & _). rewrite <- SK, skel_list. split; [apply (entries_ok _ HO)|]. split; [rewrite <- SK, skel_list in F; exact F|].
  intros key. apply bounds_view_at; try assumption. apply (sl_at _ _ (sn_slim _ _ SN)).
Qed.
Print Assumptions C58_bst_shape_partial.

(** C61: rank and select after any inserts and such deletes: select gives the i-th entry in key order, rank inverts it *)
Theorem C61_order_statistics_compacting_partial : forall (D : Type) (start : option (Z * D)) (h : list (Z * option D)) (ks : list Z) (s : sstate D) (fs : list bool),
  started start ++ h <> [] -> st_deletes ks (st_inserts (started start ++ h)) = Some (s, fs) ->
  let l := st_list (s_tree s) in
  exists b b', build start None true h = Ret b /\ delete_all b ks = Ret (b', fs) /\
    (forall i, 1 <= i <= len l -> exists n e, select b' i = Ret (Some n) /\ nth_error l (Z.to_nat (i - 1)) = Some e /\ n_key n = Some (fst e) /\ k_data (n_inf n) = snd e /\ rank b' (fst e) = Ret (Some i)) /\
    (forall i, i < 1 \/ len l < i -> select b' i = Raise ValueError) /\
    (forall x, ~ In x (map fst l) -> rank b' x = Ret None).
Proof.
  intros D start h ks s fs NE H l. destruct (build_shape start true h NE) as (b & T & E1 & G & OS). destruct (shape_deletes ks _ _ _ _ _ (shaped_stands _ _ _ _ G) H) as (b' & T' & E2 & (HD & SN & HO & HE & SK & _) & _ & SZ & _).
  exists b, b'. split; [exact E1|]. split; [exact E2|]. subst l. rewrite <- SK, skel_list. assert (HT := sl_at _ _ (sn_slim _ _ SN)). assert (HN := sl_num _ _ (sn_slim _ _ SN)).
  destruct (SZ OS (or_introl (h_sz _ _ _ (proj1 G) OS))) as [HZ|H1]; [apply os_view_at; assumption|].
  destruct (one_alone T' H1) as (i & x & ->). rewrite H1 in HN. apply (os_view_one b' i x); assumption.
Qed.
Print Assumptions C61_order_statistics_compacting_partial.

(** C62: both algorithms after any inserts and such deletes: the answer is the key of the deepest node with both keys below or at it in the tree held, which is the
    textbook tree; algorithm 2 unless a key is the root's *)
Theorem C62_lca_compacting_partial : forall (D : Type) (start : option (Z * D)) (os : bool) (h : list (Z * option D)) (ks : list Z) (s : sstate D) (fs : list bool) (j k : Z),
  started start ++ h <> [] -> st_deletes ks (st_inserts (started start ++ h)) = Some (s, fs) ->
  exists b b' T, build start None os h = Ret b /\ delete_all b ks = Ret (b', fs) /\ tree_at (b_mem b') (b_root b') T /\ shows (pre T) (st_pre (s_tree s)) /\ shows (infos T) (st_list (s_tree s)) /\
    (has T j -> has T k -> exists z, lca_1 b' j k = Ret (Some z) /\ is_lca T j k z) /\ (~ has T j \/ ~ has T k -> lca_1 b' j k = Raise ValueError) /\
    (has T j -> has T k -> rkey T <> Some j -> rkey T <> Some k -> exists z, lca_2 b' j k = Ret (Some z) /\ is_lca T j k z) /\ (~ has T j \/ ~ has T k -> lca_2 b' j k = Raise ValueError).
Proof.
  intros D start os h ks s fs j k NE H. destruct (build_shape start os h NE) as (b & T & E1 & G & _). destruct (shape_deletes ks _ _ _ _ _ (shaped_stands _ _ _ _ G) H) as (b' & T' & E2 & G' & _ & _ & RZ).
  destruct (stands_shows _ _ _ G') as (_ & (w & I1 & I2) & (v & P1 & P2)). destruct G' as (HD & SN & HO & HE & SK & _). assert (HT := sl_at _ _ (sn_slim _ _ SN)). exists b, b', T'. split; [exact E1|]. split; [exact E2|]. split; [exact HT|].
  assert (W := tree_wtree _ _ _ HT). rewrite (in_order_w _ _ W HE) in I1. injection I1 as <-. split; [|split; [exact I2|]].
  - destruct HT as (HR & ND & ER). rewrite ER in P1. destruct T' as [|l i x r]; [congruence|]. cbn [root] in P1; rewrite (pre_order_ok _ _ _ _ HR ND eq_refl) in P1. injection P1 as <-. exact P2.
  - destruct (lca_1_ok b' T' j k HT (RZ (h_root _ _ _ (proj1 G))) HO) as [A1 A2]. split; [exact A1|]. split; [exact A2|].
    destruct T' as [|l i x r]; [congruence|]. assert (KX : exists kr, k_key x = Some kr) by (destruct HO as [HO _]; rewrite Forall_forall in HO; specialize (HO x ltac:(cbn [infos]; rewrite in_app_iff; cbn [In]; auto)); unfold kis in HO; destruct (k_key x); [eauto|destruct HO]). destruct KX as (kr & KX).
    destruct (lca_2_ok b' _ j k kr HD HT HO ltac:(exists l, i, x, r; auto)) as [B1 B2]. split; [|exact B2]. intros H1 H2 N1 N2. cbn [rkey] in *. rewrite KX in N1, N2. apply B1; congruence.
Qed.
Print Assumptions C62_lca_compacting_partial.

(** the tree after any inserts, whatever the keys are, node by node *)
Theorem C57_bst_insert_shape : forall (D : Type) (start : option (Z * D)) (os : bool) (h : list (Z * option D)), started start ++ h <> [] ->
  let t := fold_left (fun t e => st_put (fst e) (snd e) t) (started start ++ h) Leaf in
  exists b v, build start None os h = Ret b /\ pre_order (b_mem b) (b_root b) = Ret v /\ shows v (st_pre t) /\ finds b (st_list t) /\ StronglySorted Z.lt (map fst (st_list t)).
Proof.
  intros D start os h NE t. destruct (build_shape start os h NE) as (b & T & E1 & G & _).
  assert (ET : s_tree (st_inserts (started start ++ h)) = t).
  { assert (A : forall l (a : sstate D), s_tree (fold_left (fun s e => st_insert (fst e) (snd e) s) l a) = fold_left (fun t e => st_put (fst e) (snd e) t) l (s_tree a)) by (induction l as [|e l IH]; intros a; cbn [fold_left]; [reflexivity|]; rewrite IH; reflexivity). apply A. }
  destruct (stands_shows _ _ _ (shaped_stands _ _ _ _ G)) as (F & _ & (v & P1 & P2)). rewrite ET in *. exists b, v. split; [exact E1|]. split; [exact P1|]. split; [exact P2|]. split; [exact F|].
  destruct G as (G & SK & _). rewrite ET in SK. rewrite <- SK, skel_list. apply (entries_ok _ (h_ord _ _ _ G)).
Qed.
Print Assumptions C57_bst_insert_shape.

(** fifteen keys in 15 cells; fifteen deletes, two of them compacting: nodes with two subtrees (the root's key, twice), nodes with one, leaves, an absent key *)
Definition shape_keys : list (Z * option Z) := map (fun k => (k, Some (100 * k))) [50; 20; 70; 10; 30; 60; 90; 5; 25; 35; 65; 80; 95; 33; 37; 50].
Example C58_shape_case :
  let s := st_inserts ((50, Some 1) :: shape_keys) in
  (s_cells s = 15 /\ st_size (s_tree s) = 15) /\
  (exists s', st_deletes [10; 50; 20; 77; 65; 37; 30; 33; 25; 90; 35; 70; 80; 60; 5] s = Some (s', [true; true; true; false; true; true; true; true; true; true; true; true; true; true; true]) /\
    s_cells s' = 3 /\ s_tree s' = Node Leaf 95 (Some 9500) Leaf) /\
  (exists s', st_deletes [10; 50; 20; 77; 65; 37; 30; 33; 25; 90; 35; 70; 80] s = Some (s', [true; true; true; false; true; true; true; true; true; true; true; true; true]) /\
    s_cells s' = 7 /\ s_tree s' = Node (Node Leaf 5 (Some 500) Leaf) 60 (Some 6000) (Node Leaf 95 (Some 9500) Leaf)).
Proof. split; [split; vm_compute; reflexivity|]. split; (eexists; split; [vm_compute; reflexivity|]; repeat apply conj; vm_compute; reflexivity). Qed.
Example C61_C62_compacting_case : exists b b', build (Some (50, 1)) None true shape_keys = Ret b /\ delete_all b [10; 50; 20; 77; 65; 37; 30; 33; 25; 90; 35; 70; 80] = Ret (b', [true; true; true; false; true; true; true; true; true; true; true; true; true]) /\
  len (b_mem b') = 7 /\ map (fun i => match select b' i with Ret (Some n) => n_key n | _ => None end) [1; 2; 3] = [Some 5; Some 60; Some 95] /\ map (rank b') [60; 95; 50] = [Ret (Some 2); Ret (Some 3); Ret None] /\
  lca_1 b' 5 95 = Ret (Some 60) /\ lca_2 b' 5 95 = Ret (Some 60) /\ lca_1 b' 60 95 = Ret (Some 60) /\ lca_1 b' 50 60 = Raise ValueError.
Proof. do 2 eexists. split; [vm_compute; reflexivity|]. split; [vm_compute; reflexivity|]. repeat apply conj; vm_compute; reflexivity. Qed.
