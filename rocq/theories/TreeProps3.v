(** Deletes on the self-balancing trees: C93, C94; order statistics on them: C95. *)
From Coq Require Import Sorting.Sorted.
From Verif Require Import Base TreeModel TreeModel2 TreeSpec TreeProofs TreeRotate TreeBst TreeTrav TreeQuery TreeLca TreeDel TreeHist TreeBalSpec TreeAvl TreeAvl2 TreeSim TreeTreap TreeReins TreeMulti TreeDelSpec TreeDel2 TreeDel3 TreeDel4 TreeCompact TreeDel5.

Definition pairs (l : list Z) : list (Z * option Z) := map (fun k => (k, Some k)) l.

(** C93 fails: once three quarters of the array are empty a delete compacts it, and sets the parent of a cell by its old number; a later delete raises *)
Theorem C93_avl_compaction_refuted : exists b b', build_with avl_insert None false (pairs [1; 2; 3; 4; 5; 6; 7; 8; 9]) = Ret b /\
  delete_with avl_delete b [1; 2; 3; 4; 5] = Ret (b', [true; true; true; true; true]) /\ search b' 6 <> Ret None /\ avl_delete b' 6 = Raise AttributeError.
Proof. eexists. eexists. split; [vm_compute; reflexivity|]. split; [vm_compute; reflexivity|]. split; [vm_compute; discriminate|]. vm_compute. reflexivity. Qed.
Print Assumptions C93_avl_compaction_refuted.
(** an insert after a delete links to a cell that does not exist *)
Theorem C93_avl_insert_after_delete_refuted : exists b b', build_with avl_insert None false (pairs [1; 2; 3]) = Ret b /\ avl_delete b 3 = Ret (b', true) /\ avl_insert b' 4 (Some 4) = Raise IndexError.
Proof. eexists. eexists. split; [vm_compute; reflexivity|]. split; vm_compute; reflexivity. Qed.
Print Assumptions C93_avl_insert_after_delete_refuted.
(** deleting the root of a tree of two keys leaves the old height and size on the node that stays *)
Theorem C93_avl_two_keys_refuted : exists b b' n, build_with avl_insert None true (pairs [1; 2]) = Ret b /\ avl_delete b 1 = Ret (b', true) /\ tget (b_mem b') (b_root b') = Ret n /\ n_left n = None /\ n_right n = None /\ k_height (n_inf n) = 1 /\ k_size (n_inf n) = 2.
Proof. eexists. eexists. eexists. split; [vm_compute; reflexivity|]. split; [vm_compute; reflexivity|]. split; [vm_compute; reflexivity|]. repeat split. Qed.
Print Assumptions C93_avl_two_keys_refuted.
(** what holds: any inserts, then any deletes, at most half as many as there are keys. The tree has the remaining entries, is balanced, stores
    the right heights and (if asked for) sizes, and its queries agree with the sorted list of the remaining entries *)
Theorem C93_avl_inserts_then_deletes_partial : forall (D : Type) (start : option (Z * D)) (os : bool) (h : list (Z * option D)) (ks : list Z) (l : list (Z * option D)),
  sorted_map l (started start ++ h) -> 2 * len ks <= len l -> 0 < len l ->
  let l' := fst (deleted l ks) in
  exists b b' T v, build_with avl_insert start os h = Ret b /\ delete_with avl_delete b ks = Ret (b', map (fun _ => true) ks) /\
    finds b' l' /\ in_order (b_mem b') (b_root b') = Ret v /\ shows v l' /\
    (forall key, exists lo hi, lower_bound b' key = Ret lo /\ upper_bound b' key = Ret hi /\ least (fun k => key <= k) (map fst l') lo /\ least (fun k => key < k) (map fst l') hi) /\
    tree_at (b_mem b') (b_root b') T /\ balanced T /\
    (3 <= len l -> heights_stored T /\
      (os = true -> sizes_stored T /\
        (forall i, 1 <= i <= len l' -> exists n e, select b' i = Ret (Some n) /\ nth_error l' (Z.to_nat (i - 1)) = Some e /\ n_key n = Some (fst e) /\ k_data (n_inf n) = snd e /\ rank b' (fst e) = Ret (Some i)) /\
        (forall i, i < 1 \/ len l' < i -> select b' i = Raise ValueError) /\
        (forall x, ~ In x (map fst l') -> rank b' x = Ret None))).
Proof.
  intros D start os h ks l SM HL HP l'. assert (NE : started start ++ h <> []). { intros X. destruct SM as [_ SM]. rewrite X in SM. destruct l as [|[k d] l]; [cbn in HP; lia|]. destruct (SM k d) as [A _]. specialize (A (or_introl eq_refl)). discriminate. }
  destruct (avl_build_ok start os h NE) as (b & T & E1 & G & O). assert (SG := cont_map _ _ (a_cont _ _ _ G)). assert (EL := sorted_map_unique _ _ _ SM SG). subst l l'. rewrite len_entries in *.
  assert (GG := a_grown _ _ _ G). assert (GC := g_cap _ _ GG). assert (GN := g_nodes _ _ GG). pose proof (len_nonneg _ ks).
  destruct (avl_deletes_ok ks b T (a_def _ _ _ G) (grown_slim _ _ GG) (proj1 (a_cont _ _ _ G)) (a_ne _ _ _ G) (a_avl _ _ _ G) ltac:(lia) ltac:(lia)) as (b' & T' & E2 & D2 & SP2 & O2 & HE2 & OS2 & EN2 & AV2 & BL2).
  assert (W := tree_wtree _ _ _ (sl_at _ _ SP2)). exists b, b', T', (infos T'). split; [exact E1|]. split; [exact E2|]. rewrite <- EN2. split; [apply wfinds; [exact D2|exact W|exact O2|exact HE2]|]. split; [apply in_order_w; [exact W|exact HE2]|]. split; [apply (ents_okeys T' O2)|].
  split; [intros key; apply bounds_view_at; [exact D2|apply (sl_at _ _ SP2)|exact O2]|]. split; [apply (sl_at _ _ SP2)|]. split; [exact BL2|]. intros N3. specialize (AV2 ltac:(lia)). rewrite O in AV2. destruct (avl_spec _ _ AV2) as (_ & A2 & A3). split; [exact A2|]. intros ->. split; [apply A3; reflexivity|].
  apply os_view_at; [exact D2|apply (sl_at _ _ SP2)|apply (sl_num _ _ SP2)|exact O2|exact HE2|apply sizes_sized, A3; reflexivity].
Qed.
Print Assumptions C93_avl_inserts_then_deletes_partial.
(** six keys and three deletes, the last of which rotates *)
Example C93_case : sorted_map (pairs [1; 2; 3; 4; 5; 6]) (pairs [4; 2; 6; 1; 3; 5]) /\ deleted (pairs [1; 2; 3; 4; 5; 6]) [5; 9; 6] = (pairs [1; 2; 3; 4], [true; false; true]) /\
  exists b b', build_with avl_insert None true (pairs [4; 2; 6; 1; 3; 5]) = Ret b /\ b_root b = Some 0 /\ delete_with avl_delete b [5; 9; 6] = Ret (b', [true; true; true]) /\ b_root b' = Some 1.
Proof.
  split; [|split; [reflexivity|eexists; eexists; split; [vm_compute; reflexivity|]; split; [reflexivity|]; split; vm_compute; reflexivity]]. split; [repeat constructor|]. intros k d. unfold pairs. cbn [map last_data In].
  destruct (Z.eqb_spec k 1), (Z.eqb_spec k 2), (Z.eqb_spec k 5), (Z.eqb_spec k 3), (Z.eqb_spec k 6), (Z.eqb_spec k 4); subst; try lia; (split; [intros H; repeat (destruct H as [H|H]; [congruence|]); destruct H|intros H; try discriminate; injection H as <-; auto 10]).
Qed.

(** C94: CartesianTree and Treap. Any inserts (with any priorities), then any deletes that do not remove the last key: delete reports which keys were there,
    the tree has the remaining entries and its queries agree with the sorted list of them *)
Theorem C94_cartesian_contents_partial : forall (D : Type) (os : bool) (h : list (Z * Z * option D)) (ks : list Z) (l : list (Z * option D)),
  sorted_map l (map (fun e => (fst (fst e), snd e)) h) -> fst (deleted l ks) <> [] ->
  let l' := fst (deleted l ks) in
  exists b b' T v, (b0 <- bst_new None None None os ;; insert_prio b0 h) = Ret b /\ delete_with cart_delete b ks = Ret (b', snd (deleted l ks)) /\
    finds b' l' /\ tree_at (b_mem b') (b_root b') T /\ in_order (b_mem b') (b_root b') = Ret v /\ shows v l' /\
    (forall key, exists lo hi, lower_bound b' key = Ret lo /\ upper_bound b' key = Ret hi /\ least (fun k => key <= k) (map fst l') lo /\ least (fun k => key < k) (map fst l') hi).
Proof.
  intros D os h ks l SM HN l'. assert (NE : h <> []). { intros ->. apply HN. destruct SM as [_ SM]. destruct l as [|[k d] l]; [apply deleted_nil|]. destruct (SM k d) as [A _]. specialize (A (or_introl eq_refl)). discriminate. }
  destruct (cart_build_w os h NE) as (b & T & E1 & G & O). assert (SG := cont_map _ _ (c_cont _ _ _ G)). assert (EL := sorted_map_unique _ _ _ SM SG). subst l l'.
  destruct (cart_deletes_ok ks b T (c_def _ _ _ G) (grown_snug _ _ (c_grown _ _ _ G)) (proj1 (c_cont _ _ _ G)) (c_ne _ _ _ G) (c_rank _ _ _ G) HN) as (b' & T' & E2 & D2 & SP2 & O2 & HE2 & RK2 & OS2 & EN2 & HH2). assert (HT := sl_at _ _ (sn_slim _ _ SP2)).
  assert (W := tree_wtree _ _ _ HT). exists b, b', T', (infos T'). split; [exact E1|]. split; [exact E2|]. rewrite <- EN2. split; [apply wfinds; [exact D2|exact W|exact O2|exact HE2]|]. split; [exact HT|]. split; [apply in_order_w; [exact W|exact HE2]|]. split; [apply (ents_okeys T' O2)|].
  intros key; apply bounds_view_at; [exact D2|exact HT|exact O2].
Qed.
Print Assumptions C94_cartesian_contents_partial.
(** and if no key was inserted twice the priorities are still in heap order *)
Theorem C94_cartesian_heap_partial : forall (D : Type) (os : bool) (h : list (Z * Z * option D)) (ks : list Z) (l : list (Z * option D)),
  sorted_map l (map (fun e => (fst (fst e), snd e)) h) -> NoDup (map (fun e => fst (fst e)) h) -> fst (deleted l ks) <> [] ->
  exists b b' T v, (b0 <- bst_new None None None os ;; insert_prio b0 h) = Ret b /\ delete_with cart_delete b ks = Ret (b', snd (deleted l ks)) /\
    tree_at (b_mem b') (b_root b') T /\ heap_ordered T /\ in_order (b_mem b') (b_root b') = Ret v /\ shows v (fst (deleted l ks)).
Proof.
  intros D os h ks l SM ND HN. assert (NE : h <> []). { intros ->. apply HN. destruct SM as [_ SM]. destruct l as [|[k d] l]; [apply deleted_nil|]. destruct (SM k d) as [A _]. specialize (A (or_introl eq_refl)). discriminate. }
  assert (ND' : NoDup (map fst (drop_prio h))) by (unfold drop_prio; rewrite map_map; exact ND). destruct (cart_build_ok os h NE ND') as (b & T & E1 & G & O). assert (SG := cont_map _ _ (t_cont _ _ _ G)). assert (EL := sorted_map_unique _ _ _ SM SG). subst l.
  destruct (cart_deletes_ok ks b T (t_def _ _ _ G) (grown_snug _ _ (t_grown _ _ _ G)) (proj1 (t_cont _ _ _ G)) (t_ne _ _ _ G) (heap_ranked _ _ (t_heap _ _ _ G)) HN) as (b' & T' & E2 & D2 & SP2 & O2 & HE2 & RK2 & OS2 & EN2 & HH2). assert (HT := sl_at _ _ (sn_slim _ _ SP2)).
  assert (W := tree_wtree _ _ _ HT). exists b, b', T', (infos T'). split; [exact E1|]. split; [exact E2|]. rewrite <- EN2. split; [exact HT|]. split; [apply (heap_spec T' None), HH2, (t_heap _ _ _ G)|]. split; [apply in_order_w; [exact W|exact HE2]|]. apply (ents_okeys T' O2).
Qed.
Print Assumptions C94_cartesian_heap_partial.
(** twelve keys, eleven deletes: the array (of 15 cells) is compacted on the way *)
Definition hist12 : list (Z * Z * option Z) := map (fun k => (k, (k * 7) mod 5, Some k)) [1; 2; 3; 4; 5; 6; 7; 8; 9; 10; 11; 12].
Example C94_case : sorted_map (pairs [1; 2; 3; 4; 5; 6; 7; 8; 9; 10; 11; 12]) (map (fun e => (fst (fst e), snd e)) hist12) /\ NoDup (map (fun e => fst (fst e)) hist12) /\
  deleted (pairs [1; 2; 3; 4; 5; 6; 7; 8; 9; 10; 11; 12]) [3; 1; 9; 4; 5; 17; 6; 2; 11; 10; 8] = (pairs [7; 12], [true; true; true; true; true; false; true; true; true; true; true]) /\
  exists b b', (b0 <- bst_new None None None false ;; insert_prio b0 hist12) = Ret b /\ len (b_mem b) = 15 /\ delete_with cart_delete b [3; 1; 9; 4; 5; 17; 6; 2; 11; 10; 8] = Ret (b', [true; true; true; true; true; false; true; true; true; true; true]) /\ len (b_mem b') = 7.
Proof.
  split; [|split; [|split; [reflexivity|]]].
  - assert (ND : NoDup (map fst (pairs [1; 2; 3; 4; 5; 6; 7; 8; 9; 10; 11; 12]))) by (vm_compute; repeat constructor; cbn; intuition lia).
    change (map (fun e => (fst (fst e), snd e)) hist12) with (pairs [1; 2; 3; 4; 5; 6; 7; 8; 9; 10; 11; 12]). split; [repeat constructor|].
    intros k d. unfold pairs. cbn [map last_data In]. destruct (Z.eqb_spec k 1), (Z.eqb_spec k 2), (Z.eqb_spec k 3), (Z.eqb_spec k 4), (Z.eqb_spec k 5), (Z.eqb_spec k 6), (Z.eqb_spec k 7), (Z.eqb_spec k 8), (Z.eqb_spec k 9), (Z.eqb_spec k 10), (Z.eqb_spec k 11), (Z.eqb_spec k 12); subst; try lia;
      (split; [intros H; repeat (destruct H as [H|H]; [congruence|]); destruct H|intros H; try discriminate; injection H as <-; auto 14]).
  - vm_compute. repeat constructor; cbn; intuition lia.
  - eexists. eexists. split; [vm_compute; reflexivity|]. split; [reflexivity|]. split; vm_compute; reflexivity.
Qed.
(** C94 fails in general: an insert after a delete links to a cell that does not exist *)
Theorem C94_insert_after_delete_refuted : exists b b', (b0 <- bst_new None None None false ;; insert_prio b0 [(1, 1, Some 1); (2, 2, Some 2); (3, 3, Some 3)]) = Ret b /\ cart_delete b 3 = Ret (b', true) /\ cart_insert b' 4 4 (Some 4) = Raise IndexError.
Proof. eexists. eexists. split; [vm_compute; reflexivity|]. split; vm_compute; reflexivity. Qed.
Print Assumptions C94_insert_after_delete_refuted.
(** deleting the last key leaves a node without a key, which the traversals list *)
Theorem C94_emptied_refuted : exists b b' x, (b0 <- bst_new None None None false ;; insert_prio b0 [(1, 1, Some 1)]) = Ret b /\ cart_delete b 1 = Ret (b', true) /\ in_order (b_mem b') (b_root b') = Ret [x] /\ k_key x = None.
Proof. eexists. eexists. eexists. split; [vm_compute; reflexivity|]. split; [vm_compute; reflexivity|]. split; vm_compute; reflexivity. Qed.
Print Assumptions C94_emptied_refuted.

(** C95: select and rank of the self-balancing trees. They are right on an AVLTree *)
Theorem C95_avl_partial : forall (D : Type) (start : option (Z * D)) (h l : list (Z * option D)), sorted_map l (started start ++ h) -> l <> [] ->
  exists b, build_with avl_insert start true h = Ret b /\
    (forall i, 1 <= i <= len l -> exists n e, select b i = Ret (Some n) /\ nth_error l (Z.to_nat (i - 1)) = Some e /\ n_key n = Some (fst e) /\ k_data (n_inf n) = snd e /\ rank b (fst e) = Ret (Some i)) /\
    (forall i, i < 1 \/ len l < i -> select b i = Raise ValueError) /\
    (forall x, ~ In x (map fst l) -> rank b x = Ret None).
Proof.
  intros D start h l SM NL. assert (NE : started start ++ h <> []). { intros X. destruct SM as [_ SM]. rewrite X in SM. destruct l as [|[k d] l]; [congruence|]. destruct (SM k d) as [A _]. specialize (A (or_introl eq_refl)). discriminate. }
  destruct (avl_build_ok start true h NE) as (b & T & E1 & G & O). assert (SG := cont_map _ _ (a_cont _ _ _ G)). rewrite (sorted_map_unique _ _ _ SM SG) in *. exists b. split; [exact E1|].
  destruct (avl_spec (b_os b) T (a_avl _ _ _ G)) as (_ & _ & A3). apply (os_view b T (a_def _ _ _ G) (a_grown _ _ _ G) (proj1 (a_cont _ _ _ G)) (a_ne _ _ _ G)). apply sizes_sized. auto.
Qed.
Print Assumptions C95_avl_partial.
Example C95_case : exists b n, build_with avl_insert None true (pairs [1; 2; 3; 4]) = Ret b /\ b_root b = Some 1 /\ select b 3 = Ret (Some n) /\ n_key n = Some 3 /\ rank b 4 = Ret (Some 4).
Proof. eexists. eexists. split; [vm_compute; reflexivity|]. split; [reflexivity|]. split; [vm_compute; reflexivity|]. split; vm_compute; reflexivity. Qed.
(** the rotations of the other trees do not move the sizes: with 1..4 inserted the rank of 4 is not 4 *)
Theorem C95_treap_refuted : exists b, (b0 <- bst_new None None None true ;; insert_prio b0 [(1, 4, Some 1); (2, 3, Some 2); (3, 2, Some 3); (4, 1, Some 4)]) = Ret b /\ rank b 4 = Ret (Some 7) /\ select b 2 = Raise IndexError.
Proof. eexists. split; [vm_compute; reflexivity|]. split; vm_compute; reflexivity. Qed.
Print Assumptions C95_treap_refuted.
Theorem C95_red_black_refuted : exists b, build_with rb_insert None true (pairs [1; 2; 3; 4]) = Ret b /\ rank b 4 = Ret (Some 6) /\ select b 2 = Raise IndexError.
Proof. eexists. split; [vm_compute; reflexivity|]. split; vm_compute; reflexivity. Qed.
Print Assumptions C95_red_black_refuted.
Theorem C95_splay_refuted : exists b, build_with splay_insert None true (pairs [1; 2; 3; 4]) = Ret b /\ rank b 4 = Ret (Some 7) /\ select b 2 = Raise IndexError.
Proof. eexists. split; [vm_compute; reflexivity|]. split; vm_compute; reflexivity. Qed.
Print Assumptions C95_splay_refuted.
