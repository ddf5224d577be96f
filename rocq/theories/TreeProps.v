(** BinarySearchTree, rotations and traversals: C57-C63, C69. *)
From Coq Require Import Sorting.Sorted.
From Verif Require Import Base TreeModel TreeSpec TreeProofs TreeRotate TreeBst TreeTrav TreeQuery TreeLca TreeDel TreeHist.

(** C57: for every history of inserts (after any constructor call), the tree is the map of the last data of each key *)
Theorem C57_bst_insert_histories : forall (D : Type) (start : option (Z * D)) (os : bool) (h : list (Z * option D)),
  let H := started start ++ h in
  exists b, build start None os h = Ret b /\
    exists l, sorted_map l H /\ finds b l /\
      (H <> [] -> exists v, in_order (b_mem b) (b_root b) = Ret v /\ shows v l).
Proof.
  intros D start os h H. destruct (list_eq_dec_nil H) as [E0|NE].
  - destruct start as [[k d]|]; [discriminate|]. cbn [started app] in H. unfold H in *. rewrite E0. exists (fresh os). split; [reflexivity|]. exists []. split; [split; [constructor|]|].
    + intros k d. cbn [last_data In]. split; [intros []|discriminate].
    + split; [intros k; reflexivity|congruence].
  - destruct (build_ok start os h NE) as (b & T & E1 & G & O). exists b. split; [exact E1|]. exists (entries T). split; [apply (good_map b T _ G)|].
    assert (W := tree_wtree _ _ _ (g_at _ _ (h_grown _ _ _ G))). split.
    + apply wfinds; [apply (h_def _ _ _ G)|exact W|apply (h_ord _ _ _ G)|apply (h_ne _ _ _ G)].
    + intros _. exists (infos T). split; [apply in_order_w; [exact W|apply (h_ne _ _ _ G)]|]. apply (ents_okeys T (h_ord _ _ _ G)).
Qed.
Print Assumptions C57_bst_insert_histories.
Example C57_case : exists b v, build (Some (5, 50)) None false [(3, Some 1); (8, None); (3, Some 2)] = Ret b /\ in_order (b_mem b) (b_root b) = Ret v /\ shows v [(3, Some 2); (5, Some 50); (8, None)].
Proof. eexists. eexists. split; [vm_compute; reflexivity|]. split; vm_compute; reflexivity. Qed.

(** C58 fails: a delete of the last cell and the next insert, which links the parent to a cell that does not exist *)
Definition nums (l : list Z) : list (Z * option Z) := map (fun k => (k, Some k)) l.
Theorem C58_insert_after_delete_refuted : exists b b' b'', build None None false (nums [1; 2; 3]) = Ret b /\ delete b 3 = Ret (b', true) /\ insert b' 4 (Some 4) = Ret b'' /\
  search b'' 4 = Raise IndexError /\ in_order (b_mem b'') (b_root b'') = Raise IndexError.
Proof. eexists. eexists. eexists. split; [vm_compute; reflexivity|]. split; [vm_compute; reflexivity|]. split; [vm_compute; reflexivity|]. split; vm_compute; reflexivity. Qed.
Print Assumptions C58_insert_after_delete_refuted.
(** an order-statistic tree: the second delete walks a stale parent link *)
Theorem C58_order_statistic_delete_refuted : exists b b', build None None true (nums [1; 2; 3; 4]) = Ret b /\ delete b 1 = Ret (b', true) /\ delete b' 4 = Raise AttributeError.
Proof. eexists. eexists. split; [vm_compute; reflexivity|]. split; vm_compute; reflexivity. Qed.
Print Assumptions C58_order_statistic_delete_refuted.
(** deleting from an emptied tree raises instead of reporting absence *)
Theorem C58_delete_emptied_refuted : exists b b', build None None false (nums [1]) = Ret b /\ delete b 1 = Ret (b', true) /\ delete b' 1 = Raise TypeError.
Proof. eexists. eexists. split; [vm_compute; reflexivity|]. split; vm_compute; reflexivity. Qed.
Print Assumptions C58_delete_emptied_refuted.
(** deleting past that: after the root's only child has been moved into the root, the grandchildren keep a parent link to the freed cell, and the delete that compacts the array follows it *)
Theorem C58_compaction_refuted : exists b b', build None None false (nums [1; 2; 3; 4; 5; 6; 7; 8; 9]) = Ret b /\ delete_all b [1; 9; 8; 7; 6] = Ret (b', [true; true; true; true; true]) /\
  (exists v, in_order (b_mem b') (b_root b') = Ret v /\ shows v (nums [2; 3; 4; 5])) /\ delete b' 5 = Raise AttributeError.
Proof.
  eexists. eexists. split; [vm_compute; reflexivity|]. split; [vm_compute; reflexivity|]. split; [eexists; split; vm_compute; reflexivity|]. vm_compute. reflexivity.
Qed.
Print Assumptions C58_compaction_refuted.
(** what holds: any inserts, then any deletes, at most half as many as there are keys (so that the array is not compacted) *)
Theorem C58_bst_inserts_then_deletes_partial : forall (D : Type) (start : option (Z * D)) (h : list (Z * option D)) (ks : list Z) (l : list (Z * option D)),
  sorted_map l (started start ++ h) -> 2 * len ks <= len l -> 0 < len l ->
  exists b b' v, build start None false h = Ret b /\ delete_all b ks = Ret (b', snd (deleted l ks)) /\
    finds b' (fst (deleted l ks)) /\ in_order (b_mem b') (b_root b') = Ret v /\ shows v (fst (deleted l ks)).
Proof.
  intros D start h ks l SM HL HP. assert (NE : started start ++ h <> []). { intros X. destruct SM as [_ SM]. rewrite X in SM. destruct l as [|[k d] l]; [cbn in HP; lia|]. destruct (SM k d) as [A _]. specialize (A (or_introl eq_refl)). discriminate. }
  destruct (build_ok start false h NE) as (b & T & E1 & G & O). assert (SG := good_map b T _ G).
  assert (EL := sorted_map_unique _ _ _ SM SG).
  subst l. rewrite len_entries in *. assert (GG := h_grown _ _ _ G). assert (GC := g_cap _ _ GG). assert (GN := g_nodes _ _ GG).
  destruct (delete_all_ok ks b T (h_def _ _ _ G) O (grown_sparse _ _ GG) (h_ord _ _ _ G) (h_ne _ _ _ G) ltac:(lia)) as (b' & T' & E2 & D2 & SP2 & O2 & HE2 & EN2).
  exists b, b', (infos T'). split; [exact E1|]. split; [exact E2|]. rewrite <- EN2. split; [apply wfinds; [exact D2|apply (s_at _ _ SP2)|exact O2|exact HE2]|]. split; [apply in_order_w; [apply (s_at _ _ SP2)|exact HE2]|]. apply (ents_okeys T' O2).
Qed.
Print Assumptions C58_bst_inserts_then_deletes_partial.
Example C58_case : sorted_map (nums [1; 3; 4; 5; 6; 7]) (nums [4; 6; 3; 5; 7; 1]) /\ deleted (nums [1; 3; 4; 5; 6; 7]) [4; 2; 6] = (nums [1; 3; 5; 7], [true; false; true]).
Proof.
  split; [|reflexivity]. split; [repeat constructor|]. intros k d. unfold nums. cbn [map last_data In].
  destruct (Z.eqb_spec k 1), (Z.eqb_spec k 7), (Z.eqb_spec k 5), (Z.eqb_spec k 3), (Z.eqb_spec k 6), (Z.eqb_spec k 4); subst; try lia; (split; [intros H; repeat (destruct H as [H|H]; [congruence|]); destruct H|intros H; try discriminate; injection H as <-; auto 10]).
Qed.

(** C59 fails for every comparator: two keys the comparator orders are listed the wrong way round *)
Theorem C59_comparator_refuted : forall (comp : Z -> Z -> bool) (x y : Z), x <> y -> comp x y = true -> comp y x = false ->
  exists b v, build None (Some comp) false (nums [x; y]) = Ret b /\ in_order (b_mem b) (b_root b) = Ret v /\ map k_key v = [Some y; Some x].
Proof.
  intros comp x y NE _ _. assert (E0 : (x =? y) = false) by (apply Z.eqb_neq; exact NE).
  unfold build, nums. cbn [map option_map bst_new bind insert_all]. unfold insert at 1. cbn. unfold insert, search, search_loop. cbn. rewrite E0. cbn. eexists. eexists. split; [reflexivity|]. split; reflexivity.
Qed.
Print Assumptions C59_comparator_refuted.

(** C60: the bounds, after any inserts *)
Theorem C60_bst_bounds : forall (D : Type) (start : option (Z * D)) (os : bool) (h l : list (Z * option D)) (key : Z), sorted_map l (started start ++ h) ->
  exists b lo hi, build start None os h = Ret b /\ lower_bound b key = Ret lo /\ upper_bound b key = Ret hi /\
    least (fun k => key <= k) (map fst l) lo /\ least (fun k => key < k) (map fst l) hi.
Proof.
  intros D start os h l key SM. destruct (list_eq_dec_nil (started start ++ h)) as [E0|NE].
  - destruct start as [[k d]|]; [discriminate|]. cbn [started app] in *. subst h. exists (fresh os), None, None. destruct l as [|[k d] l]; [|exfalso; destruct SM as [_ SM]; destruct (SM k d) as [A _]; specialize (A (or_introl eq_refl)); discriminate]. split; [reflexivity|]. split; [reflexivity|]. split; [reflexivity|]. split; intros k [].
  - destruct (build_ok start os h NE) as (b & T & E1 & G & O). assert (SG := good_map b T _ G). destruct (bounds_ok b T key (h_def _ _ _ G) (g_at _ _ (h_grown _ _ _ G)) (h_ord _ _ _ G)) as [EL EU].
    assert (EK : map fst l = map fst (entries T)) by (f_equal; apply (sorted_map_unique _ _ _ SM SG)).
    assert (LL := first_above_least false key _ (h_ord _ _ _ G)). assert (LU := first_above_least true key _ (h_ord _ _ _ G)). rewrite EK. unfold entries.
    exists b, (first_above false key (infos T)), (first_above true key (infos T)). split; [exact E1|]. split; [exact EL|]. split; [exact EU|].
    assert (Q : forall (P P' : Z -> Prop) ks r, (forall k, P k <-> P' k) -> least P ks r -> least P' ks r). { intros P P' ks [z|] HP; cbn [least]; [intros (A & B & C); split; [exact A|]; split; [apply HP; exact B|]; intros k Hk HP'; apply C; [exact Hk|apply HP; exact HP']|intros A k Hk HP'; apply (A k Hk), HP, HP']. }
    split; (eapply Q; [|eassumption]); intros k; cbn [above]; lia.
Qed.
Print Assumptions C60_bst_bounds.
Example C60_case : exists b, build None None false (nums [10; 5; 20]) = Ret b /\ lower_bound b 10 = Ret (Some 10) /\ upper_bound b 10 = Ret (Some 20) /\ upper_bound b 20 = Ret None /\ lower_bound b 6 = Ret (Some 10).
Proof. eexists. split; [vm_compute; reflexivity|]. repeat split; vm_compute; reflexivity. Qed.

(** C61: select and rank of an order-statistic tree, after any inserts *)
Theorem C61_order_statistics_partial : forall (D : Type) (start : option (Z * D)) (h l : list (Z * option D)), sorted_map l (started start ++ h) -> l <> [] ->
  exists b, build start None true h = Ret b /\
    (forall i, 1 <= i <= len l -> exists n e, select b i = Ret (Some n) /\ nth_error l (Z.to_nat (i - 1)) = Some e /\ n_key n = Some (fst e) /\ k_data (n_inf n) = snd e /\ rank b (fst e) = Ret (Some i)) /\
    (forall i, i < 1 \/ len l < i -> select b i = Raise ValueError) /\
    (forall x, ~ In x (map fst l) -> rank b x = Ret None).
Proof.
  intros D start h l SM NL. assert (NE : started start ++ h <> []). { intros X. destruct SM as [_ SM]. rewrite X in SM. destruct l as [|[k d] l]; [congruence|]. destruct (SM k d) as [A _]. specialize (A (or_introl eq_refl)). discriminate. }
  destruct (build_ok start true h NE) as (b & T & E1 & G & O). assert (SG := good_map b T _ G).
  rewrite (sorted_map_unique _ _ _ SM SG) in *. clear SM. assert (GG := h_grown _ _ _ G). assert (GN := g_nodes _ _ GG). assert (HS := h_sz _ _ _ G O). assert (HO := h_ord _ _ _ G). assert (EN : a_num (b_arr b) = nodes T) by (rewrite GN; apply (g_num _ _ GG)).
  assert (RK := fun x => rank_ok b T x (h_def _ _ _ G) (g_at _ _ GG) HO HS (h_ne _ _ _ G)).
  exists b. split; [exact E1|]. rewrite len_entries. split; [|split].
  - intros i Hi. destruct (select_ok b T i (h_def _ _ _ G) (g_at _ _ GG) HO HS EN Hi) as (n & x & ES & EX & EI). exists n, (entry x). split; [exact ES|]. unfold nthi in EI.
    assert (EE : nth_error (entries T) (Z.to_nat (i - 1)) = Some (entry x)) by (unfold entries; apply map_nth_error; exact EI). split; [exact EE|].
    assert (Hx : kis (fun _ => True) x). { destruct HO as [HO _]. rewrite Forall_forall in HO. apply HO. eapply nth_error_In. exact EI. } unfold kis in Hx. destruct (k_key x) as [kx|] eqn:Ekx; [|destruct Hx].
    split; [unfold n_key; rewrite EX; unfold entry; cbn [fst]; rewrite Ekx; reflexivity|]. split; [rewrite EX; reflexivity|]. rewrite RK. rewrite existsb_entries, count_le_entries by exact HO. fold (entries T).
    assert (EM : existsb (fun k => k =? fst (entry x)) (map fst (entries T)) = true). { apply existsb_exists. exists (fst (entry x)). split; [apply in_map; eapply nth_error_In; exact EE|apply Z.eqb_refl]. } rewrite EM. f_equal. f_equal.
    rewrite (count_sorted (map fst (entries T)) (Z.to_nat (i - 1)) (fst (entry x))); [lia|apply SG|apply map_nth_error; exact EE].
  - intros i Hi. unfold select. destruct (Z.ltb_spec (i - 1) 0); [reflexivity|]. destruct (Z.leb_spec (a_num (b_arr b)) (i - 1)); [reflexivity|lia].
  - intros x Hx. rewrite RK, existsb_entries by exact HO. fold (entries T). replace (existsb (fun k => k =? x) (map fst (entries T))) with false; [reflexivity|]. symmetry. apply not_true_is_false. intros X. apply existsb_exists in X as (k & Hk & Ek). apply Z.eqb_eq in Ek. subst k. contradiction.
Qed.
Print Assumptions C61_order_statistics_partial.
Example C61_case : exists b n, build None None true (nums [10; 5; 20]) = Ret b /\ select b 2 = Ret (Some n) /\ n_key n = Some 10 /\ rank b 20 = Ret (Some 3).
Proof. eexists. eexists. split; [vm_compute; reflexivity|]. split; [vm_compute; reflexivity|]. split; vm_compute; reflexivity. Qed.
(** the empty tree counts its key-less root as an element *)
Theorem C61_empty_tree_refuted : exists b n, build (D := Z) None None true [] = Ret b /\ select b 1 = Ret (Some n) /\ n_key n = None.
Proof. eexists. eexists. split; [vm_compute; reflexivity|]. split; vm_compute; reflexivity. Qed.
Print Assumptions C61_empty_tree_refuted.

(** C62: algorithm 1, after any inserts: the deepest node above both keys ([is_lca]: its subtree has both keys, no child's subtree has) *)
Theorem C62_lca_1_partial : forall (D : Type) (start : option (Z * D)) (os : bool) (h : list (Z * option D)) (j k : Z), started start ++ h <> [] ->
  exists b T, build start None os h = Ret b /\ tree_at (b_mem b) (b_root b) T /\ (forall x, has T x <-> last_data (started start ++ h) x <> None) /\
    (has T j -> has T k -> exists z, lca_1 b j k = Ret (Some z) /\ is_lca T j k z) /\ (~ has T j \/ ~ has T k -> lca_1 b j k = Raise ValueError).
Proof.
  intros D start os h j k NE. destruct (build_ok start os h NE) as (b & T & E1 & G & O). assert (HT := g_at _ _ (h_grown _ _ _ G)). exists b, T. split; [exact E1|]. split; [exact HT|]. split; [apply (good_has b T _ G)|].
  apply lca_1_ok; [exact HT|apply (h_root _ _ _ G)|apply (h_ord _ _ _ G)].
Qed.
Print Assumptions C62_lca_1_partial.
(** algorithm 2: neither key is the root's key (the first key given) *)
Theorem C62_lca_2_partial : forall (D : Type) (start : option (Z * D)) (os : bool) (h : list (Z * option D)) (first : Z * option D) (rest : list (Z * option D)) (j k : Z),
  started start ++ h = first :: rest -> j <> fst first -> k <> fst first ->
  exists b T, build start None os h = Ret b /\ tree_at (b_mem b) (b_root b) T /\ (forall x, has T x <-> last_data (started start ++ h) x <> None) /\
    (has T j -> has T k -> exists z, lca_2 b j k = Ret (Some z) /\ is_lca T j k z) /\ (~ has T j \/ ~ has T k -> lca_2 b j k = Raise ValueError).
Proof.
  intros D start os h first rest j k EH Nj Nk. assert (NE : started start ++ h <> []) by (rewrite EH; discriminate). destruct (build_root start os h first rest EH) as (b & T & E1 & G & HR). assert (HT := g_at _ _ (h_grown _ _ _ G)). exists b, T. split; [exact E1|]. split; [exact HT|]. split; [apply (good_has b T _ G)|].
  destruct (lca_2_ok b T j k (fst first) (h_def _ _ _ G) HT (h_ord _ _ _ G) HR) as [A B]. split; [intros H1 H2; apply A; assumption|exact B].
Qed.
Print Assumptions C62_lca_2_partial.
Example C62_case : exists b, build None None false (nums [50; 25; 75; 10; 30; 60]) = Ret b /\ lca_1 b 10 30 = Ret (Some 25) /\ lca_1 b 25 30 = Ret (Some 25) /\ lca_1 b 30 60 = Ret (Some 50) /\ lca_2 b 10 30 = Ret (Some 25) /\ lca_2 b 25 30 = Ret (Some 25).
Proof. eexists. split; [vm_compute; reflexivity|]. repeat split; vm_compute; reflexivity. Qed.
(** with the root's key algorithm 2 answers a node that is not above it *)
Theorem C62_lca_2_root_refuted : exists b T, build None None false (nums [1; 2]) = Ret b /\ tree_at (b_mem b) (b_root b) T /\ lca_2 b 1 2 = Ret (Some 2) /\ is_lca T 1 2 1 /\ ~ is_lca T 1 2 2.
Proof.
  destruct (build_ok None false (nums [1; 2])) as (b & T & E1 & G & O); [discriminate|]. assert (HT := g_at _ _ (h_grown _ _ _ G)).
  assert (H1 : has T 1) by (apply (good_has b T _ G); cbn; discriminate). assert (H2 : has T 2) by (apply (good_has b T _ G); cbn; discriminate).
  destruct (lca_1_ok b T 1 2 HT (h_root _ _ _ G) (h_ord _ _ _ G)) as [A _]. destruct (A H1 H2) as (z & EZ & HZ).
  revert E1. vm_compute. intros [= <-]. exists (mkbst (mkaft [Some (mknode (mkinfo (Some 1) (Some 1) 0 1 true None None) None (Some 1) None); Some (mknode (mkinfo (Some 2) (Some 2) 0 1 false None None) None None (Some 0)); None] 2 1) (Some 0) 2 None false), T.
  split; [reflexivity|]. split; [exact HT|]. split; [vm_compute; reflexivity|]. vm_compute in EZ. injection EZ as <-. split; [exact HZ|]. intros X. assert (Q := is_lca_unique T 1 2 1 2 (h_ord _ _ _ G) HZ X). discriminate.
Qed.
Print Assumptions C62_lca_2_root_refuted.

(** C63: each rotation, at any place of any linked tree, changes only the shape: the nodes in order are the same, every link and parent link is right *)
Theorem C63_right_rotation : forall (D : Type) (m : mem D) (rt : option Z) (c : ctx D) (a b d : bt D) (j k : Z) (xj xk : info D), tree_at m rt (plug c (N (N a k xk b) j xj d)) ->
  exists m' rt' T', right_rotate m rt (Some j) (Some k) = Ret (m', rt') /\ tree_at m' rt' T' /\ T' = plug c (N a k xk (N b j xj d)) /\ infos T' = infos (plug c (N (N a k xk b) j xj d)).
Proof. intros D m rt c a b d j k xj xk H. destruct (right_rotate_ok m rt c a k xk b j xj d H) as (m' & rt' & E1 & H1 & _). exists m', rt', (plug c (N a k xk (N b j xj d))). split; [exact E1|]. split; [exact H1|]. split; [reflexivity|]. rewrite !infos_plug. cbn [infos]. rewrite <- ?app_assoc. cbn [app]. rewrite <- ?app_assoc. reflexivity. Qed.
Print Assumptions C63_right_rotation.
Theorem C63_left_rotation : forall (D : Type) (m : mem D) (rt : option Z) (c : ctx D) (a b d : bt D) (j k : Z) (xj xk : info D), tree_at m rt (plug c (N a j xj (N b k xk d))) ->
  exists m' rt' T', left_rotate m rt (Some j) (Some k) = Ret (m', rt') /\ tree_at m' rt' T' /\ T' = plug c (N (N a j xj b) k xk d) /\ infos T' = infos (plug c (N a j xj (N b k xk d))).
Proof. intros D m rt c a b d j k xj xk H. destruct (left_rotate_ok m rt c a k xk b j xj d H) as (m' & rt' & E1 & H1 & _). exists m', rt', (plug c (N (N a j xj b) k xk d)). split; [exact E1|]. split; [exact H1|]. split; [reflexivity|]. rewrite !infos_plug. cbn [infos]. rewrite <- ?app_assoc. cbn [app]. rewrite <- ?app_assoc. reflexivity. Qed.
Print Assumptions C63_left_rotation.
Theorem C63_left_right_rotation : forall (D : Type) (m : mem D) (rt : option Z) (c : ctx D) (a v w d : bt D) (i j k : Z) (xi xj xk : info D), tree_at m rt (plug c (N (N a k xk (N v i xi w)) j xj d)) ->
  exists m' rt' T', left_right_rotate m rt (Some j) (Some k) = Ret (m', rt') /\ tree_at m' rt' T' /\ T' = plug c (N (N a k xk v) i xi (N w j xj d)) /\ infos T' = infos (plug c (N (N a k xk (N v i xi w)) j xj d)).
Proof. intros D m rt c a v w d i j k xi xj xk H. destruct (left_right_rotate_ok m rt c a k xk v i xi w j xj d H) as (m' & rt' & E1 & H1 & _). exists m', rt', (plug c (N (N a k xk v) i xi (N w j xj d))). split; [exact E1|]. split; [exact H1|]. split; [reflexivity|]. rewrite !infos_plug. cbn [infos]. repeat (rewrite <- ?app_assoc; cbn [app]). reflexivity. Qed.
Print Assumptions C63_left_right_rotation.
Theorem C63_right_left_rotation : forall (D : Type) (m : mem D) (rt : option Z) (c : ctx D) (a v w d : bt D) (i j k : Z) (xi xj xk : info D), tree_at m rt (plug c (N a j xj (N (N v i xi w) k xk d))) ->
  exists m' rt' T', right_left_rotate m rt (Some j) (Some k) = Ret (m', rt') /\ tree_at m' rt' T' /\ T' = plug c (N (N a j xj v) i xi (N w k xk d)) /\ infos T' = infos (plug c (N a j xj (N (N v i xi w) k xk d))).
Proof. intros D m rt c a v w d i j k xi xj xk H. destruct (right_left_rotate_ok m rt c a k xk v i xi w j xj d H) as (m' & rt' & E1 & H1 & _). exists m', rt', (plug c (N (N a j xj v) i xi (N w k xk d))). split; [exact E1|]. split; [exact H1|]. split; [reflexivity|]. rewrite !infos_plug. cbn [infos]. repeat (rewrite <- ?app_assoc; cbn [app]). reflexivity. Qed.
Print Assumptions C63_right_left_rotation.
Example C63_case : exists (m : mem Z) x y, tree_at m (Some 0) (plug Top (N (N E 1 x E) 0 y E)) /\ exists m', right_rotate m (Some 0) (Some 0) (Some 1) = Ret (m', Some 1).
Proof.
  exists [Some (mknode (new_info (Some 5) None) (Some 1) None None); Some (mknode (new_info (Some 3) None) None None (Some 0))], (new_info (Some 3) None), (new_info (Some 5) None).
  split; [|eexists; vm_compute; reflexivity]. split; [cbn; auto|]. split; [|reflexivity]. cbn. repeat constructor; cbn; intuition lia.
Qed.

(** C69: from any node of any linked tree, each traversal lists every node of its subtree once, in the textbook order *)
Theorem C69_traversals : forall (D : Type) (m : mem D) (T : bt D) (i : Z) (p : option Z) (size : Z), rep m T p -> NoDup (idx T) -> root T = Some i -> (forall j, In j (idx T) -> 0 <= j < size) ->
  pre_order m (Some i) = Ret (pre T) /\ in_order m (Some i) = Ret (infos T) /\ post_order m size (Some i) = Ret (post T) /\ out_order m (Some i) = Ret (rev (infos T)) /\ tree_bfs m (Some i) = Ret (concat (levels T)).
Proof.
  intros D m T i p size HR ND HI HS. split; [apply (pre_order_ok m T p i); assumption|]. split; [apply (in_order_ok m T p i); assumption|]. split; [apply (post_order_ok m T p i); assumption|]. split; [apply (out_order_ok m T p i); assumption|apply (tree_bfs_ok m T p i); assumption].
Qed.
Print Assumptions C69_traversals.
(** and on every tree built by inserts *)
Theorem C69_traversals_after_inserts : forall (D : Type) (start : option (Z * D)) (os : bool) (h : list (Z * option D)), started start ++ h <> [] ->
  exists b T, build start None os h = Ret b /\ tree_at (b_mem b) (b_root b) T /\
    pre_order (b_mem b) (b_root b) = Ret (pre T) /\ in_order (b_mem b) (b_root b) = Ret (infos T) /\ post_order (b_mem b) (b_size b) (b_root b) = Ret (post T) /\ out_order (b_mem b) (b_root b) = Ret (rev (infos T)) /\ tree_bfs (b_mem b) (b_root b) = Ret (concat (levels T)).
Proof.
  intros D start os h NE. destruct (build_ok start os h NE) as (b & T & E1 & G & O). assert (GG := h_grown _ _ _ G). assert (HT := g_at _ _ GG). exists b, T. split; [exact E1|]. split; [exact HT|]. destruct HT as (HR & ND & EI). rewrite EI. assert (HE := h_ne _ _ _ G). destruct T as [|l i x r]; [congruence|]. apply (C69_traversals D _ _ i None (b_size b) HR ND eq_refl (g_idx _ _ GG)).
Qed.
Print Assumptions C69_traversals_after_inserts.
Example C69_case : exists b v, build None None false (nums [2; 1; 3]) = Ret b /\ post_order (b_mem b) (b_size b) (b_root b) = Ret v /\ map k_key v = [Some 1; Some 3; Some 2].
Proof. eexists. eexists. split; [vm_compute; reflexivity|]. split; vm_compute; reflexivity. Qed.
