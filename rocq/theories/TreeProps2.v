(** Self-balancing trees and Multiset: C64-C68, C70. *)
From Coq Require Import Sorting.Sorted.
From Verif Require Import Base TreeModel TreeModel2 TreeSpec TreeProofs TreeRotate TreeBst TreeTrav TreeQuery TreeLca TreeDel TreeHist TreeBalSpec TreeAvl TreeAvl2 TreeSim TreeTreap TreeSplay TreeRb TreeReins TreeMulti MultisetSpec MultisetProofs.

Definition numbers (l : list Z) : list (Z * option Z) := map (fun k => (k, Some k)) l.

(** C64: for every history of inserts after any constructor call, AVLTree is balanced, stores the right heights (and sizes), and is the map of the last data of each key *)
Theorem C64_avl_insert_histories : forall (D : Type) (start : option (Z * D)) (os : bool) (h : list (Z * option D)),
  let H := started start ++ h in
  exists b T l, build_with avl_insert start os h = Ret b /\ tree_at (b_mem b) (b_root b) T /\ balanced T /\ heights_stored T /\ (os = true -> sizes_stored T) /\
    sorted_map l H /\ finds b l /\ (H <> [] -> exists v, in_order (b_mem b) (b_root b) = Ret v /\ shows v l).
Proof.
  intros D start os h H. destruct (list_eq_dec_nil H) as [E0|NE].
  - destruct start as [[k d]|]; [discriminate|]. cbn [started app] in H. unfold H in *. rewrite E0. exists (fresh os), (N E 0 (with_isroot true (new_info None None)) E), []. split; [reflexivity|]. split; [split; [cbn; auto|split; [repeat constructor; intros []|reflexivity]]|].
    split; [cbn; lia|]. split; [cbn; auto|]. split; [intros _; cbn; auto|]. split; [split; [constructor|]|].
    + intros k d. cbn [last_data In]. split; [intros []|discriminate].
    + split; [intros k; reflexivity|congruence].
  - destruct (avl_build_ok start os h NE) as (b & T & E1 & G & O). exists b, T, (entries T). split; [exact E1|]. split; [apply (g_at _ _ (a_grown _ _ _ G))|]. destruct (avl_spec (b_os b) T (a_avl _ _ _ G)) as (A1 & A2 & A3). rewrite O in A3. do 3 (split; [assumption|]).
    destruct (view b T H (a_def _ _ _ G) (a_grown _ _ _ G) (a_cont _ _ _ G) (a_ne _ _ _ G)) as (V1 & V2 & V3). auto.
Qed.
Print Assumptions C64_avl_insert_histories.
Example C64_case : exists b v, build_with avl_insert None true (numbers [1; 2; 3; 4; 5; 6; 7]) = Ret b /\ b_root b = Some 3 /\ in_order (b_mem b) (b_root b) = Ret v /\ shows v (numbers [1; 2; 3; 4; 5; 6; 7]).
Proof. eexists. eexists. split; [vm_compute; reflexivity|]. split; [reflexivity|]. split; vm_compute; reflexivity. Qed.
(** the bounds, select and rank of an AVLTree, after any inserts *)
Theorem C64_avl_queries : forall (D : Type) (start : option (Z * D)) (os : bool) (h l : list (Z * option D)), sorted_map l (started start ++ h) -> l <> [] ->
  exists b, build_with avl_insert start os h = Ret b /\
    (forall key, exists lo hi, lower_bound b key = Ret lo /\ upper_bound b key = Ret hi /\ least (fun k => key <= k) (map fst l) lo /\ least (fun k => key < k) (map fst l) hi) /\
    (os = true ->
      (forall i, 1 <= i <= len l -> exists n e, select b i = Ret (Some n) /\ nth_error l (Z.to_nat (i - 1)) = Some e /\ n_key n = Some (fst e) /\ k_data (n_inf n) = snd e /\ rank b (fst e) = Ret (Some i)) /\
      (forall i, i < 1 \/ len l < i -> select b i = Raise ValueError) /\
      (forall x, ~ In x (map fst l) -> rank b x = Ret None)).
Proof.
  intros D start os h l SM NL. assert (NE : started start ++ h <> []). { intros X. destruct SM as [_ SM]. rewrite X in SM. destruct l as [|[k d] l]; [congruence|]. destruct (SM k d) as [A _]. specialize (A (or_introl eq_refl)). discriminate. }
  destruct (avl_build_ok start os h NE) as (b & T & E1 & G & O). assert (SG := cont_map _ _ (a_cont _ _ _ G)). rewrite (sorted_map_unique _ _ _ SM SG) in *. exists b. split; [exact E1|]. split.
  - intros key. apply (bounds_view b T _ key (a_def _ _ _ G) (a_grown _ _ _ G) (a_cont _ _ _ G)).
  - intros ->. destruct (avl_spec (b_os b) T (a_avl _ _ _ G)) as (_ & _ & A3). apply (os_view b T (a_def _ _ _ G) (a_grown _ _ _ G) (proj1 (a_cont _ _ _ G)) (a_ne _ _ _ G)). apply sizes_sized. auto.
Qed.
Print Assumptions C64_avl_queries.
(** C62 fails on an AVLTree: its rotations leave the mark of the root on the wrong node *)
Theorem C62_lca_avl_refuted : exists b, build_with avl_insert None false (numbers [1; 2; 3]) = Ret b /\ lca_1 b 1 3 = Raise TypeError.
Proof. eexists. split; [vm_compute; reflexivity|]. vm_compute. reflexivity. Qed.
Print Assumptions C62_lca_avl_refuted.

(** C65 fails after every insert history and for every absent key: delete says True *)
Theorem C65_avl_delete_absent_refuted : forall (D : Type) (start : option (Z * D)) (os : bool) (h : list (Z * option D)) (k : Z), started start ++ h <> [] -> last_data (started start ++ h) k = None ->
  exists b, build_with avl_insert start os h = Ret b /\ search b k = Ret None /\ avl_delete b k = Ret (b, true).
Proof.
  intros D start os h k NE HL. destruct (avl_build_ok start os h NE) as (b & T & E1 & G & O). exists b. split; [exact E1|]. split.
  - destruct (view b T _ (a_def _ _ _ G) (a_grown _ _ _ G) (a_cont _ _ _ G) (a_ne _ _ _ G)) as (V1 & V2 & _). specialize (V2 k). destruct (find (fun e => fst e =? k) (entries T)) as [e|] eqn:EF; [|exact V2]. exfalso. apply find_some in EF as [HI HE]. apply Z.eqb_eq in HE. destruct e as [k' d]. cbn [fst] in HE. subst k'. apply V1 in HI. congruence.
  - apply (avl_delete_absent b T _ k (a_def _ _ _ G) (a_grown _ _ _ G) (a_cont _ _ _ G) (a_ne _ _ _ G) HL).
Qed.
Print Assumptions C65_avl_delete_absent_refuted.
Example C65_case : last_data (started (Some (3, 3)) ++ numbers [1; 2]) 7 = None.
Proof. reflexivity. Qed.
Theorem C65_avl_delete_emptied_refuted : exists b b', build_with avl_insert None false (numbers [1]) = Ret b /\ avl_delete b 1 = Ret (b', true) /\ avl_delete b' 1 = Raise TypeError.
Proof. eexists. eexists. split; [vm_compute; reflexivity|]. split; vm_compute; reflexivity. Qed.
Print Assumptions C65_avl_delete_emptied_refuted.

(** C66, for histories that insert no key twice: no red node has a red child, the same number of black nodes on every path, a black root, the right keys *)
Theorem C66_rb_insert_histories_partial : forall (D : Type) (os : bool) (h : list (Z * option D)), h <> [] -> NoDup (map fst h) ->
  exists b T l, build_with rb_insert None os h = Ret b /\ tree_at (b_mem b) (b_root b) T /\ no_red_red T /\ (exists n, black_count T n) /\ black T /\
    sorted_map l h /\ finds b l /\ exists v, in_order (b_mem b) (b_root b) = Ret v /\ shows v l.
Proof.
  intros D os h NE ND. destruct (rb_build_ok os h NE ND) as (b & T & E1 & G & O). exists b, T, (entries T). split; [exact E1|]. split; [apply (g_at _ _ (r_grown _ _ _ G))|]. destruct (r_rb _ _ _ G) as (n & RB). destruct (rb_spec T n RB) as (A1 & A2). split; [exact A1|]. split; [eauto|]. split; [apply (r_black _ _ _ G)|].
  destruct (view b T h (r_def _ _ _ G) (r_grown _ _ _ G) (r_cont _ _ _ G) (r_ne _ _ _ G)) as (V1 & V2 & V3). auto.
Qed.
Print Assumptions C66_rb_insert_histories_partial.
Example C66_case : exists b v, build_with rb_insert None false (numbers [7; 6; 5; 4; 3; 2; 1]) = Ret b /\ in_order (b_mem b) (b_root b) = Ret v /\ shows v (numbers [1; 2; 3; 4; 5; 6; 7]).
Proof. eexists. eexists. split; [vm_compute; reflexivity|]. split; vm_compute; reflexivity. Qed.
(** the keys and data are right after every history, with keys inserted again, and the root is black *)
Theorem C66_rb_contents : forall (D : Type) (os : bool) (h : list (Z * option D)), h <> [] ->
  exists b T l, build_with rb_insert None os h = Ret b /\ tree_at (b_mem b) (b_root b) T /\ black T /\ sorted_map l h /\ finds b l /\ exists v, in_order (b_mem b) (b_root b) = Ret v /\ shows v l.
Proof.
  intros D os h NE. destruct (rb_build_w os h NE) as (b & T & E1 & G & O). exists b, T, (entries T). split; [exact E1|]. split; [apply (g_at _ _ (w_grown _ _ _ G))|]. split; [apply (w_black _ _ _ G)|].
  destruct (view b T h (w_def _ _ _ G) (w_grown _ _ _ G) (w_cont _ _ _ G) (w_ne _ _ _ G)) as (V1 & V2 & V3). auto.
Qed.
Print Assumptions C66_rb_contents.
Example C66_contents_case : exists b v, build_with rb_insert None true ([(1, Some 1); (2, None); (1, Some 5); (0, None)]) = Ret b /\ in_order (b_mem b) (b_root b) = Ret v /\ shows v [(0, None); (1, Some 5); (2, None)].
Proof. eexists. eexists. split; [vm_compute; reflexivity|]. split; vm_compute; reflexivity. Qed.
(** it fails when a key is inserted again: its node turns red *)
Theorem C66_rb_reinsert_refuted : exists b T, build_with rb_insert None false (numbers [1; 2; 3; 4; 5; 6; 7; 1]) = Ret b /\ tree_at (b_mem b) (b_root b) T /\ forall n, ~ black_count T n.
Proof.
  eexists. eexists. split; [vm_compute; reflexivity|]. match goal with |- tree_at (b_mem ?b) _ _ /\ _ => instantiate (1 := ltac:(let t := eval vm_compute in (read 10 (b_mem b) (b_root b)) in exact t)) end.
  split; [split; [repeat split; reflexivity|]; split; [|reflexivity]; cbn; repeat constructor; cbn; intuition lia|]. intros n. cbn. lia.
Qed.
Print Assumptions C66_rb_reinsert_refuted.
(** a RedBlackTree constructed with a key cannot be inserted into *)
Theorem C66_rb_constructed_refuted : build_with rb_insert (Some (1, 1)) false (numbers [2]) = Raise AttributeError.
Proof. vm_compute. reflexivity. Qed.
Print Assumptions C66_rb_constructed_refuted.
(** nor one from which the last key was deleted *)
Theorem C66_rb_insert_after_delete_refuted : exists b b', build_with rb_insert None false (numbers [1; 2; 3]) = Ret b /\ rb_delete b 3 = Ret (b', true) /\ rb_insert b' 4 (Some 4) = Raise IndexError.
Proof. eexists. eexists. split; [vm_compute; reflexivity|]. split; vm_compute; reflexivity. Qed.
Print Assumptions C66_rb_insert_after_delete_refuted.

(** C67, for histories that insert no key twice: the last key inserted is at the root, the keys are right *)
Theorem C67_splay_insert_histories_partial : forall (D : Type) (start : option (Z * D)) (os : bool) (h : list (Z * option D)) (k : Z) (d : option D), NoDup (map fst (started start ++ h ++ [(k, d)])) ->
  exists b T l n, build_with splay_insert start os (h ++ [(k, d)]) = Ret b /\ tree_at (b_mem b) (b_root b) T /\ tget (b_mem b) (b_root b) = Ret n /\ n_key n = Some k /\ k_data (n_inf n) = d /\
    sorted_map l (started start ++ h ++ [(k, d)]) /\ finds b l /\ exists v, in_order (b_mem b) (b_root b) = Ret v /\ shows v l.
Proof.
  intros D start os h k d ND. assert (NE : started start ++ h ++ [(k, d)] <> []) by (intros X; apply app_eq_nil in X as [_ X]; apply app_eq_nil in X as [_ X]; discriminate).
  destruct (splay_build_ok start os (h ++ [(k, d)]) NE ND) as (b & T & E1 & G & O & R). assert (HT := g_at _ _ (p_grown _ _ _ G)).
  destruct (view b T _ (p_def _ _ _ G) (p_grown _ _ _ G) (p_cont _ _ _ G) (p_ne _ _ _ G)) as (V1 & V2 & V3).
  rewrite app_assoc, map_app in R. cbn [map] in R. rewrite last_last in R. cbn [option_map fst] in R. destruct T as [|l i x r]; [discriminate|]. cbn [rkey] in R. exists b, (N l i x r), (entries (N l i x r)), (mknode x (root l) (root r) None). split; [exact E1|]. split; [exact HT|].
  destruct HT as ((HC & _) & _ & HRt). rewrite HRt. split; [apply tget_ok; exact HC|]. split; [exact R|]. split; [|unfold shown in V3; rewrite HRt in V3; auto].
  cbn [n_inf]. destruct (p_cont _ _ _ G) as [_ M]. specialize (M k (k_data x)). assert (X : last_data (started start ++ h ++ [(k, d)]) k = Some (k_data x)). { apply M. unfold ents. cbn [infos]. rewrite map_app, in_app_iff. right. left. unfold ent. rewrite R. reflexivity. }
  rewrite app_assoc, last_data_snoc, Z.eqb_refl in X. congruence.
Qed.
Print Assumptions C67_splay_insert_histories_partial.
Example C67_case : exists b n, build_with splay_insert (Some (5, 5)) false (numbers [9; 1; 7; 3]) = Ret b /\ tget (b_mem b) (b_root b) = Ret n /\ n_key n = Some 3.
Proof. eexists. eexists. split; [vm_compute; reflexivity|]. split; vm_compute; reflexivity. Qed.
Theorem C67_splay_reinsert_refuted : build_with splay_insert None false (numbers [1; 2; 1]) = Raise TypeError.
Proof. vm_compute. reflexivity. Qed.
Print Assumptions C67_splay_reinsert_refuted.

(** C68, for histories that insert no key twice, with any priorities (Treap: whatever random.random() returns) *)
Theorem C68_heap_and_search_order_partial : forall (D : Type) (os : bool) (h : list (Z * Z * option D)), h <> [] -> NoDup (map (fun e => fst (fst e)) h) ->
  exists b T l, (b0 <- bst_new None None None os ;; insert_prio b0 h) = Ret b /\ tree_at (b_mem b) (b_root b) T /\ heap_ordered T /\
    sorted_map l (map (fun e => (fst (fst e), snd e)) h) /\ finds b l /\ exists v, in_order (b_mem b) (b_root b) = Ret v /\ shows v l.
Proof.
  intros D os h NE ND. assert (ND' : NoDup (map fst (drop_prio h))) by (unfold drop_prio; rewrite map_map; exact ND). destruct (cart_build_ok os h NE ND') as (b & T & E1 & G & O). exists b, T, (entries T). split; [exact E1|]. split; [apply (g_at _ _ (t_grown _ _ _ G))|]. split; [apply (heap_spec T None (t_heap _ _ _ G))|].
  destruct (view b T _ (t_def _ _ _ G) (t_grown _ _ _ G) (t_cont _ _ _ G) (t_ne _ _ _ G)) as (V1 & V2 & V3). auto.
Qed.
Print Assumptions C68_heap_and_search_order_partial.
Example C68_case : exists b v, (b0 <- bst_new None None None false ;; insert_prio b0 [(3, 5, Some 3); (1, 4, None); (6, 2, Some 6); (8, -1, None)]) = Ret b /\ b_root b = Some 3 /\ in_order (b_mem b) (b_root b) = Ret v /\ shows v [(1, None); (3, Some 3); (6, Some 6); (8, None)].
Proof. eexists. eexists. split; [vm_compute; reflexivity|]. split; [reflexivity|]. split; vm_compute; reflexivity. Qed.
(** the keys and data are right after every history, with keys inserted again *)
Theorem C68_contents : forall (D : Type) (os : bool) (h : list (Z * Z * option D)), h <> [] ->
  exists b T l, (b0 <- bst_new None None None os ;; insert_prio b0 h) = Ret b /\ tree_at (b_mem b) (b_root b) T /\
    sorted_map l (map (fun e => (fst (fst e), snd e)) h) /\ finds b l /\ exists v, in_order (b_mem b) (b_root b) = Ret v /\ shows v l.
Proof.
  intros D os h NE. destruct (cart_build_w os h NE) as (b & T & E1 & G & O). exists b, T, (entries T). split; [exact E1|]. split; [apply (g_at _ _ (c_grown _ _ _ G))|].
  destruct (view b T _ (c_def _ _ _ G) (c_grown _ _ _ G) (c_cont _ _ _ G) (c_ne _ _ _ G)) as (V1 & V2 & V3). auto.
Qed.
Print Assumptions C68_contents.
Example C68_contents_case : exists b v, (b0 <- bst_new None None None false ;; insert_prio b0 [(3, 5, Some 3); (1, 4, None); (3, 2, Some 6)]) = Ret b /\ in_order (b_mem b) (b_root b) = Ret v /\ shows v [(1, None); (3, Some 6)].
Proof. eexists. eexists. split; [vm_compute; reflexivity|]. split; vm_compute; reflexivity. Qed.
(** it fails when a key is inserted again with a larger priority: the node stays above smaller ones *)
Theorem C68_reinsert_refuted : exists b T, (b0 <- bst_new None None None false ;; insert_prio b0 [(1, 1, Some 1); (2, 5, Some 2); (1, 9, Some 3)]) = Ret b /\ tree_at (b_mem b) (b_root b) T /\ ~ heap_ordered T.
Proof.
  eexists. eexists. split; [vm_compute; reflexivity|]. match goal with |- tree_at (b_mem ?b) _ _ /\ _ => instantiate (1 := ltac:(let t := eval vm_compute in (read 10 (b_mem b) (b_root b)) in exact t)) end.
  split; [split; [repeat split; reflexivity|]; split; [|reflexivity]; cbn; repeat constructor; cbn; intuition lia|].
  intros ((p & Ep & H) & _). cbn in Ep. injection Ep as <-. destruct (H _ (or_intror eq_refl)) as (q & Eq & Hq). cbn in Eq. injection Eq as <-. lia.
Qed.
Print Assumptions C68_reinsert_refuted.
(** a CartesianTree constructed with a key has a root without priority *)
Theorem C68_constructed_refuted : (b0 <- bst_new (Some 1) (Some 1) None false ;; cart_insert b0 2 5 (Some 2)) = Raise AttributeError.
Proof. vm_compute. reflexivity. Qed.
Print Assumptions C68_constructed_refuted.

(** C70: every history of add and remove that returns leaves the right counts; removing an element never added raises KeyError *)
Theorem C70_multiset_counts_partial : forall (ops : list mop) (m : multiset), ms_history ops = Ret m ->
  (forall x, ms_count m x = occurs x (bag ops)) /\ (forall x, ms_contains m x = true <-> In x (bag ops)) /\ ms_len m = len (bag ops) /\
  (forall x, ~ In (Add x) ops -> ms_remove m x = Raise KeyError).
Proof.
  intros ops m HR. rewrite history_run in HR. destruct (run_counted ops _ [] m new_counted HR) as (H1 & H2 & H3). cbn [app] in *. split; [exact H1|]. split; [|split; [exact H2|]].
  - intros x. unfold ms_contains. rewrite H1, <- occurs_In. lia.
  - intros x Hx. unfold ms_remove. apply H3 in Hx. rewrite Hx. reflexivity.
Qed.
Print Assumptions C70_multiset_counts_partial.
Example C70_case : exists m, ms_history [Add 5; Add 3; Add 5; Remove 5; Add 7; Remove 3] = Ret m /\ ms_count m 5 = 1 /\ ms_count m 3 = 0 /\ ms_len m = 2.
Proof. eexists. split; [vm_compute; reflexivity|]. repeat split. Qed.
(** histories that never remove the last occurrence of an element do return, and then the bounds are right as well *)
Theorem C70_multiset_returns_partial : forall ops : list mop, keeps_elements ops ->
  exists m, ms_history ops = Ret m /\ forall key, exists lo hi, ms_lower_bound m key = Ret lo /\ ms_upper_bound m key = Ret hi /\ least (fun k => key <= k) (bag ops) lo /\ least (fun k => key < k) (bag ops) hi.
Proof.
  intros ops HK. rewrite history_run. destruct (run_treed ops _ [] new_counted) as (m & E1 & T1); [left; cbn; tauto|exact HK|]. exists m. split; [exact E1|]. intros key. apply treed_bounds. exact T1.
Qed.
Print Assumptions C70_multiset_returns_partial.
Example C70_keeps_case : keeps_elements [Add 5; Add 3; Add 5; Remove 5; Add 7].
Proof.
  intros before x after H. do 3 (destruct before as [|? before]; [discriminate|]; injection H as <- H). destruct before as [|? before]; [injection H as <- _; split; [vm_compute; discriminate|cbn; auto]|]. injection H as <- H. destruct before as [|? before]; [discriminate|]. injection H as <- H. destruct before; discriminate.
Qed.
(** removing a last occurrence spoils the next add *)
Theorem C70_multiset_add_after_remove_refuted : ms_history [Add 1; Add 2; Add 3; Remove 3; Add 4] = Raise IndexError.
Proof. vm_compute. reflexivity. Qed.
Print Assumptions C70_multiset_add_after_remove_refuted.
