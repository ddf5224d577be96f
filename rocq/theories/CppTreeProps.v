(** The C++ backend of the search trees: C117-C122. The statements use CppTreeSpec.v (trees of key objects, histories) and the sorted list of
    TreeHist2Spec.v, which follows a history and says which histories are meant.

    [K] are the key objects, [same] their identity, [rk] numbers them in the order of the comparator; [val] is the integer an object stands for. So
    within these theorems a key is one object: what happens with two equal objects is shown by C117_equal_keys_refuted. *)
From Coq Require Import Sorting.Sorted.
From Verif Require Import Base TreeModel TreeSpec TreeHist2Spec TreeProofs CppArrayModel CppTreeModel CppTreeSpec CppTreeQuery CppTreeSim CppTreeProofs CppTreeHist.

(** C117: the deletes report which keys were there; afterwards the nodes hold a binary tree (keys, data, links and parents) whose entries are those of the
    sorted list, search finds exactly these and the in-order traversal lists them *)
Theorem C117_cpp_bst_history_partial : forall (K D : Type) (same : K -> K -> bool) (val rk : K -> Z) (comp : K -> K -> Z) (os : bool) (k0 : K) (d0 : option D) (ops : list (cop K D)) (s : bmap D) (fs : list bool),
  (forall x y, same x y = true <-> x = y) -> (forall x y, rk x = rk y -> x = y) -> order_of rk comp ->
  bmap_run (bmap_first (rk k0) d0) (map (named rk) ops) = Some (s, fs) ->
  exists b U v, cpp_bst_history same val comp os k0 d0 ops = Ret (b, fs) /\ held (ct_mem b) (ct_root b) None U /\
    named_entries rk (kents U) = s_ents s /\ StronglySorted Z.lt (map fst (s_ents s)) /\
    cfinds same b (kents U) /\ c_in_order (ct_mem b) (ct_root b) = Ret v /\ cshows v (kents U).
Proof.
  intros K D same val rk comp os k0 d0 ops s fs HS HR HC H. destruct (cpp_history_ok same val rk HS HR comp os k0 d0 ops s fs HC H) as (b & T & U & E1 & G & HU & EN & _ & _ & HI & _). destruct (cg_trav val rk HR b T U _ G HI) as (v1 & v2 & v3 & v4 & v5 & _ & F2 & _ & _ & _ & _ & G2 & _).
  exists b, U, v2. split; [exact E1|]. split; [exact HU|]. split; [symmetry; exact EN|]. split; [rewrite EN; unfold named_entries; rewrite map_map; assert (X := cg_sorted val rk _ _ _ G); rewrite map_map in X; exact X|]. split; [apply (cg_finds same val rk HS HR b T U G)|]. split; [exact F2|exact G2].
Qed.
Print Assumptions C117_cpp_bst_history_partial.
Definition zcomp (x y : Z) : Z := if x <? y then 1 else 0.
Lemma zorder : order_of (fun z : Z => z) zcomp.
Proof. intros x y. reflexivity. Qed.
(** leaves, a node with two children, the root, an absent key, a key inserted again after its delete, an update *)
Definition cdemo : list (cop Z Z) := [CIns 20 (Some 1); CIns 60 (Some 2); CIns 10 (Some 3); CIns 30 (Some 4); CIns 70 (Some 5); CIns 55 (Some 6); CIns 99 None; CDel 20; CDel 21; CIns 57 (Some 7); CDel 50; CIns 20 (Some 8); CDel 30; CIns 70 (Some 9)].
Example C117_case : bmap_run (bmap_first 50 (Some 0)) (map (named (fun z : Z => z)) cdemo) = Some (mkbmap [(10, Some 3); (20, Some 8); (55, Some 6); (57, Some 7); (60, Some 2); (70, Some 9); (99, None)] 10 20 55, [true; false; true; true]) /\
  exists b, cpp_bst_history Z.eqb (fun z => z) zcomp true 50 (Some 0) cdemo = Ret (b, [true; false; true; true]) /\ c_search Z.eqb b 57 = Ret (Some 8) /\ c_rank Z.eqb b 55 = Ret (Some 3) /\ c_lca_1 (fun z => z) b 57 99 = Ret (Some 60) /\ c_lca_2 Z.eqb b 57 99 = Ret (Some 60) /\ c_lower_bound Z.eqb b 56 = Ret (Some 57).
Proof. split; [vm_compute; reflexivity|]. eexists. split; [vm_compute; reflexivity|]. repeat apply conj; vm_compute; reflexivity. Qed.

(** C118: lower_bound and upper_bound give the least key that is >= resp. > the given key object, None if there is none *)
Theorem C118_cpp_bounds : forall (K D : Type) (same : K -> K -> bool) (val rk : K -> Z) (comp : K -> K -> Z) (os : bool) (k0 : K) (d0 : option D) (ops : list (cop K D)) (s : bmap D) (fs : list bool) (key : K),
  (forall x y, same x y = true <-> x = y) -> (forall x y, rk x = rk y -> x = y) -> order_of rk comp ->
  bmap_run (bmap_first (rk k0) d0) (map (named rk) ops) = Some (s, fs) ->
  exists b l lo hi, cpp_bst_history same val comp os k0 d0 ops = Ret (b, fs) /\ named_entries rk l = s_ents s /\ c_lower_bound same b key = Ret lo /\ c_upper_bound same b key = Ret hi /\
    cleast rk (fun k => rk key <= rk k) (map fst l) lo /\ cleast rk (fun k => rk key < rk k) (map fst l) hi.
Proof.
  intros K D same val rk comp os k0 d0 ops s fs key HS HR HC H. destruct (cpp_history_ok same val rk HS HR comp os k0 d0 ops s fs HC H) as (b & T & U & E1 & G & HU & EN & _). destruct (cg_bounds same val rk HS HR b T U key G) as (lo & hi & X). exists b, (kents U), lo, hi. split; [exact E1|]. split; [symmetry; exact EN|exact X].
Qed.
Print Assumptions C118_cpp_bounds.
Example C118_case : exists b, cpp_bst_history Z.eqb (fun z => z) zcomp false 50 (Some 0) cdemo = Ret (b, [true; false; true; true]) /\
  c_lower_bound Z.eqb b 57 = Ret (Some 57) /\ c_upper_bound Z.eqb b 57 = Ret (Some 60) /\ c_lower_bound Z.eqb b 1 = Ret (Some 10) /\ c_upper_bound Z.eqb b 99 = Ret None.
Proof. eexists. split; [vm_compute; reflexivity|]. repeat apply conj; vm_compute; reflexivity. Qed.

(** C119: select(i) is the i-th entry, rank its inverse, ValueError outside the range, None for an absent key *)
Theorem C119_cpp_order_statistics_partial : forall (K D : Type) (same : K -> K -> bool) (val rk : K -> Z) (comp : K -> K -> Z) (k0 : K) (d0 : option D) (ops : list (cop K D)) (s : bmap D) (fs : list bool),
  (forall x y, same x y = true <-> x = y) -> (forall x y, rk x = rk y -> x = y) -> order_of rk comp ->
  bmap_run (bmap_first (rk k0) d0) (map (named rk) ops) = Some (s, fs) ->
  exists b l, cpp_bst_history same val comp true k0 d0 ops = Ret (b, fs) /\ named_entries rk l = s_ents s /\
    (forall i, 1 <= i <= len l -> exists n e, c_select b i = Ret (Some n) /\ nth_error l (Z.to_nat (i - 1)) = Some e /\ cn_key n = Some (fst e) /\ ck_data (cn_inf n) = snd e /\ c_rank same b (fst e) = Ret (Some i)) /\
    (forall i, i < 1 \/ len l < i -> c_select b i = Raise ValueError) /\
    (forall k, ~ In k (map fst l) -> c_rank same b k = Ret None).
Proof.
  intros K D same val rk comp k0 d0 ops s fs HS HR HC H. destruct (cpp_history_ok same val rk HS HR comp true k0 d0 ops s fs HC H) as (b & T & U & E1 & G & HU & EN & HZ & _). exists b, (kents U). split; [exact E1|]. split; [symmetry; exact EN|]. apply (cg_os same val rk HS HR b T U G). apply HZ. reflexivity.
Qed.
Print Assumptions C119_cpp_order_statistics_partial.
Example C119_case : exists b n, cpp_bst_history Z.eqb (fun z => z) zcomp true 50 (Some 0) cdemo = Ret (b, [true; false; true; true]) /\
  c_select b 4 = Ret (Some n) /\ cn_key n = Some 57 /\ c_rank Z.eqb b 57 = Ret (Some 4) /\ c_select b 8 = Raise ValueError /\ c_rank Z.eqb b 50 = Ret None.
Proof. do 2 eexists. split; [vm_compute; reflexivity|]. split; [vm_compute; reflexivity|]. repeat apply conj; vm_compute; reflexivity. Qed.

(** C120: algorithm 2 finds the lowest common ancestor unless one of the keys is the root's. Algorithm 1, of keys whose integers CPython keeps one object
    for, in a tree that has had at most 257 nodes, does so unless the first key is the ancestor: then it returns the second. Both raise ValueError for absent keys. *)
Theorem C120_cpp_lca_partial : forall (K D : Type) (same : K -> K -> bool) (val rk : K -> Z) (comp : K -> K -> Z) (os : bool) (k0 : K) (d0 : option D) (ops : list (cop K D)) (s : bmap D) (fs : list bool) (j k : K),
  (forall x y, same x y = true <-> x = y) -> (forall x y, rk x = rk y -> x = y) -> (forall x y, val x = val y -> x = y) -> order_of rk comp ->
  bmap_run (bmap_first (rk k0) d0) (map (named rk) ops) = Some (s, fs) ->
  exists b U, cpp_bst_history same val comp os k0 d0 ops = Ret (b, fs) /\ held (ct_mem b) (ct_root b) None U /\ named_entries rk (kents U) = s_ents s /\ option_map rk (kroot U) = Some (s_rootk s) /\
    (kin j U -> kin k U -> kroot U <> Some j -> kroot U <> Some k -> exists z, c_lca_2 same b j k = Ret (Some z) /\ klca U j k z) /\
    (~ kin j U \/ ~ kin k U -> c_lca_2 same b j k = Raise ValueError) /\
    (s_used s <= 257 -> cached (val j) = true -> cached (val k) = true -> kin j U -> kin k U -> exists z, klca U j k z /\ c_lca_1 val b j k = Ret (Some (if same z j then k else z))) /\
    (s_used s <= 257 -> ~ kin j U \/ ~ kin k U -> c_lca_1 val b j k = Raise ValueError).
Proof.
  intros K D same val rk comp os k0 d0 ops s fs j k HS HR HV HC H. destruct (cpp_history_ok same val rk HS HR comp os k0 d0 ops s fs HC H) as (b & T & U & E1 & G & HU & EN & _ & R0 & HI & HZ & RK). exists b, U. split; [exact E1|]. split; [exact HU|]. split; [symmetry; exact EN|]. split; [rewrite <- RK; symmetry; apply (twin_root val rk); apply (cg_twin rk b); exact G|].
  destruct (cg_lca_2 same val rk HS HR b T U j k G) as [L1 L2]. split; [exact L1|]. split; [exact L2|]. assert (L : s_used s <= 257 -> forall i, In i (idx T) -> 0 <= i <= 256) by (intros X i Hi; specialize (HI i Hi); lia).
  split.
  - intros X Cj Ck Kj Kk. destruct (cg_lca_1 same val rk HS HR HV b T U j k G R0 (L X)) as [L3 _]. apply L3; assumption.
  - intros X A. destruct (cg_lca_1 same val rk HS HR HV b T U j k G R0 (L X)) as [_ L4]. apply L4. tauto.
Qed.
Print Assumptions C120_cpp_lca_partial.
Example C120_case : exists b, cpp_bst_history Z.eqb (fun z => z) zcomp false 50 (Some 0) cdemo = Ret (b, [true; false; true; true]) /\
  c_lca_1 (fun z => z) b 57 99 = Ret (Some 60) /\ c_lca_2 Z.eqb b 57 99 = Ret (Some 60) /\ c_lca_1 (fun z => z) b 99 70 = Ret (Some 70) /\ c_lca_2 Z.eqb b 99 70 = Ret (Some 70) /\ c_lca_1 (fun z => z) b 50 70 = Raise ValueError /\ c_lca_2 Z.eqb b 50 70 = Raise ValueError.
Proof. eexists. split; [vm_compute; reflexivity|]. repeat apply conj; vm_compute; reflexivity. Qed.

(** C121: the five traversals list the nodes of the tree held in pre-order, in-order, post-order, reverse in-order and level by level *)
Theorem C121_cpp_traversals : forall (K D : Type) (same : K -> K -> bool) (val rk : K -> Z) (comp : K -> K -> Z) (os : bool) (k0 : K) (d0 : option D) (ops : list (cop K D)) (s : bmap D) (fs : list bool),
  (forall x y, same x y = true <-> x = y) -> (forall x y, rk x = rk y -> x = y) -> order_of rk comp ->
  bmap_run (bmap_first (rk k0) d0) (map (named rk) ops) = Some (s, fs) ->
  exists b U v1 v2 v3 v4 v5, cpp_bst_history same val comp os k0 d0 ops = Ret (b, fs) /\ held (ct_mem b) (ct_root b) None U /\ named_entries rk (kents U) = s_ents s /\
    c_pre_order (ct_mem b) (ct_root b) = Ret v1 /\ c_in_order (ct_mem b) (ct_root b) = Ret v2 /\ c_post_order (ct_mem b) (ct_size b) (ct_root b) = Ret v3 /\ c_out_order (ct_mem b) (ct_root b) = Ret v4 /\ c_bfs (ct_mem b) (ct_root b) = Ret v5 /\
    map ck_key v1 = map Some (kpre U) /\ map ck_key v2 = map Some (map fst (kents U)) /\ map ck_key v3 = map Some (kpost U) /\ map ck_key v4 = map Some (rev (map fst (kents U))) /\ map ck_key v5 = map Some (concat (klevels U)).
Proof.
  intros K D same val rk comp os k0 d0 ops s fs HS HR HC H. destruct (cpp_history_ok same val rk HS HR comp os k0 d0 ops s fs HC H) as (b & T & U & E1 & G & HU & EN & _ & _ & HI & _). destruct (cg_trav val rk HR b T U _ G HI) as (v1 & v2 & v3 & v4 & v5 & F1 & F2 & F3 & F4 & F5 & G1 & G2 & G3 & G4 & G5).
  exists b, U, v1, v2, v3, v4, v5. split; [exact E1|]. split; [exact HU|]. split; [symmetry; exact EN|]. repeat (split; [assumption|]). split; [|auto]. assert (X := f_equal (map fst) G2). rewrite !map_map in X. cbn [fst] in X. rewrite map_map. exact X.
Qed.
Print Assumptions C121_cpp_traversals.
Example C121_case : exists b v1 v3 v5, cpp_bst_history Z.eqb (fun z => z) zcomp false 50 (Some 0) cdemo = Ret (b, [true; false; true; true]) /\
  c_pre_order (ct_mem b) (ct_root b) = Ret v1 /\ c_post_order (ct_mem b) (ct_size b) (ct_root b) = Ret v3 /\ c_bfs (ct_mem b) (ct_root b) = Ret v5 /\
  map ck_key v1 = map Some [55; 10; 20; 60; 57; 70; 99] /\ map ck_key v3 = map Some [20; 10; 57; 99; 70; 60; 55] /\ map ck_key v5 = map Some [55; 10; 60; 20; 57; 70; 99].
Proof. do 4 eexists. split; [vm_compute; reflexivity|]. do 3 (split; [vm_compute; reflexivity|]). repeat apply conj; vm_compute; reflexivity. Qed.

(** C122: AVLTree, inserts and then deletes of up to half of the keys, at most 257 keys. [l] are the entries after the inserts by ascending key *)
Theorem C122_cpp_avl_partial : forall (K D : Type) (same : K -> K -> bool) (val rk : K -> Z) (comp : K -> K -> Z) (os : bool) (k0 : K) (d0 : option D) (h : list (K * option D)) (ks : list K) (l : list (Z * option D)),
  (forall x y, same x y = true <-> x = y) -> (forall x y, rk x = rk y -> x = y) -> order_of rk comp ->
  sorted_map l (named_entries rk ((k0, d0) :: h)) -> len l <= 257 -> 2 * len ks <= len l ->
  exists b U, cpp_avl_history same val comp os k0 d0 (map (fun e => CIns (fst e) (snd e)) h ++ map CDel ks) = Ret (b, map (fun _ => true) ks) /\
    held (ct_mem b) (ct_root b) None U /\ kbalanced U /\ named_entries rk (kents U) = fst (deleted l (map rk ks)) /\
    cfinds same b (kents U) /\
    (forall key, exists lo hi, c_lower_bound same b key = Ret lo /\ c_upper_bound same b key = Ret hi /\
       cleast rk (fun k => rk key <= rk k) (map fst (kents U)) lo /\ cleast rk (fun k => rk key < rk k) (map fst (kents U)) hi) /\
    (os = true -> 3 <= len l ->
      (forall i, 1 <= i <= len (kents U) -> exists n e, c_select b i = Ret (Some n) /\ nth_error (kents U) (Z.to_nat (i - 1)) = Some e /\ cn_key n = Some (fst e) /\ ck_data (cn_inf n) = snd e /\ c_rank same b (fst e) = Ret (Some i)) /\
      (forall i, i < 1 \/ len (kents U) < i -> c_select b i = Raise ValueError)).
Proof.
  intros K D same val rk comp os k0 d0 h ks l HS HR HC SM HL HK. destruct (cpp_avl_ok same val rk HS HR comp os k0 d0 h ks l HC SM HL HK) as (b & T & U & E1 & G & HU & EN & BL & HZ). exists b, U. split; [exact E1|]. split; [exact HU|]. split; [exact BL|]. split; [exact EN|]. split; [apply (cg_finds same val rk HS HR b T U G)|]. split; [intros key; apply (cg_bounds same val rk HS HR b T U key G)|].
  intros O N3. destruct (cg_os same val rk HS HR b T U G (HZ N3 O)) as (O1 & O2 & _). auto.
Qed.
Print Assumptions C122_cpp_avl_partial.
Definition cins (l : list Z) : list (Z * option Z) := map (fun k => (k, Some (10 * k))) l.
Lemma sorted_map_cins : sorted_map (cins [1; 2; 3; 4; 5; 6; 7; 8; 9; 10]) (named_entries (fun z : Z => z) (cins [1; 2; 3; 4; 5; 6; 10; 9; 8; 7])).
Proof.
  split; [repeat constructor|]. intros k d. cbn. split.
  - intros H. repeat (destruct H as [H|H]; [injection H as <- <-; reflexivity|]). destruct H.
  - intros H. repeat match type of H with context [?x =? ?y] => destruct (Z.eqb_spec x y); [subst; injection H as <-; tauto|] end. discriminate.
Qed.
Example C122_case : exists b, cpp_avl_history Z.eqb (fun z => z) zcomp true 1 (Some 10) (map (fun e => CIns (fst e) (snd e)) (cins [2; 3; 4; 5; 6; 10; 9; 8; 7]) ++ map CDel [4; 99; 2; 3; 10]) = Ret (b, [true; true; true; true; true]) /\
  (exists v, c_in_order (ct_mem b) (ct_root b) = Ret v /\ map ck_key v = map Some [1; 5; 6; 7; 8; 9]) /\ (exists n, cget (ct_mem b) (ct_root b) = Ret n /\ ck_height (cn_inf n) = 2) /\ c_rank Z.eqb b 8 = Ret (Some 5).
Proof. eexists. split; [vm_compute; reflexivity|]. split; [eexists; split; vm_compute; reflexivity|]. split; [eexists; split; vm_compute; reflexivity|vm_compute; reflexivity]. Qed.

(** ** Where the code fails *)
Definition cputs (l : list Z) : list (cop Z Z) := map (fun k => CIns k (Some k)) l.
Definition cdels (l : list Z) : list (cop Z Z) := map CDel l.
(** an object: which one it is, and the integer it stands for. search and insert look for the object, not for an equal key *)
Theorem C117_equal_keys_refuted : exists b v, cpp_bst_history (K := Z * Z) (D := Z) (fun x y => (fst x =? fst y) && (snd x =? snd y)) snd (fun x y => zcomp (snd x) (snd y)) false (1, 1000) (Some 0) [CIns (2, 1000) (Some 1)] = Ret (b, []) /\
  c_search (fun x y => (fst x =? fst y) && (snd x =? snd y)) b (3, 1000) = Ret None /\ c_in_order (ct_mem b) (ct_root b) = Ret v /\ map (fun x => option_map snd (ck_key x)) v = [Some 1000; Some 1000].
Proof. do 2 eexists. split; [vm_compute; reflexivity|]. split; [vm_compute; reflexivity|]. split; vm_compute; reflexivity. Qed.
Print Assumptions C117_equal_keys_refuted.
(** the key just inserted after a compaction hangs at an index outside the buffer *)
Theorem C117_insert_after_compaction_refuted : exists b, cpp_bst_history Z.eqb (fun z => z) zcomp false 50 (Some 50) (cputs [20; 80; 10; 30; 70; 90; 5; 15] ++ cdels [5; 15; 10; 30; 70; 90] ++ cputs [60]) = Ret (b, [true; true; true; true; true; true]) /\
  c_search Z.eqb b 60 = undefined /\ c_in_order (ct_mem b) (ct_root b) = undefined.
Proof. eexists. split; [vm_compute; reflexivity|]. split; vm_compute; reflexivity. Qed.
Print Assumptions C117_insert_after_compaction_refuted.
(** deleting a node with one child, when that makes the array compact itself *)
Theorem C117_delete_one_child_refuted : exists b, cpp_bst_history Z.eqb (fun z => z) zcomp false 50 (Some 50) (cputs [20; 80; 10; 30; 70; 90; 5; 15] ++ cdels [15; 30; 90; 70; 80]) = Ret (b, [true; true; true; true; true]) /\
  c_search Z.eqb b 10 = Ret (Some 3) /\ c_delete Z.eqb (fun z => z) b 10 = undefined.
Proof. eexists. split; [vm_compute; reflexivity|]. split; vm_compute; reflexivity. Qed.
Print Assumptions C117_delete_one_child_refuted.
(** deleting from a tree that has become empty *)
Theorem C117_delete_emptied_refuted : exists b, cpp_bst_history Z.eqb (fun z => z) zcomp false 50 (Some 50) (cdels [50]) = Ret (b, [true]) /\ c_delete Z.eqb (fun z => z) b 50 = undefined.
Proof. eexists. split; vm_compute; reflexivity. Qed.
Print Assumptions C117_delete_emptied_refuted.
(** the Python backend forgets the key when root_data is None, the C++ backend keeps it *)
Theorem C117_root_without_data_refuted : forall (key : Z), exists (b : ctree Z Z) (b' : bst Z), cpp_bst_new (D := Z) (Some key) None zcomp false = Ret b /\ bst_new (D := Z) (Some key) None None false = Ret b' /\ c_search Z.eqb b key = Ret (Some 0) /\ search b' key = Ret None.
Proof. intros key. do 2 eexists. split; [reflexivity|]. split; [reflexivity|]. split; [|reflexivity]. unfold c_search, c_search_loop, cget, rawget. cbn. rewrite Z.eqb_refl. reflexivity. Qed.
Print Assumptions C117_root_without_data_refuted.
(** insert takes every result but 0 for less, search only 1: with a comparator that returns 2 for less the smaller keys cannot be found *)
Theorem C117_comparator_refuted : exists b n m, cpp_bst_history Z.eqb (fun z => z) (fun x y => if x <? y then 2 else 0) false 50 (Some 50) (cputs [20; 80]) = Ret (b, []) /\
  cget (ct_mem b) (ct_root b) = Ret n /\ cget (ct_mem b) (cn_left n) = Ret m /\ cn_key m = Some 20 /\ c_search Z.eqb b 20 = Ret None.
Proof. do 3 eexists. split; [vm_compute; reflexivity|]. split; [vm_compute; reflexivity|]. split; [vm_compute; reflexivity|]. split; vm_compute; reflexivity. Qed.
Print Assumptions C117_comparator_refuted.
(** the first key is the ancestor: algorithm 1 returns the second *)
Theorem C120_lca_1_ancestor_refuted : exists b U, cpp_bst_history Z.eqb (fun z => z) zcomp false 50 (Some 50) (cputs [20; 10; 30]) = Ret (b, []) /\ held (ct_mem b) (ct_root b) None U /\ klca U 20 10 20 /\ ~ klca U 20 10 10 /\ c_lca_1 (fun z => z) b 20 10 = Ret (Some 10).
Proof.
  eexists. exists (KN (KN (KN KE 10 (Some 10) KE) 20 (Some 20) (KN KE 30 (Some 30) KE)) 50 (Some 50) KE). split; [vm_compute; reflexivity|]. split; [repeat (eexists; repeat split)|]. split; [cbn; lia|]. split; [cbn; lia|vm_compute; reflexivity].
Qed.
Print Assumptions C120_lca_1_ancestor_refuted.
(** integers above 256: the keys are there and algorithm 1 raises *)
Theorem C120_lca_1_values_refuted : exists b, cpp_bst_history Z.eqb (fun z => z) zcomp false 500 (Some 50) (cputs [300; 700]) = Ret (b, []) /\ c_search Z.eqb b 300 = Ret (Some 1) /\ c_search Z.eqb b 700 = Ret (Some 2) /\ c_lca_1 (fun z => z) b 300 700 = Raise ValueError.
Proof. eexists. repeat apply conj; vm_compute; reflexivity. Qed.
Print Assumptions C120_lca_1_values_refuted.
(** a key at the root: algorithm 2 returns the other key *)
Theorem C120_lca_2_root_refuted : exists b U, cpp_bst_history Z.eqb (fun z => z) zcomp false 1 (Some 1) (cputs [2]) = Ret (b, []) /\ held (ct_mem b) (ct_root b) None U /\ klca U 1 2 1 /\ ~ klca U 1 2 2 /\ c_lca_2 Z.eqb b 1 2 = Ret (Some 2).
Proof. eexists. exists (KN KE 1 (Some 1) (KN KE 2 (Some 2) KE)). split; [vm_compute; reflexivity|]. split; [repeat (eexists; repeat split)|]. split; [cbn; lia|]. split; [cbn; lia|vm_compute; reflexivity]. Qed.
Print Assumptions C120_lca_2_root_refuted.
(** a balanced tree whose root is not at index 0 *)
Theorem C120_lca_1_avl_refuted : exists b, cpp_avl_history Z.eqb (fun z => z) zcomp false 1 (Some 1) (cputs [2; 3]) = Ret (b, []) /\ ct_root b = Some 1 /\ c_lca_1 (fun z => z) b 1 3 = undefined.
Proof. eexists. repeat apply conj; vm_compute; reflexivity. Qed.
Print Assumptions C120_lca_1_avl_refuted.
(** beyond 257 keys: the node whose grandchild it is stays unbalanced (no left child, two levels on the right) *)
Theorem C122_avl_unbalanced_refuted : exists b i n m, cpp_avl_history Z.eqb (fun z => z) zcomp false 1 (Some 1) (cputs (zrange 2 260)) = Ret (b, []) /\
  cget (ct_mem b) i = Ret n /\ cn_left n = None /\ cget (ct_mem b) (cn_right n) = Ret m /\ cn_right m <> None.
Proof.
  assert (X : forall r : res (ctree Z Z * list bool),
    match r with
    | Ret (b, []) => match cget (ct_mem b) (Some 256) with
        | Ret n => match cn_left n with None => match cget (ct_mem b) (cn_right n) with Ret m => match cn_right m with Some _ => true | None => false end | _ => false end | Some _ => false end
        | _ => false end
    | _ => false end = true ->
    exists b i n m, r = Ret (b, []) /\ cget (ct_mem b) i = Ret n /\ cn_left n = None /\ cget (ct_mem b) (cn_right n) = Ret m /\ cn_right m <> None).
  { intros r H. destruct r as [[b [|]]| |]; try discriminate. destruct (cget (ct_mem b) (Some 256)) as [n| |] eqn:E1; try discriminate.
    destruct (cn_left n) eqn:E2; try discriminate. destruct (cget (ct_mem b) (cn_right n)) as [m| |] eqn:E3; try discriminate. destruct (cn_right m) eqn:E4; try discriminate.
    exists b, (Some 256), n, m. repeat split; try assumption. congruence. }
  apply X. vm_compute. reflexivity.
Qed.
Print Assumptions C122_avl_unbalanced_refuted.
(** delete reports True for every absent key *)
Theorem C122_avl_delete_absent_refuted : forall (K D : Type) (same : K -> K -> bool) (val rk : K -> Z) (comp : K -> K -> Z) (os : bool) (k0 k : K) (d0 : option D),
  (forall x y, same x y = true <-> x = y) -> (forall x y, rk x = rk y -> x = y) -> order_of rk comp -> k <> k0 ->
  exists b, cpp_avl_history same val comp os k0 d0 [CDel k] = Ret (b, [true]).
Proof.
  intros K D same val rk comp os k0 k d0 HS HR HC HN. assert (E1 : same k0 k = false). { destruct (same k0 k) eqn:E; [|reflexivity]. apply HS in E. congruence. }
  unfold cpp_avl_history, c_avl_delete, c_delete_info, c_search_parent, c_search_loop, cget, rawget. cbn. rewrite E1. cbn. destruct (comp k k0 =? 1); cbn; eexists; reflexivity.
Qed.
Print Assumptions C122_avl_delete_absent_refuted.
