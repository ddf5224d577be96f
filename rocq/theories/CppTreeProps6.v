(** The C++ BinarySearchTree after inserts and then deletes is the textbook tree of TreeShapeSpec.v, compacting deletes included (C117, C118). *)
From Coq Require Import Sorting.Sorted.
From Verif Require Import Base TreeModel TreeSpec TreeProofs CppArrayModel CppTreeModel CppTreeModel2 CppTreeSpec CppTreeSpec2 CppTreeProofs CppTreeHist CppTreeHist2 CppTreeCompact CppTreeCompact2.
From Verif Require Import TreeShapeSpec CppTreeShapeSpec CppTreeCompact3.

(** C117, C118: BinarySearchTree(comp=comp, is_order_statistic=os, backend=Backend.CPP), any inserts (keys may come again), then deletes of keys [deletable] allows, any number, with any number
    of compactions. The deletes report which keys were there; keys, data, links and parent links are those of the textbook tree; search, the traversals and both bounds agree with it *)
Theorem C117_cpp_bst_shape_partial : forall (K D : Type) (same : K -> K -> bool) (val rk : K -> Z) (comp : K -> K -> Z) (os : bool) (h : list (K * option D)) (ks : list K) (s : sstate D) (fs : list bool),
  (forall x y, same x y = true <-> x = y) -> (forall x y, rk x = rk y -> x = y) -> (forall x y, val x = val y -> x = y) -> order_of rk comp ->
  h <> [] -> st_deletes (map rk ks) (st_inserts (named_entries rk h)) = Some (s, fs) ->
  exists b U v1 v2 v3 v4, from_empty (fun b e => c_insert same val b (fst e) (snd e)) (c_delete same val) comp os h ks = Ret (b, fs) /\
    held (ct_mem b) (ct_root b) None U /\ named_tree rk U = s_tree s /\ StronglySorted Z.lt (map rk (map fst (kents U))) /\ cfinds same b (kents U) /\
    c_pre_order (ct_mem b) (ct_root b) = Ret v1 /\ c_in_order (ct_mem b) (ct_root b) = Ret v2 /\ c_out_order (ct_mem b) (ct_root b) = Ret v3 /\ c_bfs (ct_mem b) (ct_root b) = Ret v4 /\
    map ck_key v1 = map Some (kpre U) /\ cshows v2 (kents U) /\ map ck_key v3 = map Some (rev (map fst (kents U))) /\ map ck_key v4 = map Some (concat (klevels U)) /\
    (forall key, exists lo hi, c_lower_bound same b key = Ret lo /\ c_upper_bound same b key = Ret hi /\
       cleast rk (fun k => rk key <= rk k) (map fst (kents U)) lo /\ cleast rk (fun k => rk key < rk k) (map fst (kents U)) hi).
Proof.
  intros K D same val rk comp os h ks s fs HS HR HV HC NE H. destruct (cpp_shape same val rk HS HR HV comp os h ks s fs HC NE H) as (b & T & U & E1 & G & HU & EN & HI & _). destruct (cg_trav val rk HR (renewed b) T U _ G HI) as (v1 & v2 & v3 & v4 & v5 & F1 & F2 & _ & F4 & F5 & G1 & G2 & _ & G4 & G5).
  exists b, U, v1, v2, v4, v5. split; [exact E1|]. split; [exact HU|]. split; [exact EN|]. split; [apply (cg_sorted val rk _ _ _ G)|]. split; [apply (cg_finds same val rk HS HR (renewed b) T U G)|].
  repeat (split; [assumption|]). intros key. destruct (bounds_renewed same b key) as [<- <-]; apply (cg_bounds same val rk HS HR (renewed b) T U key G).
Qed.
Print Assumptions C117_cpp_bst_shape_partial.

(** C119: select(i) is the i-th entry, rank its inverse, ValueError outside the range, None for an absent key, after the same histories *)
Theorem C119_cpp_order_statistics_compacting_partial : forall (K D : Type) (same : K -> K -> bool) (val rk : K -> Z) (comp : K -> K -> Z) (h : list (K * option D)) (ks : list K) (s : sstate D) (fs : list bool),
  (forall x y, same x y = true <-> x = y) -> (forall x y, rk x = rk y -> x = y) -> (forall x y, val x = val y -> x = y) -> order_of rk comp ->
  h <> [] -> st_deletes (map rk ks) (st_inserts (named_entries rk h)) = Some (s, fs) ->
  exists b l, from_empty (fun b e => c_insert same val b (fst e) (snd e)) (c_delete same val) comp true h ks = Ret (b, fs) /\ named_entries rk l = st_list (s_tree s) /\
    (forall i, 1 <= i <= len l -> exists n e, c_select b i = Ret (Some n) /\ nth_error l (Z.to_nat (i - 1)) = Some e /\ cn_key n = Some (fst e) /\ ck_data (cn_inf n) = snd e /\ c_rank same b (fst e) = Ret (Some i)) /\
    (forall i, i < 1 \/ len l < i -> c_select b i = Raise ValueError) /\
    (forall k, ~ In k (map fst l) -> c_rank same b k = Ret None).
Proof.
  intros K D same val rk comp h ks s fs HS HR HV HC NE H. destruct (cpp_shape same val rk HS HR HV comp true h ks s fs HC NE H) as (b & T & U & E1 & G & HU & EN & HI & HZ & _).
  exists b, (kents U). split; [exact E1|]. split; [rewrite <- EN; symmetry; apply named_tree_list|]. apply (cg_os_counted same val rk HS HR (renewed b) T U G (HZ eq_refl)).
Qed.
Print Assumptions C119_cpp_order_statistics_compacting_partial.

(** C120: algorithm 2 finds the lowest common ancestor unless one of the keys is the root's. Algorithm 1, of keys whose integers CPython keeps one object for, in
    an array of at most 257 cells, does so unless the first key is the ancestor: then it returns the second. Both raise ValueError for absent keys *)
Theorem C120_cpp_lca_compacting_partial : forall (K D : Type) (same : K -> K -> bool) (val rk : K -> Z) (comp : K -> K -> Z) (os : bool) (h : list (K * option D)) (ks : list K) (s : sstate D) (fs : list bool) (j k : K),
  (forall x y, same x y = true <-> x = y) -> (forall x y, rk x = rk y -> x = y) -> (forall x y, val x = val y -> x = y) -> order_of rk comp ->
  h <> [] -> st_deletes (map rk ks) (st_inserts (named_entries rk h)) = Some (s, fs) ->
  exists b U, from_empty (fun b e => c_insert same val b (fst e) (snd e)) (c_delete same val) comp os h ks = Ret (b, fs) /\ held (ct_mem b) (ct_root b) None U /\ named_tree rk U = s_tree s /\
    (kin j U -> kin k U -> kroot U <> Some j -> kroot U <> Some k -> exists z, c_lca_2 same b j k = Ret (Some z) /\ klca U j k z) /\
    (~ kin j U \/ ~ kin k U -> c_lca_2 same b j k = Raise ValueError) /\
    (s_cells s <= 257 -> cached (val j) = true -> cached (val k) = true -> kin j U -> kin k U -> exists z, klca U j k z /\ c_lca_1 val b j k = Ret (Some (if same z j then k else z))) /\
    (s_cells s <= 257 -> ~ kin j U \/ ~ kin k U -> c_lca_1 val b j k = Raise ValueError).
Proof.
  intros K D same val rk comp os h ks s fs j k HS HR HV HC NE H. destruct (cpp_shape same val rk HS HR HV comp os h ks s fs HC NE H) as (b & T & U & E1 & G & HU & EN & HI & _ & R0 & LC).
  exists b, U. split; [exact E1|]. split; [exact HU|]. split; [exact EN|]. destruct (cg_lca_2 same val rk HS HR (renewed b) T U j k G) as [L1 L2]. split; [exact L1|]. split; [exact L2|].
  assert (L : s_cells s <= 257 -> forall i, In i (idx T) -> 0 <= i <= 256) by (intros X i Hi; specialize (HI i Hi); lia). split.
  - intros X Cj Ck Kj Kk. destruct (cg_lca_1 same val rk HS HR HV (renewed b) T U j k G R0 (L X)) as [L3 _]. apply L3; assumption.
  - intros X A. destruct (cg_lca_1 same val rk HS HR HV (renewed b) T U j k G R0 (L X)) as [_ L4]. apply L4. tauto.
Qed.
Print Assumptions C120_cpp_lca_compacting_partial.
Definition shape_objs : list (Z * option Z) := map (fun k => (k, Some (100 * k))) [50; 20; 70; 10; 30; 60; 90; 5; 25; 35; 65; 80; 95; 33; 37; 50].
(** fifteen keys in 15 cells; fifteen deletes, two of them compacting *)
Example C117_shape_case : exists s fs, st_deletes [10; 50; 20; 77; 65; 37; 30; 33; 25; 90; 35; 70; 80; 60; 5] (st_inserts (named_entries (fun z : Z => z) shape_objs)) = Some (s, fs) /\
  s_cells s = 3 /\ s_tree s = Node Leaf 95 (Some 9500) Leaf /\
  exists b n, from_empty (fun b e => c_insert Z.eqb (fun z => z) b (fst e) (snd e)) (c_delete Z.eqb (fun z => z)) (fun x y => if x <? y then 1 else 0) true shape_objs [10; 50; 20; 77; 65; 37; 30; 33; 25; 90; 35; 70; 80; 60; 5] = Ret (b, fs) /\
    len (ct_mem b) = 3 /\ cget (ct_mem b) (ct_root b) = Ret n /\ cn_key n = Some 95 /\ cn_left n = None /\ cn_right n = None.
Proof. do 2 eexists. split; [vm_compute; reflexivity|]. split; [vm_compute; reflexivity|]. split; [vm_compute; reflexivity|]. do 2 eexists. split; [vm_compute; reflexivity|]. split; [vm_compute; reflexivity|]. split; [vm_compute; reflexivity|]. repeat split; vm_compute; reflexivity. Qed.
Example C119_C120_compacting_case : exists s b, st_deletes [10; 50; 20; 77; 65; 37; 30; 33; 25; 90; 35; 70; 80] (st_inserts (named_entries (fun z : Z => z) shape_objs)) = Some (s, [true; true; true; false; true; true; true; true; true; true; true; true; true]) /\ s_cells s = 7 /\
  from_empty (fun b e => c_insert Z.eqb (fun z => z) b (fst e) (snd e)) (c_delete Z.eqb (fun z => z)) (fun x y => if x <? y then 1 else 0) true shape_objs [10; 50; 20; 77; 65; 37; 30; 33; 25; 90; 35; 70; 80] = Ret (b, [true; true; true; false; true; true; true; true; true; true; true; true; true]) /\
  map (fun i => match c_select b i with Ret (Some n) => cn_key n | _ => None end) [1; 2; 3] = [Some 5; Some 60; Some 95] /\ c_select b 4 = Raise ValueError /\ map (c_rank Z.eqb b) [60; 95; 50] = [Ret (Some 2); Ret (Some 3); Ret None] /\
  c_lca_2 Z.eqb b 5 95 = Ret (Some 60) /\ c_lca_1 (fun z => z) b 5 95 = Ret (Some 60) /\ c_lca_1 (fun z => z) b 50 60 = Raise ValueError.
Proof. do 2 eexists. split; [vm_compute; reflexivity|]. split; [vm_compute; reflexivity|]. split; [vm_compute; reflexivity|]. repeat apply conj; vm_compute; reflexivity. Qed.
