(** Histories that mix inserts and deletes on the C++ self-balancing trees: C122, C123, C124, C125.

    [K] are the key objects, [same] their identity, [rk] numbers them in the order of the comparator, [val] is the integer an object stands for. Within these theorems a key is one object. *)
From Verif Require Import Base TreeModel TreeModel2 TreeSpec TreeProofs TreeBst TreeDel TreeHist TreeBalSpec TreeAvl TreeAvl2 TreeTreap TreeRb TreeHist2Spec TreeHist2 TreeHist3 TreeMixSpec TreeMix2 TreeMix5 TreeMix8 CppArrayModel CppTreeModel CppTreeModel2 CppTreeSim CppTreeSim2 CppTreeSpec CppTreeSpec2 CppTreeProofs CppTreeHist CppTreeHist2 CppMixSpec CppTreeMix.

(** AVLTree(k0, d0), then inserts and deletes in any order, at most 257 keys ever; a delete spares the newest key and the key just before it, leaves two keys, and leaves half of the keys ever
    inserted. The nodes hold a balanced tree with the entries the calls leave; search, the bounds and the order statistics agree with them *)
Theorem C122_cpp_avl_history_partial : forall (K D : Type) (same : K -> K -> bool) (val rk : K -> Z) (comp : K -> K -> Z) (os : bool) (k0 : K) (d0 : option D) (ops : list (call K (K * option D))) (s : mmap D) (fs : list bool),
  (forall x y, same x y = true <-> x = y) -> (forall x y, rk x = rk y -> x = y) -> order_of rk comp ->
  m_run small_tree spare_newest (m_first (rk k0) d0) (map (ranked_call rk (fun e => e)) ops) = Some (s, fs) ->
  exists b U, (b <- cpp_bst_new (Some k0) d0 comp os ;; calls (fun b e => c_avl_insert same val b (fst e) (snd e)) (c_avl_delete same val) b ops) = Ret (b, map (fun _ => true) fs) /\
    held (ct_mem b) (ct_root b) None U /\ kbalanced U /\ named_entries rk (kents U) = m_ents s /\ cfinds same b (kents U) /\
    (forall key, exists lo hi, c_lower_bound same b key = Ret lo /\ c_upper_bound same b key = Ret hi /\
       cleast rk (fun k => rk key <= rk k) (map fst (kents U)) lo /\ cleast rk (fun k => rk key < rk k) (map fst (kents U)) hi) /\
    (os = true ->
      (forall i, 1 <= i <= len (kents U) -> exists n e, c_select b i = Ret (Some n) /\ nth_error (kents U) (Z.to_nat (i - 1)) = Some e /\ cn_key n = Some (fst e) /\ ck_data (cn_inf n) = snd e /\ c_rank same b (fst e) = Ret (Some i)) /\
      (forall i, i < 1 \/ len (kents U) < i -> c_select b i = Raise ValueError)).
Proof.
  intros K D same val rk comp os k0 d0 ops s fs HS HR HC H. destruct (cavl_mix same val rk HS HR comp os k0 d0 ops s fs HC H) as (c & b & T & E1 & HB & G & AV).
  destruct (cgood_of rk c b T HB (o_at _ _ (mg_h _ _ _ G)) (o_num _ _ (mg_h _ _ _ G)) (mg_ord _ _ _ G) (mg_ne _ _ _ G)) as (U & CG & HU). exists c, U. split; [exact E1|]. split; [exact HU|]. split; [apply (twin_balanced val rk T); [exact (cg_twin rk _ _ _ CG)|apply (avl_spec _ _ AV)]|].
  split; [rewrite <- (cg_ents val rk _ _ _ CG); apply (mg_ents _ _ _ G)|]. split; [apply (cg_finds same val rk HS HR c T U CG)|]. split; [intros key; apply (cg_bounds same val rk HS HR c T U key CG)|].
  intros ->. destruct (cg_os same val rk HS HR c T U CG (avl_sized true T AV eq_refl)) as (O1 & O2 & _). auto.
Qed.
Print Assumptions C122_cpp_avl_history_partial.

(** CartesianTree and Treap: inserts of new keys with any priorities and deletes in any order; a delete spares the newest key and the last one, and leaves half of the keys ever inserted. The deletes
    report which keys were there; the nodes hold a tree with the entries the calls leave, in search order and in heap order *)
Theorem C123_cpp_cartesian_history_partial : forall (K D : Type) (same : K -> K -> bool) (val rk : K -> Z) (comp : K -> K -> Z) (os : bool) (ops : list (call K (K * Z * option D))) (s : mmap D) (fs : list bool),
  (forall x y, same x y = true <-> x = y) -> (forall x y, rk x = rk y -> x = y) -> order_of rk comp ->
  m_history absent_key keep_newest None (map (ranked_call rk (fun e => (fst (fst e), snd e))) ops) = Some (s, fs) ->
  exists b V e, (b <- cpp_bst_new None None comp os ;; calls (fun b e => c_cart_insert same val b (fst (fst e)) (snd (fst e)) (snd e)) (c_cart_delete same val) b ops) = Ret (b, fs) /\
    iheld (ct_mem b) (ct_root b) None V /\ cshows (inodes V) e /\ named_entries rk e = m_ents s /\ cfinds same b e /\
    (forall key, exists lo hi, c_lower_bound same b key = Ret lo /\ c_upper_bound same b key = Ret hi /\
       cleast rk (fun k => rk key <= rk k) (map fst e) lo /\ cleast rk (fun k => rk key < rk k) (map fst e) hi) /\
    iheap V.
Proof.
  intros K D same val rk comp os ops s fs HS HR HC H. destruct (ccart_mix same val rk HS HR comp os ops s fs HC H) as (c & b & T & E1 & HB & G & HH). destruct (cmix_post val rk HR c b T s HB G) as (U & V & CG & HV & TV & SH & EN).
  exists c, V, (kents U). split; [exact E1|]. split; [exact HV|]. split; [exact SH|]. split; [exact EN|]. split; [apply (cg_finds same val rk HS HR c T U CG)|]. split; [intros key; apply (cg_bounds same val rk HS HR c T U key CG)|].
  apply (itwin_heap rk T); [exact TV|]. apply (heap_spec T None HH).
Qed.
Print Assumptions C123_cpp_cartesian_history_partial.

(** RedBlackTree: inserts of new keys and deletes in any order; a delete spares the newest key and the key just after it, leaves two keys, and leaves half of the keys ever inserted. As above, and the
    root is black, no red node has a red child and all ways down meet the same number of black nodes *)
Theorem C124_cpp_red_black_history_partial : forall (K D : Type) (same : K -> K -> bool) (val rk : K -> Z) (comp : K -> K -> Z) (os : bool) (ops : list (call K (K * option D))) (s : mmap D) (fs : list bool),
  (forall x y, same x y = true <-> x = y) -> (forall x y, rk x = rk y -> x = y) -> order_of rk comp ->
  m_history absent_key spare_older None (map (ranked_call rk (fun e => e)) ops) = Some (s, fs) ->
  exists b V e n, (b <- cpp_bst_new None None comp os ;; calls (fun b e => c_rb_insert same val b (fst e) (snd e)) (c_rb_delete same val) b ops) = Ret (b, fs) /\
    iheld (ct_mem b) (ct_root b) None V /\ cshows (inodes V) e /\ named_entries rk e = m_ents s /\ cfinds same b e /\
    (forall key, exists lo hi, c_lower_bound same b key = Ret lo /\ c_upper_bound same b key = Ret hi /\
       cleast rk (fun k => rk key <= rk k) (map fst e) lo /\ cleast rk (fun k => rk key < rk k) (map fst e) hi) /\
    icolor 0 V /\ ino_red_red V /\ iblacks V n.
Proof.
  intros K D same val rk comp os ops s fs HS HR HC H. destruct (crb_mix same val rk HS HR comp os ops s fs HC H) as (c & b & T & E1 & HB & [G TT MK BK (n & R) FU]). destruct (cmix_post val rk HR c b T s HB G) as (U & V & CG & HV & TV & SH & EN).
  exists c, V, (kents U), n. split; [exact E1|]. split; [exact HV|]. split; [exact SH|]. split; [exact EN|]. split; [apply (cg_finds same val rk HS HR c T U CG)|]. split; [intros key; apply (cg_bounds same val rk HS HR c T U key CG)|]. destruct (rb_spec T n R) as [R2 R3].
  split; [apply (itwin_black rk T); assumption|]. split; [apply (itwin_nrr rk T); assumption|apply (itwin_blacks rk T); assumption].
Qed.
Print Assumptions C124_cpp_red_black_history_partial.

(** SplayTree: inserts of new keys (or again of the newest) and deletes in any order; a delete spares the newest key, the key just before it, the least and the greatest key, and leaves half of the keys ever
    inserted. As above; a further insert brings its key to the root *)
Theorem C125_cpp_splay_history_partial : forall (K D : Type) (same : K -> K -> bool) (val rk : K -> Z) (comp : K -> K -> Z) (os : bool) (ops : list (call K (K * option D))) (s : mmap D) (fs : list bool),
  (forall x y, same x y = true <-> x = y) -> (forall x y, rk x = rk y -> x = y) -> order_of rk comp ->
  m_history absent_or_newest spare_ends None (map (ranked_call rk (fun e => e)) ops) = Some (s, fs) ->
  exists b V e, (b <- cpp_bst_new None None comp os ;; calls (fun b e => c_splay_insert same val b (fst e) (snd e)) (c_splay_delete same val) b ops) = Ret (b, fs) /\
    iheld (ct_mem b) (ct_root b) None V /\ cshows (inodes V) e /\ named_entries rk e = m_ents s /\ cfinds same b e /\
    (forall key, exists lo hi, c_lower_bound same b key = Ret lo /\ c_upper_bound same b key = Ret hi /\
       cleast rk (fun k => rk key <= rk k) (map fst e) lo /\ cleast rk (fun k => rk key < rk k) (map fst e) hi) /\
    (forall k d, absent_or_newest s (rk k) = true -> exists b' n, c_splay_insert same val b k d = Ret b' /\ cget (ct_mem b') (ct_root b') = Ret n /\ cn_key n = Some k).
Proof.
  intros K D same val rk comp os ops s fs HS HR HC H. destruct (csplay_mix same val rk HS HR comp os ops s fs HC H) as (c & b & T & E1 & HB & G). destruct (cmix_post val rk HR c b T s HB G) as (U & V & CG & HV & TV & SH & EN).
  exists c, V, (kents U). split; [exact E1|]. split; [exact HV|]. split; [exact SH|]. split; [exact EN|]. split; [apply (cg_finds same val rk HS HR c T U CG)|]. split; [intros key; apply (cg_bounds same val rk HS HR c T U key CG)|].
  intros k d HM. destruct (p_insert b T s (rk k) d G HM) as (b1 & T1 & F1 & G1 & RK & _). destruct (sim_splay_insert same val rk HS HR c b k d HB (room_m _ _ _ G) _ F1) as (c1 & F2 & HB1). destruct (cmix_post val rk HR c1 b1 T1 _ HB1 G1) as (U1 & V1 & CG1 & HV1 & TV1 & _).
  assert (RV := itwin_root rk T1 V1 TV1). rewrite RK in RV. destruct V1 as [|l x r]; [discriminate|]. cbn [iheld] in HV1. destruct HV1 as (n & N1 & N2 & _). cbn [iroot] in RV. exists c1, n. split; [exact F2|]. split; [exact N1|]. unfold cn_key. rewrite N2. destruct (ck_key x) as [k1|]; [|discriminate]. cbn [option_map] in RV. injection RV as RV. apply HR in RV. congruence.
Qed.
Print Assumptions C125_cpp_splay_history_partial.

(** ** concrete histories *)
Definition put (k : Z) : call Z (Z * option Z) := Ins (k, Some (10 * k)).
Definition del (k : Z) : call Z (Z * option Z) := Del k.
Definition less (x y : Z) : Z := if x <? y then 1 else 0.
Definition shown_keys (r : res (ctree Z Z * list bool)) : res (list (option Z) * list bool) := ' (b, fs) <- r ;; v <- c_in_order (ct_mem b) (ct_root b) ;; Ret (map ck_key v, fs).
Definition avl_ops := [put 2; put 3; put 4; put 5; put 6; del 1; del 9; put 7; del 2; put 3; del 4; put 8; put 9; put 1; del 7].
Example C122_history_case : (exists s, m_run small_tree spare_newest (m_first 1 (Some 10)) (map (ranked_call (fun z => z) (fun e => e)) avl_ops) = Some (s, [true; false; true; true; true]) /\ map fst (m_ents s) = [1; 3; 5; 6; 8; 9]) /\
  shown_keys (b <- cpp_bst_new (Some 1) (Some 10) less true ;; calls (fun b e => c_avl_insert Z.eqb (fun z => z) b (fst e) (snd e)) (c_avl_delete Z.eqb (fun z => z)) b avl_ops) = Ret (map Some [1; 3; 5; 6; 8; 9], [true; true; true; true; true]).
Proof. split; [eexists; split; vm_compute; reflexivity|vm_compute; reflexivity]. Qed.
Definition rb_ops := [put 4; put 2; put 6; put 1; put 8; del 4; del 5; put 5; put 3; put 7; del 2; put 9; del 6; del 1; put 4].
Example C124_history_case : (exists s, m_history absent_key spare_older None (map (ranked_call (fun z => z) (fun e => e)) rb_ops) = Some (s, [true; false; true; true; true]) /\ map fst (m_ents s) = [3; 4; 5; 7; 8; 9]) /\
  shown_keys (b <- cpp_bst_new None None less true ;; calls (fun b e => c_rb_insert Z.eqb (fun z => z) b (fst e) (snd e)) (c_rb_delete Z.eqb (fun z => z)) b rb_ops) = Ret (map Some [3; 4; 5; 7; 8; 9], [true; false; true; true; true]).
Proof. split; [eexists; split; vm_compute; reflexivity|vm_compute; reflexivity]. Qed.
Definition splay_ops := [put 4; put 2; put 6; put 1; del 4; del 5; put 5; put 5; put 3; put 7; del 2; put 8; del 6].
Example C125_history_case : (exists s, m_history absent_or_newest spare_ends None (map (ranked_call (fun z => z) (fun e => e)) splay_ops) = Some (s, [true; false; true; true]) /\ map fst (m_ents s) = [1; 3; 5; 7; 8]) /\
  shown_keys (b <- cpp_bst_new None None less true ;; calls (fun b e => c_splay_insert Z.eqb (fun z => z) b (fst e) (snd e)) (c_splay_delete Z.eqb (fun z => z)) b splay_ops) = Ret (map Some [1; 3; 5; 7; 8], [true; false; true; true]).
Proof. split; [eexists; split; vm_compute; reflexivity|vm_compute; reflexivity]. Qed.
Definition cart_ops : list (call Z (Z * Z * option Z)) := [Ins (4, 4, Some 4); Ins (2, 6, Some 2); Ins (6, 1, Some 6); Ins (1, 3, None); Del 6; Del 5; Ins (5, 9, Some 5); Ins (3, 0, Some 3); Del 4; Ins (6, 2, Some 60)].
Example C123_history_case : (exists s, m_history absent_key keep_newest None (map (ranked_call (fun z => z) (fun e => (fst (fst e), snd e))) cart_ops) = Some (s, [true; false; true]) /\ map fst (m_ents s) = [1; 2; 3; 5; 6]) /\
  shown_keys (b <- cpp_bst_new None None less true ;; calls (fun b e => c_cart_insert Z.eqb (fun z => z) b (fst (fst e)) (snd (fst e)) (snd e)) (c_cart_delete Z.eqb (fun z => z)) b cart_ops) = Ret (map Some [1; 2; 3; 5; 6], [true; false; true]).
Proof. split; [eexists; split; vm_compute; reflexivity|vm_compute; reflexivity]. Qed.
