(** C138: printing the search trees of the C++ backend. The histories are those of C117 and C122-C125; [K] are the key objects, [rk] numbers them in the order of the comparator. *)
From Verif Require Import Base TreeModel TreeModel2 TreeSpec TreeProofs TreeBst TreeDel TreeHist TreeBalSpec TreeAvl TreeAvl2 TreeTreap TreeRb TreeHist2Spec TreeHist2 TreeHist3 TreeMixSpec TreeMix2 TreeMix5 TreeMix8 CppArrayModel CppTreeModel CppTreeModel2 CppTreeSim CppTreeSim2 CppTreeSpec CppTreeSpec2 CppTreeProofs CppTreeHist CppTreeHist2 CppMixSpec CppTreeMix CppTreeProps CppTreeProps4 CppPrintModel2 CppPrintSpec CppPrintProofs2.

(** C138. BinarySearchTree: following the printed left and right numbers from the root's row shows exactly the entries the calls leave, in key order *)
Theorem C138_cpp_bst_print_partial : forall (K D : Type) (same : K -> K -> bool) (val rk : K -> Z) (comp : K -> K -> Z) (os : bool) (k0 : K) (d0 : option D) (ops : list (cop K D)) (s : bmap D) (fs : list bool),
  (forall x y, same x y = true <-> x = y) -> (forall x y, rk x = rk y -> x = y) -> order_of rk comp ->
  bmap_run (bmap_first (rk k0) d0) (map (named rk) ops) = Some (s, fs) ->
  exists b tbl e, cpp_bst_history same val comp os k0 d0 ops = Ret (b, fs) /\ c_tree_printed b = Ret tbl /\ ctable_shows tbl (ct_root b) e /\ named_entries rk e = s_ents s.
Proof.
  intros K D same val rk comp os k0 d0 ops s fs HS HR HC H. destruct (cstart rk comp os k0 d0 HC) as (b0 & E0 & HB0).
  destruct (chist same val rk HS HR ops _ _ _ _ _ _ HB0 (hg_start os (rk k0) d0) H) as (b & b' & T & E1 & HB & G & O).
  destruct (choled_print rk b b' T HB (hg_h _ _ _ G) (hg_ord _ _ _ G)) as (tbl & e & P & S & E & _). exists b, tbl, e. split; [unfold cpp_bst_history; rewrite E0; exact E1|]. split; [exact P|]. split; [exact S|]. rewrite E. apply (hg_ents _ _ _ G).
Qed.
Print Assumptions C138_cpp_bst_print_partial.
Theorem C138_cpp_avl_print_partial : forall (K D : Type) (same : K -> K -> bool) (val rk : K -> Z) (comp : K -> K -> Z) (os : bool) (k0 : K) (d0 : option D) (ops : list (call K (K * option D))) (s : mmap D) (fs : list bool),
  (forall x y, same x y = true <-> x = y) -> (forall x y, rk x = rk y -> x = y) -> order_of rk comp ->
  m_run small_tree spare_newest (m_first (rk k0) d0) (map (ranked_call rk (fun e => e)) ops) = Some (s, fs) ->
  exists b tbl e, (b <- cpp_bst_new (Some k0) d0 comp os ;; calls (fun b e => c_avl_insert same val b (fst e) (snd e)) (c_avl_delete same val) b ops) = Ret (b, map (fun _ => true) fs) /\
    c_tree_printed b = Ret tbl /\ ctable_shows tbl (ct_root b) e /\ named_entries rk e = m_ents s.
Proof.
  intros K D same val rk comp os k0 d0 ops s fs HS HR HC H. destruct (cavl_mix same val rk HS HR comp os k0 d0 ops s fs HC H) as (c & b & T & E1 & HB & G & AV).
  destruct (choled_print rk c b T HB (mg_h _ _ _ G) (mg_ord _ _ _ G)) as (tbl & e & P & S & E & _). exists c, tbl, e. split; [exact E1|]. split; [exact P|]. split; [exact S|]. rewrite E. apply (mg_ents _ _ _ G).
Qed.
Print Assumptions C138_cpp_avl_print_partial.
Theorem C138_cpp_red_black_print_partial : forall (K D : Type) (same : K -> K -> bool) (val rk : K -> Z) (comp : K -> K -> Z) (os : bool) (ops : list (call K (K * option D))) (s : mmap D) (fs : list bool),
  (forall x y, same x y = true <-> x = y) -> (forall x y, rk x = rk y -> x = y) -> order_of rk comp ->
  m_history absent_key spare_older None (map (ranked_call rk (fun e => e)) ops) = Some (s, fs) ->
  exists b tbl e, (b <- cpp_bst_new None None comp os ;; calls (fun b e => c_rb_insert same val b (fst e) (snd e)) (c_rb_delete same val) b ops) = Ret (b, fs) /\
    c_tree_printed b = Ret tbl /\ ctable_shows tbl (ct_root b) e /\ named_entries rk e = m_ents s.
Proof.
  intros K D same val rk comp os ops s fs HS HR HC H. destruct (crb_mix same val rk HS HR comp os ops s fs HC H) as (c & b & T & E1 & HB & [G _ _ _ _ _]).
  destruct (choled_print rk c b T HB (mg_h _ _ _ G) (mg_ord _ _ _ G)) as (tbl & e & P & S & E & _). exists c, tbl, e. split; [exact E1|]. split; [exact P|]. split; [exact S|]. rewrite E. apply (mg_ents _ _ _ G).
Qed.
Print Assumptions C138_cpp_red_black_print_partial.
Theorem C138_cpp_splay_print_partial : forall (K D : Type) (same : K -> K -> bool) (val rk : K -> Z) (comp : K -> K -> Z) (os : bool) (ops : list (call K (K * option D))) (s : mmap D) (fs : list bool),
  (forall x y, same x y = true <-> x = y) -> (forall x y, rk x = rk y -> x = y) -> order_of rk comp ->
  m_history absent_or_newest spare_ends None (map (ranked_call rk (fun e => e)) ops) = Some (s, fs) ->
  exists b tbl e, (b <- cpp_bst_new None None comp os ;; calls (fun b e => c_splay_insert same val b (fst e) (snd e)) (c_splay_delete same val) b ops) = Ret (b, fs) /\
    c_tree_printed b = Ret tbl /\ ctable_shows tbl (ct_root b) e /\ named_entries rk e = m_ents s.
Proof.
  intros K D same val rk comp os ops s fs HS HR HC H. destruct (csplay_mix same val rk HS HR comp os ops s fs HC H) as (c & b & T & E1 & HB & G).
  destruct (choled_print rk c b T HB (mg_h _ _ _ G) (mg_ord _ _ _ G)) as (tbl & e & P & S & E & _). exists c, tbl, e. split; [exact E1|]. split; [exact P|]. split; [exact S|]. rewrite E. apply (mg_ents _ _ _ G).
Qed.
Print Assumptions C138_cpp_splay_print_partial.
(** CartesianTree and Treap: also the printed priorities are in heap order *)
Theorem C138_cpp_cartesian_print_partial : forall (K D : Type) (same : K -> K -> bool) (val rk : K -> Z) (comp : K -> K -> Z) (os : bool) (ops : list (call K (K * Z * option D))) (s : mmap D) (fs : list bool),
  (forall x y, same x y = true <-> x = y) -> (forall x y, rk x = rk y -> x = y) -> order_of rk comp ->
  m_history absent_key keep_newest None (map (ranked_call rk (fun e => (fst (fst e), snd e))) ops) = Some (s, fs) ->
  exists b tbl e, (b <- cpp_bst_new None None comp os ;; calls (fun b e => c_cart_insert same val b (fst (fst e)) (snd (fst e)) (snd e)) (c_cart_delete same val) b ops) = Ret (b, fs) /\
    c_tree_printed b = Ret tbl /\ ctable_shows tbl (ct_root b) e /\ named_entries rk e = m_ents s /\ ctable_heap tbl (ct_root b) None.
Proof.
  intros K D same val rk comp os ops s fs HS HR HC H. destruct (ccart_mix same val rk HS HR comp os ops s fs HC H) as (c & b & T & E1 & HB & G & HH).
  destruct (choled_print rk c b T HB (mg_h _ _ _ G) (mg_ord _ _ _ G)) as (tbl & e & P & S & E & HP). exists c, tbl, e. split; [exact E1|]. split; [exact P|]. split; [exact S|]. split; [rewrite E; apply (mg_ents _ _ _ G)|apply HP; exact HH].
Qed.
Print Assumptions C138_cpp_cartesian_print_partial.
(** the entries can be read off in one way only *)
Theorem C138_table_determined : forall (K P D : Type) (tbl : list (option (option Z * option K * P * option D * option Z))) r l, ctable_shows tbl r l -> forall l', ctable_shows tbl r l' -> l = l'.
Proof.
  intros K P D tbl r l H. induction H as [|i lf k p d rt L R Hi E H1 IH1 H2 IH2]; intros l' H'; inversion H' as [|j lf' k' p' d' rt' L' R' Hj E' H1' H2']; subst; [reflexivity|].
  rewrite E in E'. injection E' as <- <- <- <- <-. f_equal; [auto|]. f_equal. auto.
Qed.
Print Assumptions C138_table_determined.
(** C138 is false of the code after an insert that follows a compaction: the table points to a row that is not there (C117_insert_after_compaction_refuted) *)
Theorem C138_cpp_tree_print_refuted : exists b tbl, cpp_bst_history Z.eqb (fun z => z) zcomp false 50 (Some 50) (cputs [20; 80; 10; 30; 70; 90; 5; 15] ++ cdels [5; 15; 10; 30; 70; 90] ++ cputs [60]) = Ret (b, [true; true; true; true; true; true]) /\
  c_tree_printed b = Ret tbl /\ forall l, ~ ctable_shows tbl (ct_root b) l.
Proof.
  eexists. eexists. split; [vm_compute; reflexivity|]. split; [vm_compute; reflexivity|]. intros l H. cbn [ct_root] in H.
  repeat match goal with H : ctable_shows _ (Some _) _ |- _ => inversion H; clear H; subst; match goal with E : nth_error _ _ = _ |- _ => vm_compute in E; try discriminate E; injection E as <- <- <- <- <- end end.
Qed.
Print Assumptions C138_cpp_tree_print_refuted.
(** concrete histories: the freed rows are printed empty *)
Example C138_case : (b <- cpp_bst_history Z.eqb (fun z => z) zcomp true 50 (Some 0) cdemo ;; c_tree_printed (fst b)) =
  Ret [Some (Some 3, Some 55, None, Some 6, Some 2); None; Some (Some 8, Some 60, None, Some 2, Some 5); Some (None, Some 10, None, Some 3, Some 9); None; Some (None, Some 70, None, Some 9, Some 7); None; Some (None, Some 99, None, None, None); Some (None, Some 57, None, Some 7, None); Some (None, Some 20, None, Some 8, None)].
Proof. vm_compute. reflexivity. Qed.
Example C138_cartesian_case : exists tbl, (b <- (b <- cpp_bst_new None None less true ;; calls (fun b e => c_cart_insert Z.eqb (fun z => z) b (fst (fst e)) (snd (fst e)) (snd e)) (c_cart_delete Z.eqb (fun z => z)) b cart_ops) ;; c_tree_printed (fst b)) = Ret tbl /\
  map (option_map (fun r => let '(_, k, p, _, _) := r in (k, p))) tbl = [None; Some (Some 2, Some 6); None; Some (Some 1, Some 3); Some (Some 5, Some 9); Some (Some 3, Some 0); Some (Some 6, Some 2)].
Proof. eexists. split; vm_compute; reflexivity. Qed.
