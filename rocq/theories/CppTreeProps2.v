(** The C++ backend of CartesianTree, Treap, RedBlackTree and SplayTree: C123-C125. The statements use CppTreeSpec.v and CppTreeSpec2.v (trees of nodes, histories), the sorted list of entries
    [sorted_map] and the list of deletes [deleted] of TreeSpec.v.

    [K] are the key objects, [same] their identity, [rk] numbers them in the order of the comparator, [val] is the integer an object stands for. Within these theorems a key is one object. *)
From Verif Require Import Base TreeModel TreeSpec TreeProofs TreeSplaySpec CppArrayModel CppTreeModel CppTreeModel2 CppTreeSpec CppTreeSpec2 CppTreeProofs CppTreeHist CppTreeHist2.

(** C123: CartesianTree (and Treap, whose priorities come from rand()): inserts of any keys and then deletes of up to half of them. The deletes report which keys were there; the nodes hold a binary tree with the
    entries that should be there, in order; search and the bounds agree with them. If no key was inserted twice the priorities are in heap order *)
Theorem C123_cpp_cartesian_partial : forall (K D : Type) (same : K -> K -> bool) (val rk : K -> Z) (comp : K -> K -> Z) (os : bool) (h : list (K * Z * option D)) (ks : list K) (l : list (Z * option D)),
  (forall x y, same x y = true <-> x = y) -> (forall x y, rk x = rk y -> x = y) -> order_of rk comp ->
  sorted_map l (map (fun e => (rk (fst (fst e)), snd e)) h) -> h <> [] -> 2 * len ks <= len l ->
  exists b V e, from_empty (fun b e => c_cart_insert same val b (fst (fst e)) (snd (fst e)) (snd e)) (c_cart_delete same val) comp os h ks = Ret (b, snd (deleted l (map rk ks))) /\
    iheld (ct_mem b) (ct_root b) None V /\ cshows (inodes V) e /\ named_entries rk e = fst (deleted l (map rk ks)) /\ cfinds same b e /\
    (forall key, exists lo hi, c_lower_bound same b key = Ret lo /\ c_upper_bound same b key = Ret hi /\
       cleast rk (fun k => rk key <= rk k) (map fst e) lo /\ cleast rk (fun k => rk key < rk k) (map fst e) hi) /\
    (NoDup (map (fun e => fst (fst e)) h) -> iheap V).
Proof.
  intros K D same val rk comp os h ks l HS HR HC SM NE HK. destruct (cpp_cart_ok same val rk HS HR comp os h ks l HC) as (b & T & U & V & E1 & G & HV & SH & EN & HH); try assumption; [unfold named_entries; rewrite map_map; exact SM|].
  exists b, V, (kents U). split; [exact E1|]. split; [exact HV|]. split; [exact SH|]. split; [exact EN|]. split; [apply (cg_finds same val rk HS HR b T U G)|]. split; [intros key; apply (cg_bounds same val rk HS HR b T U key G)|exact HH].
Qed.
Print Assumptions C123_cpp_cartesian_partial.

(** C124: RedBlackTree. Inserts of different keys, then deletes of up to half of them: as above, and the root is black, no red node has a red child and all ways down meet the same number of black nodes *)
Theorem C124_cpp_red_black_partial : forall (K D : Type) (same : K -> K -> bool) (val rk : K -> Z) (comp : K -> K -> Z) (os : bool) (h : list (K * option D)) (ks : list K) (l : list (Z * option D)),
  (forall x y, same x y = true <-> x = y) -> (forall x y, rk x = rk y -> x = y) -> order_of rk comp ->
  sorted_map l (named_entries rk h) -> NoDup (map fst h) -> 0 < len l -> 2 * len ks <= len l ->
  exists b V e n, from_empty (fun b e => c_rb_insert same val b (fst e) (snd e)) (c_rb_delete same val) comp os h ks = Ret (b, snd (deleted l (map rk ks))) /\
    iheld (ct_mem b) (ct_root b) None V /\ cshows (inodes V) e /\ named_entries rk e = fst (deleted l (map rk ks)) /\ cfinds same b e /\
    (forall key, exists lo hi, c_lower_bound same b key = Ret lo /\ c_upper_bound same b key = Ret hi /\
       cleast rk (fun k => rk key <= rk k) (map fst e) lo /\ cleast rk (fun k => rk key < rk k) (map fst e) hi) /\
    icolor 0 V /\ ino_red_red V /\ iblacks V n.
Proof.
  intros K D same val rk comp os h ks l HS HR HC SM ND HP HK. destruct (cpp_rb_ok same val rk HS HR comp os h ks l HC SM ND HK HP) as (b & T & U & V & n & E1 & G & HV & SH & EN & B1 & B2 & B3).
  exists b, V, (kents U), n. split; [exact E1|]. split; [exact HV|]. split; [exact SH|]. split; [exact EN|]. split; [apply (cg_finds same val rk HS HR b T U G)|]. split; [intros key; apply (cg_bounds same val rk HS HR b T U key G)|auto].
Qed.
Print Assumptions C124_cpp_red_black_partial.
(** any history of inserts, keys inserted again included: the entries are those of the history (but see C124_reinsert_refuted) *)
Theorem C124_cpp_red_black_entries_partial : forall (K D : Type) (same : K -> K -> bool) (val rk : K -> Z) (comp : K -> K -> Z) (os : bool) (h : list (K * option D)) (l : list (Z * option D)),
  (forall x y, same x y = true <-> x = y) -> (forall x y, rk x = rk y -> x = y) -> order_of rk comp -> sorted_map l (named_entries rk h) -> h <> [] ->
  exists b V e, from_empty (fun b e => c_rb_insert same val b (fst e) (snd e)) (c_rb_delete same val) comp os h [] = Ret (b, []) /\
    iheld (ct_mem b) (ct_root b) None V /\ cshows (inodes V) e /\ named_entries rk e = l /\ cfinds same b e /\ icolor 0 V.
Proof.
  intros K D same val rk comp os h l HS HR HC SM NE. destruct (cpp_rb_w same val rk HS HR comp os h l HC SM NE) as (b & T & U & V & E1 & G & HV & SH & EN & B1).
  exists b, V, (kents U). split; [exact E1|]. split; [exact HV|]. split; [exact SH|]. split; [exact EN|]. split; [apply (cg_finds same val rk HS HR b T U G)|exact B1].
Qed.
Print Assumptions C124_cpp_red_black_entries_partial.

(** C125: SplayTree. Inserts of different keys, then deletes of up to half of them, each of an absent key, of a key that is neither the least nor the greatest, or of one of two keys ([safe_all]): as above.
    After the inserts the last key inserted is at the root *)
Theorem C125_cpp_splay_partial : forall (K D : Type) (same : K -> K -> bool) (val rk : K -> Z) (comp : K -> K -> Z) (os : bool) (h : list (K * option D)) (ks : list K) (l : list (Z * option D)),
  (forall x y, same x y = true <-> x = y) -> (forall x y, rk x = rk y -> x = y) -> order_of rk comp ->
  sorted_map l (named_entries rk h) -> NoDup (map fst h) -> h <> [] -> 2 * len ks <= len l -> safe_all l (map rk ks) ->
  exists b V e, from_empty (fun b e => c_splay_insert same val b (fst e) (snd e)) (c_splay_delete same val) comp os h ks = Ret (b, snd (deleted l (map rk ks))) /\
    iheld (ct_mem b) (ct_root b) None V /\ cshows (inodes V) e /\ named_entries rk e = fst (deleted l (map rk ks)) /\ cfinds same b e /\
    (forall key, exists lo hi, c_lower_bound same b key = Ret lo /\ c_upper_bound same b key = Ret hi /\
       cleast rk (fun k => rk key <= rk k) (map fst e) lo /\ cleast rk (fun k => rk key < rk k) (map fst e) hi) /\
    (ks = [] -> forall h' k d, h = h' ++ [(k, d)] -> iroot V = Some k).
Proof.
  intros K D same val rk comp os h ks l HS HR HC SM ND NE HK HA. destruct (cpp_splay_ok same val rk HS HR comp os h ks l HC SM ND NE HK HA) as (b & T & U & V & E1 & G & HV & SH & EN & RT).
  exists b, V, (kents U). split; [exact E1|]. split; [exact HV|]. split; [exact SH|]. split; [exact EN|]. split; [apply (cg_finds same val rk HS HR b T U G)|]. split; [intros key; apply (cg_bounds same val rk HS HR b T U key G)|].
  intros E0 h' k d ->. rewrite (RT E0), map_app. cbn [map]. rewrite last_last. reflexivity.
Qed.
Print Assumptions C125_cpp_splay_partial.

(** ** concrete histories *)
Definition ikeys (l : list Z) : list (Z * option Z) := map (fun k => (k, Some (10 * k))) l.
Definition lessthan (x y : Z) : Z := if x <? y then 1 else 0.
Definition rb_run (h : list (Z * option Z)) (ks : list Z) := from_empty (fun b e => c_rb_insert Z.eqb (fun z => z) b (fst e) (snd e)) (c_rb_delete Z.eqb (fun z => z)) lessthan false h ks.
Definition splay_run (h : list (Z * option Z)) (ks : list Z) := from_empty (fun b e => c_splay_insert Z.eqb (fun z => z) b (fst e) (snd e)) (c_splay_delete Z.eqb (fun z => z)) lessthan false h ks.
Definition cart_run (h : list (Z * Z * option Z)) (ks : list Z) := from_empty (fun b e => c_cart_insert Z.eqb (fun z => z) b (fst (fst e)) (snd (fst e)) (snd e)) (c_cart_delete Z.eqb (fun z => z)) lessthan false h ks.
Definition reads (r : res (ctree Z Z * list bool)) : res (list (option Z) * list bool) := ' (b, fs) <- r ;; v <- c_in_order (ct_mem b) (ct_root b) ;; Ret (map ck_key v, fs).
Lemma sorted_map_ikeys : sorted_map (ikeys [1; 2; 3; 4; 5; 6; 7; 8; 9; 10]) (named_entries (fun z : Z => z) (ikeys [1; 2; 3; 4; 5; 6; 10; 9; 8; 7])).
Proof.
  split; [repeat constructor|]. intros k d. cbn. split.
  - intros H. repeat (destruct H as [H|H]; [injection H as <- <-; reflexivity|]). destruct H.
  - intros H. repeat match type of H with context [?x =? ?y] => destruct (Z.eqb_spec x y); [subst; injection H as <-; tauto|] end. discriminate.
Qed.
Example C124_case : sorted_map (ikeys [1; 2; 3; 4; 5; 6; 7; 8; 9; 10]) (named_entries (fun z : Z => z) (ikeys [1; 2; 3; 4; 5; 6; 10; 9; 8; 7])) /\ NoDup (map fst (ikeys [1; 2; 3; 4; 5; 6; 10; 9; 8; 7])) /\ order_of (fun z => z) lessthan /\
  reads (rb_run (ikeys [1; 2; 3; 4; 5; 6; 10; 9; 8; 7]) [4; 99; 2; 10; 7]) = Ret (map Some [1; 3; 5; 6; 8; 9], [true; false; true; true; true]).
Proof. split; [exact sorted_map_ikeys|]. split; [cbn; repeat constructor; cbn; intuition lia|]. split; [intros x y; reflexivity|]. vm_compute. reflexivity. Qed.
Example C125_case : safe_all (ikeys [1; 2; 3; 4; 5; 6; 7; 8; 9; 10]) [4; 99; 2; 9; 7] /\ reads (splay_run (ikeys [1; 2; 3; 4; 5; 6; 10; 9; 8; 7]) [4; 99; 2; 9; 7]) = Ret (map Some [1; 3; 5; 6; 8; 10], [true; false; true; true; true]).
Proof.
  split; [|vm_compute; reflexivity]. cbn [safe_all ikeys map filter fst negb Z.eqb Pos.eqb]. unfold safe. cbn [map fst In].
  repeat split; first [left; cbn; lia | right; left; split; [exists 1; cbn; lia|exists 10; cbn; lia]].
Qed.
Example C123_case : exists b V, cart_run [(5, 3, Some 5); (2, 1, Some 2); (8, 2, Some 8); (1, 7, Some 1)] [2] = Ret (b, [true]) /\ iheld (ct_mem b) (ct_root b) None V /\ iheap V /\ map ck_key (inodes V) = map Some [1; 5; 8] /\ map ck_prio (inodes V) = map Some [7; 3; 2].
Proof.
  eexists. exists (IN (IN (IN IE (mkci (Some 1) (Some 1) 0 1 false (Some 7) None) IE) (mkci (Some 5) (Some 5) 0 1 true (Some 3) None) IE) (mkci (Some 8) (Some 8) 0 1 false (Some 2) None) IE). split; [vm_compute; reflexivity|]. split; [repeat (eexists; repeat apply conj; try reflexivity)|]. split; [|split; reflexivity].
  cbn. repeat split; repeat (eexists; repeat split; cbn); try lia; auto.
Qed.

(** ** Where the code fails *)
(** inserting a key again gives its node a new priority but moves nothing if it is the root, and paints a node red *)
Theorem C123_reinsert_refuted : exists b V, cart_run [(1, 1, Some 1); (2, 5, Some 2); (1, 9, Some 3)] [] = Ret (b, []) /\ iheld (ct_mem b) (ct_root b) None V /\ ~ iheap V.
Proof.
  eexists. exists (IN IE (mkci (Some 1) (Some 3) 0 1 true (Some 9) None) (IN IE (mkci (Some 2) (Some 2) 0 1 false (Some 5) None) IE)). split; [vm_compute; reflexivity|]. split; [repeat (eexists; repeat apply conj; try reflexivity)|].
  intros ((p & Ep & _ & q & Eq & Hq) & _). cbn in Ep, Eq. injection Ep as <-. injection Eq as <-. lia.
Qed.
Print Assumptions C123_reinsert_refuted.
(** a key given to the constructor has priority 0, where the Python backend raises AttributeError at the next insert *)
Theorem C123_constructed_differs : exists b n, (b <- cpp_bst_new (Some 1) (Some 1) lessthan false ;; c_cart_insert Z.eqb (fun z => z) b 2 (-5) (Some 2)) = Ret b /\ cget (ct_mem b) (ct_root b) = Ret n /\ cn_key n = Some 2 /\ cn_left n = Some 0.
Proof. do 2 eexists. split; [vm_compute; reflexivity|]. repeat apply conj; vm_compute; reflexivity. Qed.
Print Assumptions C123_constructed_differs.
Theorem C123_insert_after_delete_refuted : exists b, cart_run [(1, 1, Some 1); (2, 2, Some 2); (3, 3, Some 3)] [3] = Ret (b, [true]) /\ c_cart_insert Z.eqb (fun z => z) b 4 4 (Some 4) = undefined.
Proof. eexists. split; vm_compute; reflexivity. Qed.
Print Assumptions C123_insert_after_delete_refuted.
Theorem C123_emptied_refuted : exists b x, cart_run [(1, 1, Some 1)] [1] = Ret (b, [true]) /\ c_in_order (ct_mem b) (ct_root b) = Ret [x] /\ ck_key x = None.
Proof. do 2 eexists. split; [vm_compute; reflexivity|]. split; vm_compute; reflexivity. Qed.
Print Assumptions C123_emptied_refuted.
Theorem C124_reinsert_refuted : exists b V, rb_run (ikeys [1; 2; 3; 4; 5; 6; 7; 1]) [] = Ret (b, []) /\ iheld (ct_mem b) (ct_root b) None V /\ forall n, ~ iblacks V n.
Proof.
  eexists. exists (let r k l r := IN l (mkci (Some k) (Some (10 * k)) 0 1 false None (Some 1)) r in let c k l r := IN l (mkci (Some k) (Some (10 * k)) 0 1 false None (Some 0)) r in
    IN (r 1 IE IE) (mkci (Some 2) (Some 20) 0 1 true None (Some 0)) (r 4 (c 3 IE IE) (c 6 (r 5 IE IE) (r 7 IE IE)))).
  split; [vm_compute; reflexivity|]. split; [repeat (eexists; repeat apply conj; try reflexivity)|]. intros n. cbn. lia.
Qed.
Print Assumptions C124_reinsert_refuted.
(** the first insert into a tree constructed with a key follows a missing parent *)
Theorem C124_constructed_refuted : (b <- cpp_bst_new (Some 1) (Some 1) lessthan false ;; c_rb_insert Z.eqb (fun z => z) b 2 (Some 2)) = undefined.
Proof. vm_compute. reflexivity. Qed.
Print Assumptions C124_constructed_refuted.
Theorem C124_insert_after_delete_refuted : exists b, rb_run (ikeys [1; 2; 3]) [3] = Ret (b, [true]) /\ c_rb_insert Z.eqb (fun z => z) b 4 (Some 4) = undefined.
Proof. eexists. split; vm_compute; reflexivity. Qed.
Print Assumptions C124_insert_after_delete_refuted.
(** the array is compacted but the tree goes on with the old indices *)
Theorem C124_compaction_refuted : rb_run (ikeys [1; 2; 3; 4; 5; 6; 7; 8; 9]) [1; 2; 3; 4; 5; 8] = undefined.
Proof. vm_compute. reflexivity. Qed.
Print Assumptions C124_compaction_refuted.
Theorem C125_reinsert_refuted : splay_run (ikeys [1; 2; 1]) [] = undefined.
Proof. vm_compute. reflexivity. Qed.
Print Assumptions C125_reinsert_refuted.
Theorem C125_delete_ends_refuted : reads (splay_run (ikeys [1; 2; 3; 4]) [4]) = Ret (map Some [1; 2; 3], [true]) /\ splay_run (ikeys [1; 2; 3; 4]) [4; 1] = undefined.
Proof. split; vm_compute; reflexivity. Qed.
Print Assumptions C125_delete_ends_refuted.
Theorem C125_insert_after_delete_refuted : exists b, splay_run (ikeys [1; 2; 3]) [2] = Ret (b, [true]) /\ c_splay_insert Z.eqb (fun z => z) b 4 (Some 4) = undefined.
Proof. eexists. split; vm_compute; reflexivity. Qed.
Print Assumptions C125_insert_after_delete_refuted.
