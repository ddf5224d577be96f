(** The C++ backend of CartesianTree, Treap and SplayTree, deletes that compact the array included (C123, C125). Statements as in CppTreeProps2.v, without its bound on the number of deletes.
    [val] is the integer a key object stands for: the dictionary of new indices made by a compaction is looked up with it. *)
From Verif Require Import Base TreeModel TreeSpec TreeProofs TreeSplaySpec CppArrayModel CppTreeModel CppTreeModel2 CppTreeSpec CppTreeSpec2 CppTreeProofs CppTreeHist CppTreeHist2 CppTreeProps2.
From Verif Require Import CppTreeCompact CppTreeCompact2.

(** C123: CartesianTree (and Treap): inserts of any keys and then any deletes that leave at least one key. The deletes report which keys were there; the nodes hold a binary tree with the entries that should be
    there, in order; search and the bounds agree with them. If no key was inserted twice the priorities are in heap order. Missing: inserts after a delete and deleting the last key, see the _refuted theorems *)
Theorem C123_cpp_cartesian_compacting_partial : forall (K D : Type) (same : K -> K -> bool) (val rk : K -> Z) (comp : K -> K -> Z) (os : bool) (h : list (K * Z * option D)) (ks : list K) (l : list (Z * option D)),
  (forall x y, same x y = true <-> x = y) -> (forall x y, rk x = rk y -> x = y) -> (forall x y, val x = val y -> x = y) -> order_of rk comp ->
  sorted_map l (map (fun e => (rk (fst (fst e)), snd e)) h) -> h <> [] -> fst (deleted l (map rk ks)) <> [] ->
  exists b V e, from_empty (fun b e => c_cart_insert same val b (fst (fst e)) (snd (fst e)) (snd e)) (c_cart_delete same val) comp os h ks = Ret (b, snd (deleted l (map rk ks))) /\
    iheld (ct_mem b) (ct_root b) None V /\ cshows (inodes V) e /\ named_entries rk e = fst (deleted l (map rk ks)) /\ cfinds same b e /\
    (forall key, exists lo hi, c_lower_bound same b key = Ret lo /\ c_upper_bound same b key = Ret hi /\
       cleast rk (fun k => rk key <= rk k) (map fst e) lo /\ cleast rk (fun k => rk key < rk k) (map fst e) hi) /\
    (NoDup (map (fun e => fst (fst e)) h) -> iheap V).
Proof.
  intros K D same val rk comp os h ks l HS HR HV0 HC SM NE HK. destruct (cpp_cart_compact same val rk HS HR HV0 comp os h ks l HC) as (b & T & U & V & E1 & G & HV & SH & EN & HH); try assumption; [unfold named_entries; rewrite map_map; exact SM|].
  exists b, V, (kents U). split; [exact E1|]. split; [exact HV|]. split; [exact SH|]. split; [exact EN|]. split; [apply (cg_finds same val rk HS HR (renewed b) T U G)|]. split; [intros key; destruct (bounds_renewed same b key) as [<- <-]; apply (cg_bounds same val rk HS HR (renewed b) T U key G)|exact HH].
Qed.
Print Assumptions C123_cpp_cartesian_compacting_partial.

(** C125: SplayTree. Inserts of different keys, then any deletes, each of an absent key, of a key that is neither the least nor the greatest, or of one of two keys ([safe_all]) *)
Theorem C125_cpp_splay_compacting_partial : forall (K D : Type) (same : K -> K -> bool) (val rk : K -> Z) (comp : K -> K -> Z) (os : bool) (h : list (K * option D)) (ks : list K) (l : list (Z * option D)),
  (forall x y, same x y = true <-> x = y) -> (forall x y, rk x = rk y -> x = y) -> (forall x y, val x = val y -> x = y) -> order_of rk comp ->
  sorted_map l (named_entries rk h) -> NoDup (map fst h) -> h <> [] -> safe_all l (map rk ks) ->
  exists b V e, from_empty (fun b e => c_splay_insert same val b (fst e) (snd e)) (c_splay_delete same val) comp os h ks = Ret (b, snd (deleted l (map rk ks))) /\
    iheld (ct_mem b) (ct_root b) None V /\ cshows (inodes V) e /\ named_entries rk e = fst (deleted l (map rk ks)) /\ cfinds same b e /\
    (forall key, exists lo hi, c_lower_bound same b key = Ret lo /\ c_upper_bound same b key = Ret hi /\
       cleast rk (fun k => rk key <= rk k) (map fst e) lo /\ cleast rk (fun k => rk key < rk k) (map fst e) hi).
Proof.
  intros K D same val rk comp os h ks l HS HR HV0 HC SM ND NE HA. destruct (cpp_splay_compact same val rk HS HR HV0 comp os h ks l HC SM ND NE HA) as (b & T & U & V & E1 & G & HV & SH & EN).
  exists b, V, (kents U). split; [exact E1|]. split; [exact HV|]. split; [exact SH|]. split; [exact EN|]. split; [apply (cg_finds same val rk HS HR (renewed b) T U G)|]. intros key. destruct (bounds_renewed same b key) as [<- <-]. apply (cg_bounds same val rk HS HR (renewed b) T U key G).
Qed.
Print Assumptions C125_cpp_splay_compacting_partial.

(** ** concrete histories: ten keys, then deletes of all but two; the array gets shorter than it was and the root gets another index *)
Definition ten : list (Z * option Z) := ikeys [1; 2; 3; 4; 5; 6; 10; 9; 8; 7].
Definition array_len (r : res (ctree Z Z * list bool)) : res (Z * option Z) := ' (b, fs) <- r ;; Ret (len (ct_mem b), ct_root b).
Example C125_compacting_case : safe_all (ikeys [1; 2; 3; 4; 5; 6; 7; 8; 9; 10]) [4; 99; 2; 9; 7; 3; 5; 8; 6] /\
  reads (splay_run ten [4; 99; 2; 9; 7; 3; 5; 8; 6]) = Ret (map Some [1; 10], [true; false; true; true; true; true; true; true; true]) /\
  array_len (splay_run ten []) = Ret (15, Some 9) /\ array_len (splay_run ten [4; 99; 2; 9; 7; 3; 5]) = Ret (15, Some 1) /\ array_len (splay_run ten [4; 99; 2; 9; 7; 3; 5; 8; 6]) = Ret (7, Some 1).
Proof.
  split; [|repeat apply conj; vm_compute; reflexivity]. cbn [safe_all ikeys map filter fst negb Z.eqb Pos.eqb]. unfold safe. cbn [map fst In].
  repeat split; first [left; cbn; lia | right; left; split; [exists 1; cbn; lia|exists 10; cbn; lia]].
Qed.
Definition prios : list (Z * Z * option Z) := map (fun k => (k, (7 * k) mod 11, Some (10 * k))) [1; 2; 3; 4; 5; 6; 10; 9; 8; 7].
Example C123_compacting_case : fst (deleted (ikeys [1; 2; 3; 4; 5; 6; 7; 8; 9; 10]) [4; 99; 1; 9; 7; 3; 5; 8; 6]) = ikeys [2; 10] /\
  reads (cart_run prios [4; 99; 1; 9; 7; 3; 5; 8; 6]) = Ret (map Some [2; 10], [true; false; true; true; true; true; true; true; true]) /\
  array_len (cart_run prios []) = Ret (15, Some 8) /\ array_len (cart_run prios [4; 99; 1; 9; 7; 3; 5; 8; 6]) = Ret (7, Some 0).
Proof. repeat apply conj; vm_compute; reflexivity. Qed.
