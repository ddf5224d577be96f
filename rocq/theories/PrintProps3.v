(** Property C135: printing the binary search trees. The histories are those of the mixed-history theorems (C58, C93, C94, C96, C98). *)
From Coq Require Import Sorting.Sorted.
From Verif Require Import Base TreeModel TreeModel2 TreeSpec TreeProofs TreeRotate TreeBst TreeTrav TreeQuery TreeLca TreeDel TreeHist TreeBalSpec TreeAvl TreeAvl2 TreeReins TreeMulti TreeDel2 TreeHist2Spec TreeHist2 TreeHist3 TreeProps TreeProps3 TreeProps6 TreeMixSpec TreeMix TreeMix2 TreeMix3 TreeTreap TreeSplay TreeMix4 TreeMix5 TreeRb TreeMix8 TreeProps7 PrintModel2 PrintSpec2 PrintProofs7.

(** a printed row of a BinaryTree is (left, key, data, right); of a CartesianTree (left, key, priority, data, right) *)
Definition cart_read {D} (r : option Z * option Z * option Z * option D * option Z) : option Z * option Z * option D * option Z :=
  let '(l, k, _, d, rt) := r in (l, k, d, rt).

(** C135 is false of the code after an insert that follows the delete of the newest key: the printed row of 2 points to a row that is not there *)
Theorem C135_tree_print_refuted : exists b b' b'' tbl, build None None false (nums [1; 2; 3]) = Ret b /\ delete b 3 = Ret (b', true) /\ insert b' 4 (Some 4) = Ret b'' /\
  bt_printed bt_row b'' = Ret tbl /\ forall l, ~ table_shows (fun r => r) tbl (b_root b'') l.
Proof.
  eexists. eexists. eexists. eexists. split; [vm_compute; reflexivity|]. split; [vm_compute; reflexivity|]. split; [vm_compute; reflexivity|]. split; [vm_compute; reflexivity|].
  intros l H. cbn [b_root] in H. inversion H as [|i x lf k d r L R Hi E1 E2 H1 H2]; subst. vm_compute in E1. injection E1 as <- <- <- <-. clear H H1 Hi.
  inversion H2 as [|i x lf k d r L2 R2 Hi2 E3 E4 H3 H4]; subst. vm_compute in E3. injection E3 as <- <- <- <-. clear H2 H3 Hi2. inversion H4 as [|i x lf k d r L3 R3 Hi3 E5 E6 H5 H6]; subst. vm_compute in E5. discriminate.
Qed.
Print Assumptions C135_tree_print_refuted.

(** in the histories of C58 following the printed numbers from the root shows exactly the entries, in the order of their keys *)
Theorem C135_bst_print_partial : forall (D : Type) (os : bool) (k0 : Z) (d0 : option D) (ops : list (bop D)) (s : bmap D) (fs : list bool), bmap_run (bmap_first k0 d0) ops = Some (s, fs) ->
  exists b tbl, start_history os k0 d0 ops = Ret (b, fs) /\ bt_printed bt_row b = Ret tbl /\ table_shows (fun r => r) tbl (b_root b) (s_ents s).
Proof.
  intros D os k0 d0 ops s fs H. destruct (history_ok os k0 d0 ops s fs H) as (b & T & E1 & G & _). destruct (holed_print bt_row (fun r => r) ltac:(reflexivity) b T (hg_h _ _ _ G) (hg_ord _ _ _ G)) as (tbl & E2 & S). rewrite (hg_ents _ _ _ G) in S. exists b, tbl. auto.
Qed.
Print Assumptions C135_bst_print_partial.
Theorem C135_avl_print_partial : forall (D : Type) (start : option (Z * D)) (os : bool) (ops : list (bop D)) (s : mmap D) (fs : list bool), m_history always spare_newest start ops = Some (s, fs) ->
  exists b tbl, history_with avl_insert avl_delete start os ops = Ret (b, map (fun _ => true) fs) /\ bt_printed bt_row b = Ret tbl /\ table_shows (fun r => r) tbl (b_root b) (m_ents s).
Proof.
  intros D start os ops s fs H. destruct (a_history start os ops s fs H) as (b & T & E1 & G & _). destruct (holed_print bt_row (fun r => r) ltac:(reflexivity) b T (mg_h _ _ _ G) (mg_ord _ _ _ G)) as (tbl & E2 & S). rewrite (mg_ents _ _ _ G) in S. exists b, tbl. auto.
Qed.
Print Assumptions C135_avl_print_partial.
Theorem C135_splay_print_partial : forall (D : Type) (start : option (Z * D)) (os : bool) (ops : list (bop D)) (s : mmap D) (fs : list bool), m_history absent_or_newest spare_ends start ops = Some (s, fs) ->
  exists b tbl, history_with splay_insert splay_delete start os ops = Ret (b, fs) /\ bt_printed bt_row b = Ret tbl /\ table_shows (fun r => r) tbl (b_root b) (m_ents s).
Proof.
  intros D start os ops s fs H. destruct (p_history start os ops s fs H) as (b & T & E1 & G & _). destruct (holed_print bt_row (fun r => r) ltac:(reflexivity) b T (mg_h _ _ _ G) (mg_ord _ _ _ G)) as (tbl & E2 & S). rewrite (mg_ents _ _ _ G) in S. exists b, tbl. auto.
Qed.
Print Assumptions C135_splay_print_partial.
Theorem C135_red_black_print_partial : forall (D : Type) (os : bool) (ops : list (bop D)) (s : mmap D) (fs : list bool), m_history absent_key spare_older None ops = Some (s, fs) ->
  exists b tbl, history_with rb_insert rb_delete None os ops = Ret (b, fs) /\ bt_printed bt_row b = Ret tbl /\ table_shows (fun r => r) tbl (b_root b) (m_ents s).
Proof.
  intros D os ops s fs H. destruct (r_history os ops s fs H) as (b & T & E1 & G & _). apply q_m in G. destruct (holed_print bt_row (fun r => r) ltac:(reflexivity) b T (mg_h _ _ _ G) (mg_ord _ _ _ G)) as (tbl & E2 & S). rewrite (mg_ents _ _ _ G) in S. exists b, tbl. auto.
Qed.
Print Assumptions C135_red_black_print_partial.
Theorem C135_cartesian_print_partial : forall (D : Type) (os : bool) (ops : list (pop D)) (s : mmap D) (fs : list bool), m_history absent_key keep_newest None (map no_prio ops) = Some (s, fs) ->
  exists b tbl, (b0 <- bst_new None None None os ;; perform_prio b0 ops) = Ret (b, fs) /\ bt_printed cart_row b = Ret tbl /\ table_shows cart_read tbl (b_root b) (m_ents s).
Proof.
  intros D os ops s fs H. destruct (c_history os ops s fs H) as (b & T & E1 & G & _). destruct (holed_print cart_row cart_read ltac:(reflexivity) b T (mg_h _ _ _ G) (mg_ord _ _ _ G)) as (tbl & E2 & S). rewrite (mg_ents _ _ _ G) in S. exists b, tbl. auto.
Qed.
Print Assumptions C135_cartesian_print_partial.
(** the entries can be read off in one way only *)
Theorem C135_table_determined : forall (R D : Type) (row : R -> option Z * option Z * option D * option Z) tbl r l, table_shows row tbl r l -> forall l', table_shows row tbl r l' -> l = l'.
Proof.
  intros R D row tbl r l H. induction H as [|i x lf k d rt L Rt Hi E1 E2 H1 IH1 H2 IH2]; intros l' H'; inversion H' as [|j y lf' k' d' rt' L' Rt' Hj E1' E2' H1' H2']; subst; [reflexivity|].
  rewrite E1 in E1'. injection E1' as <-. rewrite E2 in E2'. injection E2' as <- <- <- <-. f_equal; [auto|]. f_equal. auto.
Qed.
Print Assumptions C135_table_determined.
(** the freed row of a deleted key is printed empty; a history with inserts after deletes *)
Example C135_case : exists b s fs, bmap_run (bmap_first 50 (Some 0)) demo_ops = Some (s, fs) /\ s_ents s = [(10, Some 3); (20, Some 8); (55, Some 6); (57, Some 7); (60, Some 2); (70, Some 9); (99, None)] /\
  start_history true 50 (Some 0) demo_ops = Ret (b, fs) /\ bt_printed bt_row b =
   Ret [Some (Some 3, Some 55, Some 6, Some 2); None; Some (Some 8, Some 60, Some 2, Some 5); Some (None, Some 10, Some 3, Some 9); None; Some (None, Some 70, Some 9, Some 7); None; Some (None, Some 99, None, None); Some (None, Some 57, Some 7, None); Some (None, Some 20, Some 8, None)].
Proof. eexists. eexists. eexists. split; [vm_compute; reflexivity|]. split; [vm_compute; reflexivity|]. split; vm_compute; reflexivity. Qed.
