(** Deletes on the red-black tree: C96. *)
From Coq Require Import Sorting.Sorted.
From Verif Require Import Base TreeModel TreeModel2 TreeSpec TreeProofs TreeRotate TreeBst TreeTrav TreeQuery TreeLca TreeDel TreeHist TreeBalSpec TreeAvl TreeAvl2 TreeSim TreeTreap TreeRb TreeReins TreeMulti TreeDelSpec TreeDel2 TreeDel3 TreeDel4 TreeRbDel TreeRbDel2.

Definition pairs (l : list Z) : list (Z * option Z) := map (fun k => (k, Some k)) l.

(** C96 fails: the delete that compacts the array keeps the old number of the root when the node it takes out has one child, and raises *)
Theorem C96_rb_compaction_refuted : exists b b', build_with rb_insert None false (pairs [1; 2; 3; 4; 5; 6; 7; 8; 9]) = Ret b /\
  delete_with rb_delete b [1; 2; 3; 4; 5] = Ret (b', [true; true; true; true; true]) /\ search b' 8 <> Ret None /\ rb_delete b' 8 = Raise IndexError.
Proof. eexists. eexists. split; [vm_compute; reflexivity|]. split; [vm_compute; reflexivity|]. split; [vm_compute; discriminate|]. vm_compute. reflexivity. Qed.
Print Assumptions C96_rb_compaction_refuted.
(** deleting the last key leaves a node without a key, which the traversals list *)
Theorem C96_rb_emptied_refuted : exists b b' x, build_with rb_insert None false (pairs [1]) = Ret b /\ rb_delete b 1 = Ret (b', true) /\ in_order (b_mem b') (b_root b') = Ret [x] /\ k_key x = None.
Proof. eexists. eexists. eexists. split; [vm_compute; reflexivity|]. split; [vm_compute; reflexivity|]. split; vm_compute; reflexivity. Qed.
Print Assumptions C96_rb_emptied_refuted.
(** what holds: inserts of different keys, then any deletes, at most half as many as there are keys. delete reports which keys were there; the tree has the
    remaining entries and its queries agree with the sorted list of them; its root is black, no red node has a red child, and every way down meets the same number of black nodes *)
Theorem C96_rb_inserts_then_deletes_partial : forall (D : Type) (os : bool) (h : list (Z * option D)) (ks : list Z) (l : list (Z * option D)),
  sorted_map l h -> NoDup (map fst h) -> 2 * len ks <= len l -> 0 < len l ->
  let l' := fst (deleted l ks) in
  exists b b' T v n, build_with rb_insert None os h = Ret b /\ delete_with rb_delete b ks = Ret (b', snd (deleted l ks)) /\
    finds b' l' /\ in_order (b_mem b') (b_root b') = Ret v /\ shows v l' /\
    (forall key, exists lo hi, lower_bound b' key = Ret lo /\ upper_bound b' key = Ret hi /\ least (fun k => key <= k) (map fst l') lo /\ least (fun k => key < k) (map fst l') hi) /\
    tree_at (b_mem b') (b_root b') T /\ black T /\ no_red_red T /\ black_count T n.
Proof.
  intros D os h ks l SM ND HL HP l'. assert (NE : h <> []). { intros X. destruct SM as [_ SM]. rewrite X in SM. destruct l as [|[k d] l]; [cbn in HP; lia|]. destruct (SM k d) as [A _]. specialize (A (or_introl eq_refl)). discriminate. }
  destruct (rb_build_ok os h NE ND) as (b & T & E1 & G & O). destruct (rb_build_w os h NE) as (b0 & T0 & E0 & GW & _). rewrite E1 in E0. injection E0 as <-.
  assert (T0 = T) by (eapply tree_unique; [apply (g_at _ _ (w_grown _ _ _ GW))|apply (g_at _ _ (r_grown _ _ _ G))]). subst T0. assert (MK := proj2 (w_tail _ _ _ GW)).
  assert (SG := cont_map _ _ (r_cont _ _ _ G)). assert (EL := sorted_map_unique _ _ _ SM SG). subst l l'. rewrite len_entries in *.
  assert (GG := r_grown _ _ _ G). assert (GC := g_cap _ _ GG). assert (GN := g_nodes _ _ GG). pose proof (len_nonneg _ ks).
  destruct (rb_deletes_ok ks b T (r_def _ _ _ G) (grown_slim _ _ GG) (proj1 (r_cont _ _ _ G)) MK (r_black _ _ _ G) (r_rb _ _ _ G) ltac:(lia)) as (b' & T' & E2 & D2 & SP2 & O2 & HE2 & OS2 & EN2 & BK2 & n & RB2).
  assert (W := tree_wtree _ _ _ (sl_at _ _ SP2)). exists b, b', T', (infos T'), n. split; [exact E1|]. split; [exact E2|]. rewrite <- EN2. split; [apply wfinds; [exact D2|exact W|exact O2|exact HE2]|]. split; [apply in_order_w; [exact W|exact HE2]|]. split; [apply (ents_okeys T' O2)|].
  split; [intros key; apply bounds_view_at; [exact D2|apply (sl_at _ _ SP2)|exact O2]|]. split; [apply (sl_at _ _ SP2)|]. split; [exact BK2|]. apply (rb_spec T' n RB2).
Qed.
Print Assumptions C96_rb_inserts_then_deletes_partial.
(** eight keys and four deletes: a node with two children, an absent key, a black leaf whose sibling is red, and the root *)
Example C96_case : sorted_map (pairs [1; 2; 3; 4; 5; 6; 7; 8]) (pairs [1; 2; 3; 4; 5; 6; 7; 8]) /\ NoDup (map fst (pairs [1; 2; 3; 4; 5; 6; 7; 8])) /\ deleted (pairs [1; 2; 3; 4; 5; 6; 7; 8]) [6; 9; 1; 4] = (pairs [2; 3; 5; 7; 8], [true; false; true; true]) /\
  exists b b', build_with rb_insert None true (pairs [1; 2; 3; 4; 5; 6; 7; 8]) = Ret b /\ b_root b = Some 3 /\ delete_with rb_delete b [6; 9; 1; 4] = Ret (b', [true; false; true; true]).
Proof.
  split; [|split; [vm_compute; repeat constructor; cbn; intuition lia|split; [reflexivity|eexists; eexists; split; [vm_compute; reflexivity|]; split; [reflexivity|]; vm_compute; reflexivity]]]. split; [repeat constructor|]. intros k d. unfold pairs. cbn [map last_data In].
  destruct (Z.eqb_spec k 1), (Z.eqb_spec k 2), (Z.eqb_spec k 5), (Z.eqb_spec k 3), (Z.eqb_spec k 6), (Z.eqb_spec k 4), (Z.eqb_spec k 7), (Z.eqb_spec k 8); subst; try lia; (split; [intros H; repeat (destruct H as [H|H]; [congruence|]); destruct H|intros H; try discriminate; injection H as <-; auto 10]).
Qed.
