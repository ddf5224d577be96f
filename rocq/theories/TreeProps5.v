(** SplayTree: deletes (C98), join (C99), split (C100). *)
From Coq Require Import Sorting.Sorted.
From Verif Require Import Base TreeModel TreeModel2 TreeModel3 TreeSpec TreeProofs TreeRotate TreeBst TreeTrav TreeQuery TreeLca TreeDel TreeHist TreeBalSpec TreeAvl TreeAvl2 TreeSim TreeTreap TreeSplay TreeReins TreeMulti TreeDelSpec TreeDel2 TreeDel3 TreeDel4 TreeCompact TreeDel5 TreeSplayDel TreeGap TreeSplit TreeSplit2 TreeJoin TreeSplaySpec.

Definition pairs (l : list Z) : list (Z * option Z) := map (fun k => (k, Some k)) l.

(** C98 fails: deleting the greatest key of a splay tree leaves the subtree that takes its place with a parent link to the deleted node; the next delete raises *)
Theorem C98_splay_delete_end_refuted : exists b b', build_with splay_insert None false (pairs [1; 2; 3; 4]) = Ret b /\ splay_delete b 4 = Ret (b', true) /\ search b' 1 <> Ret None /\ splay_delete b' 1 = Raise AttributeError.
Proof. eexists. eexists. split; [vm_compute; reflexivity|]. split; [vm_compute; reflexivity|]. split; [vm_compute; discriminate|]. vm_compute. reflexivity. Qed.
Print Assumptions C98_splay_delete_end_refuted.
(** and so does an insert after a delete *)
Theorem C98_splay_insert_after_delete_refuted : exists b b', build_with splay_insert None false (pairs [1; 2; 3]) = Ret b /\ splay_delete b 2 = Ret (b', true) /\ splay_insert b' 4 (Some 4) = Raise IndexError.
Proof. eexists. eexists. split; [vm_compute; reflexivity|]. split; vm_compute; reflexivity. Qed.
Print Assumptions C98_splay_insert_after_delete_refuted.
(** what holds: inserts of different keys, then deletes of absent keys, of keys that are neither the least nor the greatest, or of one of two keys, with the array compacted as often as it is.
    delete reports which keys were there; the tree has the remaining entries, and its queries agree with the sorted list of them *)
Theorem C98_splay_inserts_then_deletes_partial : forall (D : Type) (os : bool) (h : list (Z * option D)) (ks : list Z) (l : list (Z * option D)),
  sorted_map l h -> NoDup (map fst h) -> 0 < len l -> safe_all l ks ->
  let l' := fst (deleted l ks) in
  exists b b' v, build_with splay_insert None os h = Ret b /\ delete_with splay_delete b ks = Ret (b', snd (deleted l ks)) /\
    finds b' l' /\ in_order (b_mem b') (b_root b') = Ret v /\ shows v l' /\
    (forall key, exists lo hi, lower_bound b' key = Ret lo /\ upper_bound b' key = Ret hi /\ least (fun k => key <= k) (map fst l') lo /\ least (fun k => key < k) (map fst l') hi).
Proof.
  intros D os h ks l SM ND HP HS l'. assert (NE : h <> []). { intros X. destruct SM as [_ SM]. rewrite X in SM. destruct l as [|[k d] l]; [cbn in HP; lia|]. destruct (SM k d) as [A _]. specialize (A (or_introl eq_refl)). discriminate. }
  destruct (splay_built os h NE ND) as (b & T & E1 & G & _). assert (EL := sorted_map_unique _ _ _ SM (cont_map _ _ (p_cont _ _ _ G))). subst l l'.
  destruct (splay_deletes_ok ks b T (p_def _ _ _ G) (grown_snug _ _ (p_grown _ _ _ G)) (proj1 (p_cont _ _ _ G)) (p_ne _ _ _ G) HS) as (b' & T' & E2 & D2 & SP2 & O2 & HE2 & _ & EN2).
  assert (AT := sl_at _ _ (sn_slim _ _ SP2)). assert (W := tree_wtree _ _ _ AT). exists b, b', (infos T'). split; [exact E1|]. split; [exact E2|]. rewrite <- EN2. split; [apply wfinds; assumption|]. split; [apply in_order_w; assumption|]. split; [apply (ents_okeys T' O2)|].
  intros key. apply bounds_view_at; assumption.
Qed.
Print Assumptions C98_splay_inserts_then_deletes_partial.
(** nine keys, seven deletes (one of an absent key): the array is compacted on the way, and the last delete is of one of two keys *)
Example C98_case : safe_all (pairs [1; 2; 3; 4; 5; 6; 7; 8; 9]) [5; 2; 4; 6; 11; 7; 3; 8; 9] /\ deleted (pairs [1; 2; 3; 4; 5; 6; 7; 8; 9]) [5; 2; 4; 6; 11; 7; 3; 8; 9] = (pairs [1], [true; true; true; true; false; true; true; true; true]) /\
  exists b b', build_with splay_insert None true (pairs [1; 7; 3; 9; 5; 6; 2; 8; 4]) = Ret b /\ len (b_mem b) = 15 /\ delete_with splay_delete b [5; 2; 4; 6; 11; 7; 3; 8; 9] = Ret (b', [true; true; true; true; false; true; true; true; true]) /\ len (b_mem b') = 3.
Proof.
  split; [|split; [reflexivity|eexists; eexists; split; [vm_compute; reflexivity|]; split; [reflexivity|]; split; vm_compute; reflexivity]].
  unfold pairs. cbn -[len]. unfold safe. cbn [map fst In]. repeat split; try (left; lia); try (right; right; reflexivity); right; left; (split; [exists 1; lia|exists 9; lia]).
Qed.

(** C99 fails: unless the array of the first tree is full the links of the copies are off, and the traversals raise *)
Theorem C99_join_refuted : exists b1 b2 b, build_with splay_insert None false (pairs [1; 2]) = Ret b1 /\ build_with splay_insert None false (pairs [3]) = Ret b2 /\ splay_join b1 b2 = Ret b /\ in_order (b_mem b) (b_root b) = Raise IndexError.
Proof. eexists. eexists. eexists. split; [vm_compute; reflexivity|]. split; [vm_compute; reflexivity|]. split; vm_compute; reflexivity. Qed.
Print Assumptions C99_join_refuted.
(** and a tree that was joined cannot be grown: the copies have no parent links *)
Theorem C99_insert_after_join_refuted : exists b1 b2 b, build_with splay_insert None false (pairs [1; 2; 3]) = Ret b1 /\ build_with splay_insert None false (pairs [4; 5]) = Ret b2 /\ splay_join b1 b2 = Ret b /\ splay_insert b 6 (Some 6) = Raise TypeError.
Proof. eexists. eexists. eexists. split; [vm_compute; reflexivity|]. split; [vm_compute; reflexivity|]. split; vm_compute; reflexivity. Qed.
Print Assumptions C99_insert_after_join_refuted.
(** what holds: a tree with 2^n - 1 keys joined with a tree whose keys are all greater has the entries of both; join refuses trees that are not ordered like this (of any size) *)
Theorem C99_join_partial : forall (D : Type) (os1 os2 : bool) (h1 h2 l1 l2 : list (Z * option D)),
  sorted_map l1 h1 -> sorted_map l2 h2 -> NoDup (map fst h1) -> NoDup (map fst h2) -> 0 < len l1 -> 0 < len l2 ->
  exists b1 b2, build_with splay_insert None os1 h1 = Ret b1 /\ build_with splay_insert None os2 h2 = Ret b2 /\
    ((exists k1 k2, In k1 (map fst l1) /\ In k2 (map fst l2) /\ k2 <= k1) -> splay_join b1 b2 = Raise ValueError) /\
    forall n, len l1 = 2 ^ n - 1 -> (forall k1 k2, In k1 (map fst l1) -> In k2 (map fst l2) -> k1 < k2) ->
      exists b v, splay_join b1 b2 = Ret b /\ finds b (l1 ++ l2) /\ in_order (b_mem b) (b_root b) = Ret v /\ shows v (l1 ++ l2).
Proof.
  intros D os1 os2 h1 h2 l1 l2 SM1 SM2 ND1 ND2 HP1 HP2.
  assert (NE : forall (h l : list (Z * option D)), sorted_map l h -> 0 < len l -> h <> []). { intros h l SM HP X. destruct SM as [_ SM]. rewrite X in SM. destruct l as [|[k d] l]; [cbn in HP; lia|]. destruct (SM k d) as [A _]. specialize (A (or_introl eq_refl)). discriminate. }
  destruct (splay_built os1 h1 (NE _ _ SM1 HP1) ND1) as (b1 & T1 & E1 & G1 & P1). destruct (splay_built os2 h2 (NE _ _ SM2 HP2) ND2) as (b2 & T2 & E2 & G2 & _).
  assert (EL1 := sorted_map_unique _ _ _ SM1 (cont_map _ _ (p_cont _ _ _ G1))). assert (EL2 := sorted_map_unique _ _ _ SM2 (cont_map _ _ (p_cont _ _ _ G2))). subst l1 l2.
  exists b1, b2. split; [exact E1|]. split; [exact E2|]. split.
  - intros (k1 & k2 & I1 & I2 & L). eapply join_unordered; eassumption.
  - intros n HN LT. rewrite len_entries in *. assert (0 < n). { destruct (Z.lt_trichotomy n 0) as [L|[L|L]]; [rewrite Z.pow_neg_r in HN by exact L; lia|subst n; cbn in HN; lia|exact L]. }
    destruct (join_ok b1 b2 T1 T2 h1 h2 G1 G2 (full b1 T1 h1 n G1 P1 H HN) LT) as (b & T & EJ & DJ & WJ & OJ & NJ & EN). exists b, (infos T). split; [exact EJ|]. rewrite <- EN. split; [apply wfinds; assumption|]. split; [apply in_order_w; assumption|apply (ents_okeys T OJ)].
Qed.
Print Assumptions C99_join_partial.
Example C99_case : len (pairs [1; 2; 3; 4; 5; 6; 7]) = 2 ^ 3 - 1 /\ (exists b1 b2 b, build_with splay_insert None false (pairs [5; 1; 3; 7; 2; 6; 4]) = Ret b1 /\ build_with splay_insert None true (pairs [8; 11; 9; 10]) = Ret b2 /\ splay_join b1 b2 = Ret b /\ len (b_mem b) = 15) /\
  exists b1 b2, build_with splay_insert None false (pairs [5; 1; 3]) = Ret b1 /\ build_with splay_insert None false (pairs [8; 5]) = Ret b2 /\ splay_join b1 b2 = Raise ValueError.
Proof. split; [reflexivity|]. split; [eexists; eexists; eexists; split; [vm_compute; reflexivity|]; split; [vm_compute; reflexivity|]; split; vm_compute; reflexivity|eexists; eexists; split; [vm_compute; reflexivity|]; split; vm_compute; reflexivity]. Qed.

(** C100 fails: a split at a key that is not in the tree returns None and splits nothing *)
Theorem C100_split_absent_refuted : exists b, build_with splay_insert None false (pairs [5; 1; 7]) = Ret b /\ splay_split b 3 = Ret (b, None) /\ search b 7 <> Ret None.
Proof. eexists. split; [vm_compute; reflexivity|]. split; vm_compute; [reflexivity|discriminate]. Qed.
Print Assumptions C100_split_absent_refuted.
(** and a split at the greatest key returns a tree with one node without a key *)
Theorem C100_split_at_greatest_refuted : exists b b' o x, build_with splay_insert None false (pairs [5; 1; 7]) = Ret b /\ splay_split b 7 = Ret (b', Some o) /\ in_order (b_mem o) (b_root o) = Ret [x] /\ k_key x = None.
Proof. eexists. eexists. eexists. eexists. split; [vm_compute; reflexivity|]. split; [vm_compute; reflexivity|]. split; vm_compute; reflexivity. Qed.
Print Assumptions C100_split_at_greatest_refuted.
(** what holds: after inserts of different keys, and any history of inserts of new keys and splits at present keys, going on with either half as long as it is not empty, the tree has the entries
    it should have and its queries agree with the sorted list of them; a split at a present key leaves the entries up to it and returns a tree with those above it, if there are any;
    a split at another key changes nothing *)
Theorem C100_split_histories_partial : forall (D : Type) (os : bool) (h : list (Z * option D)) (ops : list (sop D)) (l : list (Z * option D)),
  sorted_map l h -> NoDup (map fst h) -> 0 < len l -> valid l ops ->
  let l' := after l ops in
  let holds (b : bst D) (m : list (Z * option D)) := finds b m /\ (exists v, in_order (b_mem b) (b_root b) = Ret v /\ shows v m) /\
    forall key, exists lo hi, lower_bound b key = Ret lo /\ upper_bound b key = Ret hi /\ least (fun k => key <= k) (map fst m) lo /\ least (fun k => key < k) (map fst m) hi in
  exists b b', build_with splay_insert None os h = Ret b /\ run_splay b ops = Ret b' /\ holds b' l' /\
    forall x, (In x (map fst l') -> exists b1 o, splay_split b' x = Ret (b1, Some o) /\ holds b1 (upto x l') /\ (above x l' <> [] -> holds o (above x l'))) /\
              (~ In x (map fst l') -> splay_split b' x = Ret (b', None)).
Proof.
  intros D os h ops l SM ND HP HV l' holds. assert (NE : h <> []). { intros X. destruct SM as [_ SM]. rewrite X in SM. destruct l as [|[k d] l]; [cbn in HP; lia|]. destruct (SM k d) as [A _]. specialize (A (or_introl eq_refl)). discriminate. }
  destruct (splay_built os h NE ND) as (b & T & E1 & G & _). assert (EL := sorted_map_unique _ _ _ SM (cont_map _ _ (p_cont _ _ _ G))). subst l.
  assert (S0 : splayed b (entries T)). { exists T. destruct G as [A B C F]. split; [exact A|]. split; [apply grown_gapped; exact B|]. split; [apply C|]. auto. }
  destruct (run_ok ops b (entries T) S0 HV) as (b' & E2 & S2). fold l' in S2. exists b, b'. split; [exact E1|]. split; [exact E2|]. split; [apply splayed_view; exact S2|]. intros x. split; intros HI.
  - destruct (split_ok b' l' x S2 HI) as (b1 & o & E3 & S3 & _ & _ & S4). exists b1, o. split; [exact E3|]. split; [apply splayed_view; exact S3|]. intros HA. apply splayed_view, S4, HA.
  - apply (split_absent b' l' x S2 HI).
Qed.
Print Assumptions C100_split_histories_partial.
(** seven keys; a split, two inserts, a split that goes on with the upper half, an insert, a split at the greatest key *)
Example C100_case : let ops := [Low 5; Ins 9 (Some 9); Ins 0 None; High 2; Ins 4 None; Low 9] in valid (pairs [1; 2; 3; 5; 6; 7; 8]) ops /\ after (pairs [1; 2; 3; 5; 6; 7; 8]) ops = [(3, Some 3); (4, None); (5, Some 5); (9, Some 9)] /\
  exists b b', build_with splay_insert None true (pairs [5; 1; 3; 2; 7; 6; 8]) = Ret b /\ run_splay b ops = Ret b'.
Proof.
  cbv zeta. split; [|split; [reflexivity|eexists; eexists; split; vm_compute; reflexivity]]. unfold pairs. vm_compute. repeat split; try (intros H; repeat destruct H as [H|H]; try discriminate H; destruct H); try discriminate; auto 10.
Qed.
