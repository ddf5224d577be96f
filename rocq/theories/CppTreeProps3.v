(** Theorems about join and split of the C++ SplayTree (C126, C127). *)
From Coq Require Import Sorting.Sorted.
From Verif Require Import Base TreeModel TreeSpec TreeProofs TreeRotate TreeBst TreeAvl TreeAvl2 TreeSim TreeTreap TreeHist TreeSplaySpec TreeReins TreeSplay TreeMulti TreeGap TreeJoin TreeSplit CppArrayModel CppTreeModel CppTreeModel2 CppTreeModel3 CppTreeSpec CppTreeSpec2 CppTreeSpec3 CppTreeProofs CppTreeJoin2.

(** C126, partly (see the refutations below): a tree with 2^n - 1 keys joined with a tree whose keys are all greater has the entries of both; join refuses trees that are not
    ordered like this (of any size) *)
Theorem C126_cpp_join_partial : forall (K D : Type) (same : K -> K -> bool) (val rk : K -> Z) (comp : K -> K -> Z) (os1 os2 : bool) (h1 h2 : list (K * option D)) (l1 l2 : list (Z * option D)),
  (forall x y, same x y = true <-> x = y) -> (forall x y, rk x = rk y -> x = y) -> order_of rk comp ->
  sorted_map l1 (named_entries rk h1) -> sorted_map l2 (named_entries rk h2) -> NoDup (map fst h1) -> NoDup (map fst h2) -> h1 <> [] -> h2 <> [] ->
  exists b1 b2, cpp_splay_build same val comp os1 h1 = Ret b1 /\ cpp_splay_build same val comp os2 h2 = Ret b2 /\
    ((exists k1 k2, In k1 (map fst h1) /\ In k2 (map fst h2) /\ rk k2 <= rk k1) -> c_splay_join val b1 b2 = Raise ValueError) /\
    forall n, len l1 = 2 ^ n - 1 -> (forall k1 k2, In k1 (map fst h1) -> In k2 (map fst h2) -> rk k1 < rk k2) ->
      exists b m v, c_splay_join val b1 b2 = Ret b /\ named_entries rk m = l1 ++ l2 /\ cfinds same b m /\ c_in_order (ct_mem b) (ct_root b) = Ret v /\ cshows v m.
Proof.
  intros K D same val rk comp os1 os2 h1 h2 l1 l2 HS HR HC SM1 SM2 ND1 ND2 NE1 NE2.
  destruct (csplay_built same val rk HS HR comp os1 h1 HC NE1 ND1) as (c1 & b1 & T1 & E1 & B1 & G1 & P1). destruct (csplay_built same val rk HS HR comp os2 h2 HC NE2 ND2) as (c2 & b2 & T2 & E2 & B2 & G2 & P2).
  assert (EL1 := sorted_map_unique _ _ _ SM1 (cont_map _ _ (p_cont _ _ _ G1))). assert (EL2 := sorted_map_unique _ _ _ SM2 (cont_map _ _ (p_cont _ _ _ G2))). subst l1 l2.
  assert (IN : forall (h : list (K * option D)) T, sorted_map (entries T) (named_entries rk h) -> NoDup (map fst h) -> forall z, In z (map fst (entries T)) <-> exists k, In k (map fst h) /\ z = rk k).
  { intros h T [_ SM] ND z. assert (ND' : NoDup (map fst (named_entries rk h))). { unfold named_entries. rewrite map_map. cbn [fst]. rewrite <- map_map. apply FinFun.Injective_map_NoDup; [exact HR|exact ND]. }
    rewrite in_map_iff. split.
    - intros ([k d] & <- & HI). apply SM in HI. apply (last_nodup _ ND') in HI. unfold named_entries in HI. apply in_map_iff in HI as (e & Q1 & Q2). exists (fst e). split; [apply in_map; exact Q2|]. injection Q1 as <- _. reflexivity.
    - intros (k & HI & ->). apply in_map_iff in HI as (e & <- & HI). exists (rk (fst e), snd e). split; [reflexivity|]. apply SM. apply (last_nodup _ ND'). unfold named_entries. apply in_map_iff. exists e. auto. }
  assert (I1 := IN h1 T1 SM1 ND1). assert (I2 := IN h2 T2 SM2 ND2).
  exists c1, c2. split; [exact E1|]. split; [exact E2|]. split.
  - intros (k1 & k2 & J1 & J2 & L). eapply (cjoin_unordered val rk c1 c2 b1 b2 T1 T2 _ _ (rk k1) (rk k2)); try eassumption; [apply I1; eauto|apply I2; eauto].
  - intros n HN LT. rewrite len_entries in HN. assert (0 < n). { assert (0 < 2 ^ n - 1). { rewrite <- HN. assert (NT := p_ne _ _ _ G1). destruct T1 as [|a1 a2 a3 a4]; [congruence|]. cbn [nodes]. pose proof (nodes_nonneg a1). pose proof (nodes_nonneg a4). lia. } destruct (Z.lt_trichotomy n 0) as [L|[L|L]]; [rewrite Z.pow_neg_r in H by exact L; lia|subst n; cbn in H; lia|exact L]. }
    apply (cjoin_ok same val rk HS HR c1 c2 b1 b2 T1 T2 _ _ B1 B2 G1 G2 (full b1 T1 _ n G1 P1 H HN)). intros z1 z2 Z1 Z2. apply I1 in Z1 as (k1 & Z1 & ->). apply I2 in Z2 as (k2 & Z2 & ->). apply LT; assumption.
Qed.
Print Assumptions C126_cpp_join_partial.

(** C127, partly: after inserts of different keys, and any history of inserts of new keys and splits at present keys, going on with either half as long as it is not empty, searches, the
    traversal and the bounds agree with the entries the tree should have; a split at a present key leaves the entries up to it and returns a tree with those above it, if there are any;
    a split at another key changes nothing and returns None *)
Theorem C127_cpp_split_histories_partial : forall (K D : Type) (same : K -> K -> bool) (val rk : K -> Z) (comp : K -> K -> Z) (os : bool) (h : list (K * option D)) (ops : list csop) (l : list (Z * option D)),
  (forall x y, same x y = true <-> x = y) -> (forall x y, rk x = rk y -> x = y) -> order_of rk comp ->
  sorted_map l (named_entries rk h) -> NoDup (map fst h) -> h <> [] -> valid l (map (snamed rk) ops) ->
  let l' := after l (map (snamed rk) ops) in
  exists b b' m, cpp_splay_build same val comp os h = Ret b /\ crun_splay same val b ops = Ret b' /\ named_entries rk m = l' /\ cholds same rk b' m /\
    forall x, (In x (map fst m) -> exists b1 o m1 m2, c_splay_split same val b' x = Ret (b1, Some o) /\ named_entries rk m1 = upto (rk x) l' /\ named_entries rk m2 = above (rk x) l' /\ cholds same rk b1 m1 /\ (m2 <> [] -> cholds same rk o m2)) /\
              (~ In x (map fst m) -> c_splay_split same val b' x = Ret (b', None)).
Proof.
  intros K D same val rk comp os h ops l HS HR HC SM ND NE HV l'. destruct (csplay_built same val rk HS HR comp os h HC NE ND) as (c & b & T & E1 & B1 & G & _). assert (EL := sorted_map_unique _ _ _ SM (cont_map _ _ (p_cont _ _ _ G))). subst l.
  assert (S0 : splayed b (entries T)). { exists T. destruct G as [A B C F]. split; [exact A|]. split; [apply grown_gapped; exact B|]. split; [apply C|]. auto. }
  destruct (crun_ok same val rk HS HR ops c b (entries T) B1 S0 HV) as (c' & b' & E2 & B2 & S2). fold l' in S2. destruct (view_splayed same rk HS HR c' b' l' B2 S2) as (m & M1 & M2). exists c, c', m. split; [exact E1|]. split; [exact E2|]. split; [exact M1|]. split; [exact M2|].
  intros x. destruct (csplit_ok same val rk HS HR c' b' l' x B2 S2) as [Q1 Q2]. rewrite <- (in_named' rk HR m x), M1. split; assumption.
Qed.
Print Assumptions C127_cpp_split_histories_partial.

(** ** concrete histories *)
Definition tens (l : list Z) : list (Z * option Z) := map (fun k => (k, Some (10 * k))) l.
Definition ltz (x y : Z) : Z := if x <? y then 1 else 0.
Definition build_z (l : list Z) := cpp_splay_build Z.eqb (fun z => z) ltz false (tens l).
Definition keys_z (r : res (ctree Z Z)) : res (list (option Z)) := b <- r ;; v <- c_in_order (ct_mem b) (ct_root b) ;; Ret (map ck_key v).
Example C126_case : len (tens [1; 2; 3; 4; 5; 6; 7]) = 2 ^ 3 - 1 /\
  keys_z (b1 <- build_z [5; 1; 3; 7; 2; 6; 4] ;; b2 <- build_z [8; 11; 9; 10] ;; c_splay_join (fun z => z) b1 b2) = Ret (map Some [1; 2; 3; 4; 5; 6; 7; 8; 9; 10; 11]) /\
  keys_z (b1 <- build_z [5; 1; 3] ;; b2 <- build_z [8; 5] ;; c_splay_join (fun z => z) b1 b2) = Raise ValueError.
Proof. repeat apply conj; vm_compute; reflexivity. Qed.
Example C127_case : let ops := [CSLow 5; CSIns 9 (Some 9); CSIns 0 None; CSHigh 2; CSIns 4 None; CSLow 9] in
  valid (tens [1; 2; 3; 5; 6; 7; 8]) (map (snamed (fun z => z)) ops) /\ keys_z (b <- build_z [5; 1; 3; 2; 7; 6; 8] ;; crun_splay Z.eqb (fun z => z) b ops) = Ret (map Some [3; 4; 5; 9]).
Proof.
  cbv zeta. split; [|vm_compute; reflexivity]. unfold tens. vm_compute. repeat split; try (intros H; repeat destruct H as [H|H]; try discriminate H; destruct H); try discriminate; auto 10.
Qed.

(** ** Where the code fails *)
(** the links of the copies are moved by the length of the array, but the copies are put behind the last used cell: the joined tree's root points at an empty cell *)
Theorem C126_join_refuted : keys_z (b1 <- build_z [1; 2] ;; b2 <- build_z [3] ;; c_splay_join (fun z => z) b1 b2) = undefined /\ exists b1 b2 b, build_z [1; 2] = Ret b1 /\ build_z [3] = Ret b2 /\ c_splay_join (fun z => z) b1 b2 = Ret b.
Proof. split; [vm_compute; reflexivity|]. do 3 eexists. repeat apply conj; vm_compute; reflexivity. Qed.
Print Assumptions C126_join_refuted.
(** a tree that was joined cannot be grown: the copies have no parent links *)
Theorem C126_insert_after_join_refuted : exists b1 b2 b, build_z [1; 2; 3] = Ret b1 /\ build_z [4; 5] = Ret b2 /\ c_splay_join (fun z => z) b1 b2 = Ret b /\ c_splay_insert Z.eqb (fun z => z) b 6 (Some 6) = undefined.
Proof. do 3 eexists. repeat apply conj; vm_compute; reflexivity. Qed.
Print Assumptions C126_insert_after_join_refuted.
(** a split at a key that is not in the tree splits nothing *)
Theorem C127_split_absent_refuted : exists b, build_z [5; 1; 7] = Ret b /\ c_splay_split Z.eqb (fun z => z) b 3 = Ret (b, None) /\ c_search Z.eqb b 7 <> Ret None.
Proof. eexists. split; [vm_compute; reflexivity|]. split; vm_compute; [reflexivity|discriminate]. Qed.
Print Assumptions C127_split_absent_refuted.
(** a split at the greatest key returns a tree with one node without a key *)
Theorem C127_split_at_greatest_refuted : keys_z (b <- build_z [5; 1; 7] ;; ' (_, o) <- c_splay_split Z.eqb (fun z => z) b 7 ;; match o with Some o => Ret o | None => Raise TypeError end) = Ret [None].
Proof. vm_compute. reflexivity. Qed.
Print Assumptions C127_split_at_greatest_refuted.
