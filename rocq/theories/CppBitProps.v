From Verif Require Import Base RangeModel RangeSpec FenwickProofs RangeProps CppModel CppProofs CppArrayModel CppBitModel CppBitProofs.

(** a history of update calls on the C++ object *)
Definition cb_run (b : cbit) (us : list (Z * Z)) : res cbit := forM us (fun u b => cb_update b (fst u) (snd u)) b.
(** a value a C++ long holds *)
Definition is_long (v : Z) : Prop := - 2 ^ 63 <= v < 2 ^ 63.

(** C116. After construction from longs and any history of in-range updates with longs, get_sum and get_prefix_sum of the C++ object are the
    sums of the current values, modulo 2^64 in the range of long; when the sum itself is a long they are what the Python backend returns,
    even if sums inside the tree overflowed on the way. *)
Theorem C116_cpp_fenwick : forall (a : list Z) (us : list (Z * Z)), a <> [] -> len a < 2 ^ 62 -> Forall is_long a ->
  Forall (fun u => 0 <= fst u < len a /\ is_long (snd u)) us ->
  exists b, (b <- cb_new a ;; cb_run b us) = Ret b /\
    (forall l r, 0 <= l -> l <= r -> r < len a ->
       exists s, cb_sum b l r = Ret s /\ is_long s /\ (s - zsum (range_of (assigns a us) l r)) mod 2 ^ 64 = 0) /\
    (forall r, 0 <= r < len a ->
       exists s, cb_prefix b r = Ret s /\ is_long s /\ (s - zsum (range_of (assigns a us) 0 r)) mod 2 ^ 64 = 0) /\
    (forall l r, 0 <= l -> l <= r -> r < len a -> is_long (zsum (range_of (assigns a us) l r)) ->
       cb_sum b l r = (b <- fw_new a ;; b <- fw_run b us ;; fw_sum b l r) /\ cb_sum b l r = Ret (zsum (range_of (assigns a us) l r))).
Proof.
  intros a us Ha Hs Fa Fu. assert (Fu' : Forall (fun u => 0 <= fst u < len a) us) by (eapply Forall_impl; [|exact Fu]; intros u [H _]; exact H).
  destruct (C46_fenwick_sums a us Ha Fu') as (b & E & Q1 & Q2). pose proof (new_ok a Ha) as W. apply wp_ex in W. destruct W as (b0 & E0 & O0 & A0).
  destruct (new_sim a Ha Hs Fa b0 E0) as (c0 & C0 & S0). rewrite E0 in E. cbn [bind] in E. unfold fw_run in E.
  destruct (run_sim us b0 c0 b S0 O0) as (c & C & S); [rewrite A0; exact Hs|rewrite A0; exact Fu|exact E|].
  exists c. rewrite C0. cbn [bind]. split; [exact C|].
  assert (B : forall x, is_long (s64 x) /\ (s64 x - x) mod 2 ^ 64 = 0).
  { intros x. unfold is_long, s64. pose proof (Z.mod_pos_bound (x + 2 ^ 63) word ltac:(rewrite word_val; lia)) as M. rewrite word_val in *. split; [lia|].
    replace (2 ^ 64) with 18446744073709551616 by reflexivity. pose proof (Z.div_mod (x + 2 ^ 63) 18446744073709551616 ltac:(lia)) as D.
    set (q := (x + 2 ^ 63) / 18446744073709551616) in *. replace (_ - x) with ((- q) * 18446744073709551616) by lia. apply Z_mod_mult. }
  split; [|split].
  - intros l r H1 H2 H3. exists (s64 (zsum (range_of (assigns a us) l r))). split; [apply (sum_sim b c l r _ S); [lia|lia|lia|apply Q1; lia]|apply B].
  - intros r Hr. exists (s64 (zsum (range_of (assigns a us) 0 r))). split; [apply (prefix_sim b c r _ S); [unfold fits_long; lia|unfold fits_long; lia|apply Q2; lia]|apply B].
  - intros l r H1 H2 H3 HL. rewrite E0. cbn [bind]. unfold fw_run. rewrite E. cbn [bind]. rewrite Q1 by lia.
    rewrite (sum_sim b c l r _ S H1 ltac:(lia) ltac:(lia) (Q1 l r H1 H2 H3)). rewrite s64_id by exact HL. auto.
Qed.
Print Assumptions C116_cpp_fenwick.
Example C116_case : exists b, (b <- cb_new [3; 2 ^ 63 - 1; 4; - 2 ^ 63; 5] ;; cb_run b [(2, 10); (0, 7)]) = Ret b /\ cb_sum b 0 4 = Ret 21 /\ cb_sum b 1 3 = Ret 9 /\
  cb_tree b <> [0; 7; 2 ^ 63 + 6; 10; 16; 5; 0].
Proof. eexists. split; [vm_compute; reflexivity|]. repeat split; try (vm_compute; reflexivity). intros H. vm_compute in H. discriminate. Qed.
(** The class does not give exact sums: two longs are enough for the wrong answer, where the Python backend is right. *)
Theorem C116_cpp_fenwick_overflow_refuted :
  (b <- cb_new [2 ^ 62; 2 ^ 62] ;; cb_sum b 0 1) = Ret (- 2 ^ 63) /\ (b <- fw_new [2 ^ 62; 2 ^ 62] ;; fw_sum b 0 1) = Ret (2 ^ 63).
Proof. split; vm_compute; reflexivity. Qed.
Print Assumptions C116_cpp_fenwick_overflow_refuted.
(** An update outside 0..n-1 is no IndexError as in the Python backend: the result of PyList_GetItem is not checked, and memory outside the
    array is touched. This holds after every history. *)
Theorem C116_cpp_fenwick_bounds_refuted : forall (a : list Z) (us : list (Z * Z)), a <> [] -> len a < 2 ^ 62 -> Forall is_long a ->
  Forall (fun u => 0 <= fst u < len a /\ is_long (snd u)) us ->
  exists b, (b <- cb_new a ;; cb_run b us) = Ret b /\
    forall i v, is_long i -> is_long v -> i < 0 \/ len a <= i ->
      cb_update b i v = undefined /\ (b <- fw_new a ;; b <- fw_run b us ;; fw_update b i v) = Raise IndexError.
Proof.
  intros a us Ha Hs Fa Fu. assert (Fu' : Forall (fun u => 0 <= fst u < len a) us) by (eapply Forall_impl; [|exact Fu]; intros u [H _]; exact H).
  pose proof (new_ok a Ha) as W. apply wp_ex in W. destruct W as (b0 & E0 & O0 & A0).
  destruct (new_sim a Ha Hs Fa b0 E0) as (c0 & C0 & S0). destruct (fw_run_ok us b0 O0) as (b & E & O & A); [rewrite A0; exact Fu'|].
  destruct (run_sim us b0 c0 b S0 O0) as (c & C & S); [rewrite A0; exact Hs|rewrite A0; exact Fu|exact E|].
  assert (L : len (fw_array b) = len a).
  { rewrite A, A0. clear. revert a. induction us as [|u us IH]; intros a; [reflexivity|]. unfold assigns in *. cbn [fold_left]. rewrite IH. unfold py_set. apply len_upd. }
  exists c. rewrite C0. cbn [bind]. split; [exact C|]. intros i v Hi Hv H. split.
  - unfold cb_update, cb_update_fuel. rewrite !as_long_ok by assumption. cbn [bind]. cbv zeta. unfold pl_get at 1.
    assert (LF : len (cb_flag c) = len a) by (rewrite (proj1 (proj2 S)), (proj2 O), len_repeat; exact L). rewrite LF.
    destruct (Z.ltb_spec i 0), (Z.leb_spec (len a) i); try lia; reflexivity.
  - rewrite E0. cbn [bind]. rewrite E. cbn [bind]. apply update_err; [exact O|]. rewrite L. exact H.
Qed.
Print Assumptions C116_cpp_fenwick_bounds_refuted.
