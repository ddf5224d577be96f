(** Properties C46-C50 and C86 (range queries, stabbing queries). *)
From Verif Require Import Base RangeModel RangeSpec FenwickProofs SparseProofs SegTreeProofs IntervalModel IntervalSpec IntervalProofs.

Definition fw_run (b : fenwick) (us : list (Z * Z)) : res fenwick := forM us (fun u b => fw_update b (fst u) (snd u)) b.

Lemma py_set_in {V} (a : list V) i v : 0 <= i -> py_set a i v = zupd a i v.
Proof. intros H. unfold py_set, zupd. destruct (Z.ltb_spec i 0); [lia|reflexivity]. Qed.
Lemma fw_run_ok us : forall b, fw_ok b -> Forall (fun u => 0 <= fst u < len (fw_array b)) us ->
  exists b', fw_run b us = Ret b' /\ fw_ok b' /\ fw_array b' = assigns (fw_array b) us.
Proof.
  induction us as [|[i v] us IH]; intros b O F; [exists b; auto|]. inversion F as [|? ? Hi F']; subst. cbn [fst] in Hi.
  pose proof (update_ok b i v O Hi) as W. apply wp_ex in W. destruct W as (b1 & E1 & O1 & A1).
  destruct (IH b1 O1) as (b2 & E2 & O2 & A2); [rewrite A1, len_zupd; exact F'|]. exists b2. unfold fw_run in *. cbn [forM fst snd]. rewrite E1. cbn [bind].
  split; [exact E2|]. split; [exact O2|]. rewrite A2, A1. unfold assigns. cbn [fold_left fst snd]. rewrite py_set_in by lia. reflexivity.
Qed.

(** C46. After construction and any history of in-range updates, get_sum is the sum of the current values in the range. *)
Theorem C46_fenwick_sums : forall (a : list Z) (us : list (Z * Z)), a <> [] -> Forall (fun u => 0 <= fst u < len a) us ->
  exists b, (b <- fw_new a ;; fw_run b us) = Ret b /\
    (forall l r, 0 <= l -> l <= r -> r < len a -> fw_sum b l r = Ret (zsum (range_of (assigns a us) l r))) /\
    (forall r, 0 <= r < len a -> fw_prefix b r = Ret (zsum (range_of (assigns a us) 0 r))).
Proof.
  intros a us Ha F. pose proof (new_ok a Ha) as W. apply wp_ex in W. destruct W as (b0 & E0 & O0 & A0).
  destruct (fw_run_ok us b0 O0) as (b & E & O & A); [rewrite A0; exact F|]. exists b. rewrite E0. cbn [bind]. split; [exact E|]. rewrite A0 in A.
  assert (L : len (fw_array b) = len a).
  { rewrite A. clear. revert a. induction us as [|u us IH]; intros a; [reflexivity|]. unfold assigns in *. cbn [fold_left]. rewrite IH. unfold py_set. apply len_upd. }
  rewrite <- A, <- L. split.
  - intros l r H1 H2 H3. apply sum_ok; auto; lia.
  - intros r Hr. rewrite prefix_ok by (auto; lia). rewrite <- psum_range by lia. unfold psum at 3. simpl. f_equal. lia.
Qed.
Print Assumptions C46_fenwick_sums.
Example C46_case : exists b, (b <- fw_new [3; -1; 4; 1; 5] ;; fw_run b [(2, 10); (0, 7)]) = Ret b /\ fw_sum b 1 3 = Ret 10 /\ fw_sum b 0 4 = Ret 22.
Proof. eexists. split; [vm_compute; reflexivity|]. split; vm_compute; reflexivity. Qed.

(** C86. After any history, update raises IndexError for every index outside 0..n-1 (negative ones too), and the constructor does so
    for an empty array. *)
Theorem C86_fenwick_update_bounds_partial : forall (a : list Z) (us : list (Z * Z)), a <> [] -> Forall (fun u => 0 <= fst u < len a) us ->
  fw_new [] = Raise IndexError /\
  exists b, (b <- fw_new a ;; fw_run b us) = Ret b /\ forall i v, i < 0 \/ len a <= i -> fw_update b i v = Raise IndexError.
Proof.
  intros a us Ha F. split; [reflexivity|]. pose proof (new_ok a Ha) as W. apply wp_ex in W. destruct W as (b0 & E0 & O0 & A0).
  destruct (fw_run_ok us b0 O0) as (b & E & O & A); [rewrite A0; exact F|]. exists b. rewrite E0. cbn [bind]. split; [exact E|]. rewrite A0 in A.
  assert (L : len (fw_array b) = len a).
  { rewrite A. clear. revert a. induction us as [|u us IH]; intros a; [reflexivity|]. unfold assigns in *. cbn [fold_left]. rewrite IH. unfold py_set. apply len_upd. }
  intros i v Hi. apply update_err; [exact O|]. rewrite L. exact Hi.
Qed.
Print Assumptions C86_fenwick_update_bounds_partial.
Example C86_case : (b <- fw_new [3; -1; 4] ;; b <- fw_run b [(1, 2)] ;; fw_update b (-1) 9) = Raise IndexError.
Proof. vm_compute. reflexivity. Qed.
(** but get_sum accepts right_index = n and then leaves out values *)
Theorem C86_fenwick_get_sum_past_end_refuted : (b <- fw_new [1; 2; 3] ;; fw_sum b 0 3) = Ret 0 /\ zsum [1; 2; 3] = 6.
Proof. vm_compute. auto. Qed.
Print Assumptions C86_fenwick_get_sum_past_end_refuted.

Lemma combines_lift {V} (op : V -> V -> V) : (forall x y z, op x (op y z) = op (op x y) z) -> combines (lift_op op) op.
Proof. intros H. split; [reflexivity|intros []; reflexivity|intros []; reflexivity|reflexivity|exact H]. Qed.
(** the three combiners of the library meet [combines] *)
Theorem C47_library_combiners : combines py_minimum Z.min /\ combines py_gcd Z.gcd /\ combines py_summation Z.add.
Proof.
  split; [apply combines_lift; intros; apply Z.min_assoc|]. split; [apply combines_lift; intros; apply Z.gcd_assoc|]. apply combines_lift. intros. lia.
Qed.
Print Assumptions C47_library_combiners.
(** C47. For a combiner of that kind and an array of ints (left alone by the int() coercion of the table), every query of the table and of
    RangeQueryStatic is the fold of the inclusive range. *)
Theorem C47_sparse_table_exact_partial : forall (V : Type) (func : combiner V) (op : V -> V -> V) (int_of : V -> V) (a : list V),
  combines func op -> (forall v, int_of v = v) -> a <> [] ->
  exists t, sparse_new func int_of a = Ret t /\ rqs_sparse_new func int_of a = Ret (t, len a) /\
    forall l r, 0 <= l -> l <= r -> r < len a ->
      sparse_query func t l r = Ret (fold1 op (range_of a l r)) /\ rqs_sparse_query func (t, len a) l r = Ret (fold1 op (range_of a l r)) /\
      rqs_array_query func a l r = Ret (fold1 op (range_of a l r)).
Proof.
  intros V func op int_of a CB Hc Ha. assert (d : V) by (destruct a; [contradiction|assumption]).
  pose proof (sparse_new_ok func op CB int_of a d (fun l r v _ => Hc v) Ha) as W. apply wp_ex in W. destruct W as (t & E & O). exists t. split; [exact E|].
  assert (Hl : 0 < len a) by (destruct a; [contradiction|unfold len; cbn [length]; lia]).
  split; [unfold rqs_sparse_new; rewrite E; destruct (Z.eqb_spec (len a) 0); [lia|reflexivity]|]. intros l r H1 H2 H3.
  pose proof (sparse_query_ok func op CB a t l r O H1 H2 H3) as Q. split; [exact Q|]. split; [|apply (array_query_ok func op CB a l r H1 H2 H3)].
  unfold rqs_sparse_query. cbn [fst snd]. rewrite check_ok by lia. exact Q.
Qed.
Print Assumptions C47_sparse_table_exact_partial.
Example C47_case : (t <- rqs_sparse_new py_minimum (fun v => v) [4; 6; 1; 5; 7; 3] ;; rqs_sparse_query py_minimum t 3 5) = Ret (Some 3).
Proof. vm_compute. reflexivity. Qed.
(** with floats the table truncates: values in halves, int() rounds towards zero to an even number of halves; the range [1.5, 2.5] *)
Definition int_of_halves (v : Z) : Z := 2 * Z.quot v 2.
Theorem C47_sparse_table_floats_refuted :
  (o <- rqs_sparse_new py_minimum int_of_halves [3; 5] ;; rqs_sparse_query py_minimum o 0 1) = Ret (Some 2) /\
  rqs_array_query py_minimum [3; 5] 0 1 = Ret (Some 3).
Proof. vm_compute. auto. Qed.
Print Assumptions C47_sparse_table_floats_refuted.

Definition st_run {V} (func : combiner V) (t : segtree V) (us : list (Z * V)) : res (segtree V) := forM us (fun u t => st_update func t (fst u) (snd u)) t.
Lemma len_assigns {V} us : forall a : list V, len (assigns a us) = len a.
Proof. induction us as [|u us IH]; intros a; [reflexivity|]. unfold assigns in *. cbn [fold_left]. rewrite IH. unfold py_set. apply len_upd. Qed.
Lemma st_run_ok {V} (func : combiner V) op (CB : combines func op) (d : V) us : forall g t, st_ok op g t -> Forall (fun u => -1 <= fst u < len g) us ->
  exists t', st_run func t us = Ret t' /\ st_ok op (assigns g us) t'.
Proof.
  induction us as [|[i v] us IH]; intros g t O F; [exists t; auto|]. inversion F as [|? ? Hi F']; subst. cbn [fst] in Hi.
  destruct (st_update_ok func op CB d g t i v O Hi) as (t1 & E1 & O1). destruct (IH _ _ O1) as (t2 & E2 & O2); [unfold py_set; rewrite len_upd; exact F'|].
  exists t2. unfold st_run in *. cbn [forM fst snd]. rewrite E1. auto.
Qed.
(** C48. After build and any history of updates at 0 <= i < n (also -1), query folds the current values; query and update before build
    raise ValueError. *)
Theorem C48_segment_tree_exact : forall (V : Type) (func : combiner V) (op : V -> V -> V) (a : list V) (us : list (Z * V)),
  combines func op -> a <> [] -> Forall (fun u => -1 <= fst u < len a) us ->
  (forall l r i v, st_query func (st_new a) l r = Raise ValueError /\ st_update func (st_new a) i v = Raise ValueError) /\
  exists t, (t <- st_build func (st_new a) ;; st_run func t us) = Ret t /\
    forall l r, 0 <= l -> l <= r -> r < len a -> st_query func t l r = Ret (fold1 op (range_of (assigns a us) l r)).
Proof.
  intros V func op a us CB Ha F. split; [split; reflexivity|]. assert (d : V) by (destruct a; [contradiction|assumption]).
  destruct (st_build_ok func op CB d a Ha) as (t0 & E0 & O0). destruct (st_run_ok func op CB d us a t0 O0 F) as (t & E & O). exists t. rewrite E0. cbn [bind]. split; [exact E|].
  intros l r H1 H2 H3. rewrite (st_query_ok func op CB _ t l r O). rewrite len_assigns. unfold rf. do 3 f_equal; lia.
Qed.
Print Assumptions C48_segment_tree_exact.
Example C48_case : (t <- st_build py_minimum (st_new [4; 6; 1; 5; 7; 3]) ;; t <- st_run py_minimum t [(2, 9); (-1, 0)] ;; 
   x <- st_query py_minimum t 0 3 ;; y <- st_query py_minimum t 2 5 ;; Ret (x, y)) = Ret (Some 4, Some 0).
Proof. vm_compute. reflexivity. Qed.

(** C49. On any sequence of calls whose update indices are not in -n..-2 (those out of range are allowed), the two dynamic back ends give the
    same outcomes, exceptions included, namely the expected ones; and the static back ends likewise. *)
Theorem C49_dynamic_back_ends_agree_partial : forall (V : Type) (func : combiner V) (op : V -> V -> V) (a : list V) (ops : list (rq_op V)),
  combines func op -> a <> [] -> Forall (fun o => match o with RUpdate i _ => i < - len a \/ -1 <= i | RQuery _ _ => True end) ops ->
  exists o, rqd_seg_new func a = Ret o /\ rqd_array_new a = Ret a /\
    outcomes (rqd_seg_update func) (rqd_seg_query func) ops o = expected op ops a /\
    outcomes rqd_array_update (rqd_array_query func) ops a = expected op ops a.
Proof.
  intros V func op a ops CB Ha F. assert (d : V) by (destruct a; [contradiction|assumption]).
  assert (Hl : 0 < len a) by (destruct a; [contradiction|unfold len; cbn [length]; lia]).
  destruct (st_build_ok func op CB d a Ha) as (t0 & E0 & O0). exists (t0, len a). split; [unfold rqd_seg_new; rewrite E0; destruct (Z.eqb_spec (len a) 0); [lia|reflexivity]|].
  split; [unfold rqd_array_new; destruct (Z.eqb_spec (len a) 0); [lia|reflexivity]|]. clear E0 Ha. split.
  - revert a t0 O0 F Hl. induction ops as [|[i v|l r] ops IH]; intros a t O F Hl; [reflexivity| |]; inversion F as [|? ? Hi F']; subst; cbn [outcomes expected].
    + unfold rqd_seg_update at 1. cbn [fst snd]. destruct (Z.leb_spec (- len a) i), (Z.ltb_spec i (len a)); cbn [andb].
      * destruct (st_update_ok func op CB d a t i v O ltac:(lia)) as (t1 & -> & O1). cbn [bind]. f_equal. assert (L : len (py_set a i v) = len a) by (unfold py_set; apply len_upd).
        rewrite <- L. apply IH; [exact O1|rewrite L; exact F'|lia].
      * rewrite (st_update_err func op a t i v O) by lia. cbn [bind]. f_equal. apply IH; auto.
      * rewrite (st_update_err func op a t i v O) by lia. cbn [bind]. f_equal. apply IH; auto.
      * lia.
    + f_equal; [|apply IH; auto]. unfold rqd_seg_query. cbn [fst snd].
      destruct (Z.ltb_spec r l); [rewrite check_err by lia; destruct (Z.ltb_spec r l); [reflexivity|lia]|].
      destruct (Z.ltb_spec l 0); [rewrite check_err by lia; destruct (Z.ltb_spec r l); [lia|reflexivity]|].
      destruct (Z.leb_spec (len a) r); [rewrite check_err by lia; destruct (Z.ltb_spec r l); [lia|reflexivity]|]. cbn [orb].
      rewrite check_ok by lia. cbn [bind]. rewrite (st_query_ok func op CB a t l r O). unfold rf. do 3 f_equal; lia.
  - clear t0 O0. revert a F Hl. induction ops as [|[i v|l r] ops IH]; intros a F Hl; [reflexivity| |]; inversion F as [|? ? Hi F']; subst; cbn [outcomes expected].
    + unfold rqd_array_update at 1. unfold aset. destruct (Z.leb_spec (- len a) i), (Z.ltb_spec i (len a)); cbn [andb].
      * assert (L : len (py_set a i v) = len a) by (unfold py_set; apply len_upd). set (j := if i <? 0 then i + len a else i).
        assert (Hj : 0 <= j < len a) by (unfold j; destruct (Z.ltb_spec i 0); lia). destruct (Z.ltb_spec j 0); [lia|]. destruct (Z.leb_spec (len a) j); [lia|]. cbn [orb].
        f_equal. change (upd a (Z.to_nat j) v) with (py_set a i v). apply IH; [rewrite L; exact F'|lia].
      * set (j := if i <? 0 then i + len a else i). assert (Hj : len a <= j) by (unfold j; destruct (Z.ltb_spec i 0); lia). destruct (Z.ltb_spec j 0); [lia|]. destruct (Z.leb_spec (len a) j); [|lia]. cbn [orb].
        f_equal. apply IH; auto.
      * set (j := if i <? 0 then i + len a else i). assert (Hj : j < 0) by (unfold j; destruct (Z.ltb_spec i 0); lia). destruct (Z.ltb_spec j 0); [|lia]. cbn [orb].
        f_equal. apply IH; auto.
      * lia.
    + f_equal; [|apply IH; auto]. unfold rqd_array_query.
      destruct (Z.ltb_spec r l); [unfold rqs_array_query; rewrite check_err by lia; destruct (Z.ltb_spec r l); [reflexivity|lia]|].
      destruct (Z.ltb_spec l 0); [unfold rqs_array_query; rewrite check_err by lia; destruct (Z.ltb_spec r l); [lia|reflexivity]|].
      destruct (Z.leb_spec (len a) r); [unfold rqs_array_query; rewrite check_err by lia; destruct (Z.ltb_spec r l); [lia|reflexivity]|]. cbn [orb].
      rewrite (array_query_ok func op CB a l r) by lia. reflexivity.
Qed.
Print Assumptions C49_dynamic_back_ends_agree_partial.
Example C49_case : exists o, rqd_seg_new py_summation [4; 6; 1] = Ret o /\
  outcomes (rqd_seg_update py_summation) (rqd_seg_query py_summation) [RUpdate 1 5; RUpdate 7 0; RQuery 0 1; RQuery 2 1; RQuery 0 3; RUpdate (-1) 8; RQuery 1 2] o =
    [Ret None; Raise IndexError; Ret (Some 9); Raise ValueError; Raise IndexError; Ret None; Ret (Some 13)].
Proof. eexists. split; vm_compute; reflexivity. Qed.
(** the static back ends, on ints: same construction errors, same answers, same exceptions *)
Theorem C49_static_back_ends_agree : forall (V : Type) (func : combiner V) (op : V -> V -> V) (int_of : V -> V) (a : list V),
  combines func op -> (forall v, int_of v = v) ->
  (a = [] -> rqs_sparse_new func int_of a = Raise ValueError /\ rqs_array_new a = Raise ValueError) /\
  (a <> [] -> exists o, rqs_sparse_new func int_of a = Ret o /\ rqs_array_new a = Ret a /\
     forall l r, rqs_sparse_query func o l r = rqs_array_query func a l r /\ rqs_array_query func a l r =
       if r <? l then Raise ValueError else if (l <? 0) || (len a <=? r) then Raise IndexError else Ret (fold1 op (range_of a l r))).
Proof.
  intros V func op int_of a CB Hc. split; [intros ->; split; reflexivity|]. intros Ha. assert (Hl : 0 < len a) by (destruct a; [contradiction|unfold len; cbn [length]; lia]).
  assert (d : V) by (destruct a; [contradiction|assumption]).
  destruct (C47_sparse_table_exact_partial V func op int_of a CB Hc Ha) as (t & _ & E & Q). exists (t, len a). split; [exact E|].
  split; [unfold rqs_array_new; destruct (Z.eqb_spec (len a) 0); [lia|reflexivity]|]. intros l r. unfold rqs_sparse_query. cbn [fst snd].
  destruct (Z.ltb_spec r l); [unfold rqs_array_query; rewrite check_err by lia; destruct (Z.ltb_spec r l); [split; reflexivity|lia]|].
  destruct (Z.ltb_spec l 0); [unfold rqs_array_query; rewrite check_err by lia; destruct (Z.ltb_spec r l); [lia|split; reflexivity]|].
  destruct (Z.leb_spec (len a) r); [unfold rqs_array_query; rewrite check_err by lia; destruct (Z.ltb_spec r l); [lia|split; reflexivity]|]. cbn [orb].
  destruct (Q l r) as (Q1 & Q2 & Q3); [lia|lia|lia|]. rewrite check_ok by lia. cbn [bind]. rewrite Q1, Q3. auto.
Qed.
Print Assumptions C49_static_back_ends_agree.
(** an update at index -2 reaches different elements in the two dynamic back ends *)
Theorem C49_negative_update_refuted :
  (o <- rqd_seg_new py_summation [1; 2; 3] ;; o <- rqd_seg_update py_summation o (-2) 9 ;; rqd_seg_query py_summation o 1 1) = Ret (Some 2) /\
  (o <- rqd_array_new [1; 2; 3] ;; o <- rqd_array_update o (-2) 9 ;; rqd_array_query py_summation o 1 1) = Ret (Some 9).
Proof. vm_compute. auto. Qed.
Print Assumptions C49_negative_update_refuted.

(** C50. Coordinates are multiples of 1/one. The set returned is exactly the set of the stored segments containing the point. *)
Theorem C50_stabbing_exact_partial : forall (one : Z) (segs : list (Z * Z)) (x : Z), 0 < one -> segs <> [] ->
  exists ids, stabbing one segs x = Ret ids /\ forall k, In k ids <-> exists s, nth_error segs k = Some s /\ in_segment s x.
Proof. exact stabbing_ok. Qed.
Print Assumptions C50_stabbing_exact_partial.
Example C50_case : (ids <- stabbing 1 [(1, 4); (6, 2); (9, 9); (4, 4)] 4 ;; Ret (nodup Nat.eq_dec ids)) = Ret [1%nat; 0%nat; 3%nat] \/
  (ids <- stabbing 1 [(1, 4); (6, 2); (9, 9); (4, 4)] 4 ;; Ret (nodup Nat.eq_dec ids)) = Ret [3%nat; 1%nat; 0%nat].
Proof. vm_compute. auto. Qed.
(** with no segment at all, the query raises instead of returning the empty set *)
Theorem C50_no_segments_refuted : forall one x, stabbing one [] x = Raise IndexError.
Proof. exact stabbing_empty. Qed.
Print Assumptions C50_no_segments_refuted.
