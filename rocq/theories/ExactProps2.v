(** Exact answers where C27, C28, C33, C86 and C104 are only partly true of the code. Specifications: ExactSpec.v, SortSpec.v. *)
From Verif Require Import Base ArraysProofs SortModel SortSpec SortProofs SortProofs4 SortModel2 DistProofs SortProps SearchModel CppModel CppSpec CppProps RangeModel RangeSpec FenwickProofs RangeProps ExactSpec ExactProofs.

(** C33. With empty cells too: True exactly when no filled cell whose left neighbour is filled is comp-related to it. *)
Theorem C33_is_ordered_exact_partial : forall (A : Type) (comp : A -> A -> bool) (a : list (option A)) (s e : Z), 0 <= s -> e < len a ->
  exists b, is_ordered comp a s e = Ret b /\
    (b = true <-> forall i u v, s < i <= e -> zn None a i = Some u -> zn None a (i - 1) = Some v -> comp u v = false).
Proof. intros A comp a s e H1 H2. apply wp_ex. exact (ordered_any comp a s e H1 H2). Qed.
Print Assumptions C33_is_ordered_exact_partial.
Example C33_exact_case : is_ordered Z.ltb [Some 3; None; Some 1; Some 2; Some 0] 0 3 = Ret true /\ is_ordered Z.ltb [Some 3; None; Some 1; Some 2; Some 0] 0 4 = Ret false.
Proof. split; vm_compute; reflexivity. Qed.
(** C104. The same for the C++ backend. *)
Theorem C104_cpp_is_ordered_exact_partial : forall (A : Type) (le : A -> A -> bool) (comp : option (A -> A -> pyobj)) (a : list (option A)) (start end_ : option Z),
  bool_valued comp -> len a < 2 ^ 63 -> 0 <= range_start start < 2 ^ 63 -> (end_ = None \/ 0 <= range_end a end_) -> range_end a end_ < len a ->
  exists b, cpp_is_ordered le a start end_ comp = Ret b /\
    (b = true <-> forall i u v, range_start start < i <= range_end a end_ -> zn None a i = Some u -> zn None a (i - 1) = Some v -> order_of le comp u v = false).
Proof. intros A le comp a start end_ HB Hl Hs He He2. rewrite C104_cpp_is_ordered_python_partial by assumption. apply wp_ex. apply ordered_any; [lia|exact He2]. Qed.
Print Assumptions C104_cpp_is_ordered_exact_partial.
Example C104_exact_case : cpp_is_ordered Z.leb [Some 3; None; Some 1; Some 2; Some 0] None (Some 3) None = Ret true /\ cpp_is_ordered Z.leb [Some 3; None; Some 1; Some 2; Some 0] None None None = Ret false /\
  bool_valued (A := Z) None.
Proof. split; [vm_compute; reflexivity|]. split; [vm_compute; reflexivity|]. exact I. Qed.

(** C27. Outside its domain: a range without a positive number is left as it is (empty cells stay where they are), and an empty
    first cell is a TypeError. *)
Theorem C27_radix_sort_no_positive_partial : forall (a : list (option Z)) (s e : Z), 0 <= s -> s <= e -> e < len a ->
  (zn None a s <> None -> (forall i v, s <= i <= e -> zn None a i = Some v -> v <= 0) -> radix_sort a s e = Ret a) /\
  (zn None a s = None -> radix_sort a s e = Raise TypeError).
Proof. intros a s e H1 H2 H3. split; [apply radix_nonpos; assumption|apply radix_none_first; assumption]. Qed.
Print Assumptions C27_radix_sort_no_positive_partial.
Example C27_exact_case : radix_sort [Some 0; None; Some (-3); Some 0] 0 3 = Ret [Some 0; None; Some (-3); Some 0] /\ radix_sort [None; Some 2] 0 1 = Raise TypeError.
Proof. split; vm_compute; reflexivity. Qed.

(** C28. Non-negative numbers: bucket_sort fails exactly when it does not sort. With mx the largest of the [count] numbers of the
    range it sorts iff count <= mx, mx // (mx // count) = count and count <= 256; ZeroDivisionError if mx < count; otherwise IndexError;
    and without any number a TypeError. *)
Theorem C28_bucket_sort_exact_partial : forall (a : list (option Z)) (s e : Z), 0 <= s -> s <= e -> e < len a ->
  let vals := content (firstn (Z.to_nat (e + 1 - s)) (skipn (Z.to_nat s) a)) in let count := len vals in
  (vals = [] -> bucket_sort a s e = Raise TypeError) /\
  forall mx, In mx vals -> (forall v, In v vals -> 0 <= v <= mx) ->
    (mx < count -> bucket_sort a s e = Raise ZeroDivisionError) /\
    (count <= mx -> count <= 256 -> mx / (mx / count) = count -> exists b, bucket_sort a s e = Ret b /\ sorts Z.le a s e b) /\
    (count <= mx -> 256 < count \/ mx / (mx / count) <> count -> bucket_sort a s e = Raise IndexError).
Proof.
  intros a s e H1 H2 H3. change (firstn (Z.to_nat (e + 1 - s)) (skipn (Z.to_nat s) a)) with (seg a s e). intros vals count. split; [apply bucket_empty; assumption|]. intros mx Hm Hv. destruct (bucket_bad a s e mx H1 H2 H3 Hm Hv) as [B1 B2]. split; [exact B1|]. split.
  - intros Hc H256 Hq. apply (C28_bucket_sort_sorts_partial a s e mx count); auto; lia.
  - intros Hc Hq. apply B2; [exact Hc|]. fold vals count.
    assert (L1 : 1 <= count) by (unfold count; destruct vals; [destruct Hm|unfold len; cbn [length]; lia]).
    assert (Hsz : 1 <= mx / count) by (apply Z.div_le_lower_bound; lia).
    assert (Hge : count <= mx / (mx / count)) by (apply Z.div_le_lower_bound; [lia|]; pose proof (Z.mul_div_le mx count ltac:(lia)); lia). lia.
Qed.
Print Assumptions C28_bucket_sort_exact_partial.
Example C28_exact_case : content [Some 1; None; Some 2; Some 5] = [1; 2; 5] /\ bucket_sort [Some 1; None; Some 2; Some 5] 0 3 = Raise IndexError /\
  bucket_sort [Some 1; None; Some 2; Some 1] 0 3 = Raise ZeroDivisionError /\ bucket_sort [Some 4; None; Some 2; Some 1] 0 3 = Raise IndexError /\
  bucket_sort [Some 3; None; Some 2; Some 1] 0 3 = Ret [Some 1; Some 2; Some 3; None].
Proof. repeat apply conj; vm_compute; reflexivity. Qed.

(** C86. After every history of in-range updates, for all indices: get_prefix_sum(r) answers [prefix_answer] of the current values and
    get_sum(l, r) the difference (or only the first when l < 1). So get_sum never raises for an index below 0 or equal to len, and at
    r = len it leaves out the last low_bit(len + 1) - 1 values. *)
Theorem C86_fenwick_get_sum_exact_partial : forall (a : list Z) (us : list (Z * Z)), a <> [] -> Forall (fun u => 0 <= fst u < len a) us ->
  exists b, (b <- fw_new a ;; fw_run b us) = Ret b /\ let c := assigns a us in
    (forall r, fw_prefix b r = prefix_answer c r) /\
    (forall l r, fw_sum b l r = if 1 <=? l then x <- prefix_answer c r ;; y <- prefix_answer c (l - 1) ;; Ret (x - y) else prefix_answer c r).
Proof.
  intros a us Ha F. pose proof (new_ok a Ha) as W. apply wp_ex in W. destruct W as (b0 & E0 & O0 & A0).
  destruct (fw_run_ok us b0 O0) as (b & E & O & A); [rewrite A0; exact F|]. exists b. rewrite E0. cbn [bind]. split; [exact E|]. rewrite A0 in A. cbv zeta. rewrite <- A.
  assert (S : spare b).
  { eapply (forM_keeps spare); [|exact E|exact (new_spare a b0 E0)]. intros u s t Hu Es. eapply update_spare; [|exact Es]. rewrite Forall_forall in F. specialize (F u Hu). lia. }
  assert (P : forall r, fw_prefix b r = prefix_answer (fw_array b) r) by (intros r; apply prefix_exact; assumption).
  split; [exact P|]. intros l r. unfold fw_sum. rewrite !P. reflexivity.
Qed.
Print Assumptions C86_fenwick_get_sum_exact_partial.
Example C86_exact_case : prefix_answer [1; 2; 3; 4] 4 = Ret 10 /\ prefix_answer [1; 2; 3] 3 = Ret 0 /\ prefix_answer [1; 2; 3; 4; 5] 5 = Ret 10 /\ prefix_answer [1; 2; 3] (-7) = Ret 0 /\ prefix_answer [1; 2; 3] 4 = Raise IndexError.
Proof. repeat apply conj; vm_compute; reflexivity. Qed.
