(** C136: the results of the library do not depend on the rounding of its floating-point steps. Floats are those of the standard library's Coq.Floats.SpecFloat
    (binary64); py_float, py_div, py_isqrt and load_test are in FloatModel.v. *)
From Coq Require Import Floats.SpecFloat.
From Verif Require Import Base ArraysModel ArraysProofs SearchModel SortModel SortSpec SortProofs3 RangeModel RangeSpec FenwickProofs SparseProofs FloatModel FloatProofs3 FloatProofs4 FloatProofs5 FloatProofs6.

(** C136. `num/size < load_factor`, with the quotient and the load factor p/q rounded to the nearest float, comes out as for the exact fractions
    while size * q <= 2^52. *)
Theorem C136_load_factor_test_exact : forall num size p q : Z, 0 <= num <= size -> 0 < size -> 0 < p <= q -> size * q <= 2 ^ 52 ->
  load_test num size (py_div p q) = true <-> num * q < p * size.
Proof. intros. rewrite load_exact by assumption. apply Z.ltb_lt. Qed.
Print Assumptions C136_load_factor_test_exact.
Example C136_load_case : py_div 1 4 = S754_finite false 4503599627370496 (-54) /\ py_div 1 10 = S754_finite false 7205759403792794 (-56) /\
  load_test 1 10 (py_div 1 10) = false /\ load_test 99 1000 (py_div 1 10) = true.
Proof. repeat apply conj; vm_compute; reflexivity. Qed.
(** Hence a whole history of a dynamic array is the one of the model that decides with exact fractions (C04, C05), while the array stays below 2^52/ld. *)
Theorem C136_dynamic_array_history_exact : forall (A : Type) (ln ld : Z) (d0 : doda A) (ops : list (doda_op A)), doda_start ln ld d0 ->
  (2 * (d_size d0 + len ops) + 1) * ld <= 2 ^ 52 -> dodaf_run ops d0 = doda_run ops d0.
Proof.
  intros A ln ld d0 ops S B. assert (I := doda_start_inv _ _ _ S). assert (Hl := di_last _ I). assert (AL : 0 <= appends ops <= len ops).
  { unfold appends, len. split; [lia|]. apply inj_le. clear. induction ops as [|o ops IH]; [reflexivity|]. cbn [filter length]. destruct o; cbn [length]; lia. }
  assert (E : d_ld d0 = ld) by (destruct S as (_ & _ & [(n & _ & ->)|(l & ->)]); reflexivity). rewrite <- E in B.
  apply (run_same ops (d_size d0 + len ops)); [exact I|lia|lia|exact B].
Qed.
Print Assumptions C136_dynamic_array_history_exact.
Example C136_history_case : exists d : doda Z, doda_start 1 4 (doda_new_size 2 1 4 : doda Z) /\
  dodaf_run [DAppend 1; DAppend 2; DAppend 3; DDelete 0; DDelete 1] (doda_new_size 2 1 4) = Ret d /\ content (d_data d) = [3].
Proof. eexists. split; [split; [lia|]; split; [lia|]; left; exists 2; split; [lia|reflexivity]|]. split; vm_compute; reflexivity. Qed.

(** C136. int(sqrt(n)) is the integer square root of n < 2^52, so jump_search takes the steps of the model of C31. *)
Theorem C136_int_sqrt_exact : forall n : Z, 0 <= n < 2 ^ 52 -> 0 <= py_isqrt n /\ py_isqrt n * py_isqrt n <= n < (py_isqrt n + 1) * (py_isqrt n + 1).
Proof. intros n Hn. rewrite isqrt_exact by exact Hn. split; [apply Z.sqrt_nonneg|]. apply Z.sqrt_spec. lia. Qed.
Print Assumptions C136_int_sqrt_exact.
Example C136_sqrt_case : py_isqrt (67108863 * 67108863) = 67108863 /\ py_isqrt (67108863 * 67108863 - 1) = 67108862.
Proof. split; vm_compute; reflexivity. Qed.
Theorem C136_jump_search_exact : forall (A : Type) (eqb comp : A -> A -> bool) (a : list A) (v : A) (s e : Z), e - s + 1 < 2 ^ 52 ->
  jump_search_f eqb comp a v s e = jump_search eqb comp a v s e.
Proof.
  intros A eqb comp a v s e H. unfold jump_search_f, jump_search. destruct (Z.ltb_spec (e - s + 1) 0); [reflexivity|]. rewrite isqrt_exact by lia. reflexivity.
Qed.
Print Assumptions C136_jump_search_exact.
Example C136_jump_case : jump_search_f Z.eqb Z.ltb [1; 3; 5; 7; 9; 11; 13] 11 0 6 = Ret (Some 5).
Proof. vm_compute. reflexivity. Qed.
(** At 2^54 - 1 the float is already 2^54 and the root comes out as 2^27. *)
Theorem C136_int_sqrt_large_refuted : py_isqrt (2 ^ 54 - 1) = 2 ^ 27 /\ 2 ^ 54 - 1 < 2 ^ 27 * 2 ^ 27.
Proof. split; vm_compute; reflexivity. Qed.
Print Assumptions C136_int_sqrt_large_refuted.

(** C136. merge_sort_parallel sorts, stably, whatever floor(log(n, 2)) comes out as, if that is at least floor(log2(n - 1)): a value that is one too large
    (as for n = 2^48 - 1), or one too small for a power of two, does no harm. *)
Theorem C136_merge_sort_any_log : forall (A : Type) (comp : A -> A -> bool) (le : A -> A -> Prop) (lg : Z -> Z) (num_threads : Z) (a : list (option A)) (s e : Z),
  decides comp le -> 0 < num_threads -> 0 <= s -> s <= e -> e < len a -> -1 <= lg (e - s + 1) -> e - s + 1 <= 2 ^ (lg (e - s + 1) + 1) ->
  exists b, merge_sort_lg comp lg num_threads a s e = Ret b /\ sorts le a s e b /\ ((forall x y, le x y -> comp x y = true) -> stable comp a b).
Proof.
  intros A comp le lg nt a s e D Hnt Hs Hse He Hl Hp. apply wp_ex. unfold merge_sort_lg. destruct (Z.leb_spec (e - s + 1) 0); [lia|]. destruct (Z.leb_spec nt 0); [lia|].
  apply (rounds_ok comp le D); auto. lia.
Qed.
Print Assumptions C136_merge_sort_any_log.
Example C136_merge_case : merge_sort_lg Z.leb (fun n => Z.log2 n + 1) 3 [Some 4; Some 1; Some 3; Some 2] 0 3 = Ret [Some 1; Some 2; Some 3; Some 4] /\
  merge_sort_lg Z.leb (fun n => Z.log2 n - 1) 3 [Some 4; Some 1; Some 3; Some 2] 0 3 = Ret [Some 1; Some 2; Some 3; Some 4] /\ 4 <= 2 ^ (Z.log2 4 - 1 + 1).
Proof. split; [vm_compute; reflexivity|]. split; [vm_compute; reflexivity|]. vm_compute. discriminate. Qed.

(** C136. A sparse table answers exactly whatever int(math.log2(n)) comes out as, if that is never less than the exact value. *)
Theorem C136_sparse_table_any_log : forall (V : Type) (func : combiner V) (op : V -> V -> V) (int_of : V -> V) (lg : Z -> Z) (a : list V),
  combines func op -> (forall v, int_of v = v) -> a <> [] -> (forall n, 0 < n -> Z.log2 n <= lg n) ->
  exists t, sparse_new_lg func int_of lg a = Ret t /\
    forall l r, 0 <= l -> l <= r -> r < len a -> sparse_query_lg func lg t l r = Ret (fold1 op (range_of a l r)).
Proof.
  intros V func op int_of lg a CB Hc Ha HL. assert (d : V) by (destruct a; [contradiction|assumption]). assert (Hl : 0 < len a) by (destruct a; [contradiction|unfold len; cbn [length]; lia]).
  pose proof (sparse_new_okL func op CB int_of a d (fun l r v _ => Hc v) lg (HL _ Hl) Ha) as W. apply wp_ex in W. destruct W as (t & E & O). exists t. split; [exact E|].
  intros l r H1 H2 H3. apply (sparse_query_okL func op CB a lg (HL _ Hl) t l r O); try lia. pose proof (HL (r - l + 1)). lia.
Qed.
Print Assumptions C136_sparse_table_any_log.
Example C136_sparse_case : (t <- sparse_new_lg py_minimum (fun v => v) (fun n => Z.log2 n + 1) [4; 6; 1; 5; 7; 3; 8] ;; sparse_query_lg py_minimum (fun n => Z.log2 n + 1) t 3 6) = Ret (Some 3).
Proof. vm_compute. reflexivity. Qed.
(** A value that is too small makes the constructor fail: for three cells and a logarithm of 0 the table has one column and the second is written. *)
Theorem C136_sparse_table_low_log_refuted : sparse_new_lg py_minimum (fun v : Z => v) (fun n => Z.log2 n - 1) [4; 6; 1] = Raise IndexError.
Proof. vm_compute. reflexivity. Qed.
Print Assumptions C136_sparse_table_low_log_refuted.
