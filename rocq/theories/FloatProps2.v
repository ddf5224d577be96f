(** C114 with the float of the C++ backend: `(float) num / (float) size < load_factor` divides in single precision (FloatModel2.v). *)
From Coq Require Import Floats.SpecFloat.
From Verif Require Import Base ArraysModel ArraysProofs CppArrayModel CppArrayProofs FloatModel FloatProofs4 FloatModel2 FloatSingle FloatSingle2.

(** C114. The single-precision test comes out as for the exact fractions while size * q <= 2^23, unless num/size is the load factor p/q itself and q is not
    a power of two (see the refutation below). *)
Theorem C114_cpp_float_test_partial : forall num size p q : Z, 0 <= num <= size -> 0 < size -> 0 < p <= q -> size * q <= 2 ^ 23 ->
  num * q <> p * size \/ (exists k, 0 <= k /\ q = 2 ^ k) ->
  c_load_test num size (py_div p q) = true <-> num * q < p * size.
Proof. intros. rewrite c_load_exact by assumption. apply Z.ltb_lt. Qed.
Print Assumptions C114_cpp_float_test_partial.
Example C114_float_test_case : c_load_test 1 4 (py_div 1 4) = false /\ c_load_test 1 5 (py_div 1 4) = true /\ c_load_test 3 10 (py_div 1 3) = true /\ 10 * 3 <= 2 ^ 23 /\ 3 * 3 <> 1 * 10.
Proof. split; [vm_compute; reflexivity|]. split; [vm_compute; reflexivity|]. split; [vm_compute; reflexivity|]. split; [vm_compute; discriminate|discriminate]. Qed.

(** C114. Hence with a load factor ln/ld whose denominator is a power of two (the default is 0.25) the C++ array that divides in single precision goes through
    the states of the Python array, as in C114_cpp_dynamic_array, while it stays below 2^23/ld cells. *)
Theorem C114_cpp_float_history_partial : forall (A : Type) (ln ld : Z) (data : list (option A)) (d0 : doda A) (ops : list (doda_op A)),
  0 < ln -> 2 * ln <= ld -> (exists k, 0 <= k /\ ld = 2 ^ k) ->
  (exists l, data = map Some l /\ d0 = doda_new_list l ln ld) \/ (exists n, 0 <= n /\ data = repeat None (Z.to_nat n) /\ d0 = doda_new_size n ln ld) ->
  (2 * (len data + len ops) + 1) * ld <= 2 ^ 23 ->
  exists d c, doda_run ops d0 = Ret d /\
    cppf_run (map (fun o => match o with DAppend x => CDAppend (Some x) | DDelete i => CDDelete i end) ops) (cpp_doda_new data ln ld) = Ret c /\
    c_buf c = d_data d /\ c_num c = d_num d /\ c_last c = d_last d /\ c_size c = d_size d /\ c_size c = len (c_buf c) /\ c_asize c = len (c_buf c) /\
    (forall i, cpp_get c i = doda_get d i).
Proof.
  intros A ln ld data d0 ops H1 H2 P H B.
  assert (X : doda_inv d0 /\ cpp_doda_new data ln ld = emb d0 /\ d_ld d0 = ld /\ len data = d_size d0).
  { destruct H as [(l & -> & ->)|(n & Hn & -> & ->)]; (split; [eapply doda_start_inv; split; [exact H1|split; [exact H2|]]|]);
      [right; eauto|split; [apply new_eq_list|]|left; eauto|split; [apply new_eq_size; exact Hn|]]; (split; [reflexivity|]); unfold len; rewrite ?map_length, ?repeat_length; cbn; unfold len; try reflexivity; lia. }
  destruct X as (I & E & El & En). rewrite E. assert (AL : 0 <= appends ops <= len ops).
  { unfold appends, len. split; [lia|]. apply inj_le. clear. induction ops as [|o ops IH]; [reflexivity|]. cbn [filter length]. destruct o; cbn [length]; lia. }
  assert (Hl := di_last _ I). rewrite En in B. rewrite <- El in B, P.
  pose proof (crun_same ops (d_size d0 + len ops) d0 I P ltac:(lia) ltac:(lia) B) as CR.
  destruct (run_eq ops d0 I) as (d & Ed & Id & Ec). exists d, (emb d). split; [exact Ed|]. split; [etransitivity; [exact CR|exact Ec]|].
  cbn [emb c_buf c_num c_last c_size c_asize]. rewrite (di_size _ Id). repeat (split; [reflexivity|]). intros i; apply get_eq; exact Id.
Qed.
Print Assumptions C114_cpp_float_history_partial.
Example C114_float_case : exists c, cppf_run [CDAppend (Some 1); CDAppend (Some 2); CDAppend (Some 3); CDAppend (Some 4); CDDelete 0; CDDelete 1; CDDelete 2] (cpp_doda_new [] 1 4) = Ret c /\
  c_buf c = [Some 4; None; None] /\ c_size c = 3 /\ (2 * (0 + 7) + 1) * 4 <= 2 ^ 23 /\ 4 = 2 ^ 2.
Proof. eexists. split; [vm_compute; reflexivity|]. split; [reflexivity|]. split; [reflexivity|]. split; [vm_compute; discriminate|reflexivity]. Qed.

(** With load_factor = 0.45 an array of 20 cells and 9 elements is compacted by the C++ backend, because 9.0f/20.0f < 0.45, and kept by Python: the same
    calls leave arrays of different sizes. *)
Theorem C114_cpp_float_load_refuted : c_load_test 9 20 (py_div 9 20) = true /\ load_test 9 20 (py_div 9 20) = false /\
  exists d c, dodaf_run (map DDelete (zrange 0 11)) (doda_new_list (zrange 0 20) 9 20) = Ret d /\
    cppf_run (map CDDelete (zrange 0 11)) (cpp_doda_new (map Some (zrange 0 20)) 9 20) = Ret c /\
    d_size d = 20 /\ doda_get d 11 = Ret (Some 11) /\ c_size c = 19 /\ cpp_get c 11 = Ret None /\ cpp_get c 0 = Ret (Some 11).
Proof.
  split; [vm_compute; reflexivity|]. split; [vm_compute; reflexivity|]. eexists. eexists. split; [vm_compute; reflexivity|]. split; [vm_compute; reflexivity|].
  repeat apply conj; vm_compute; reflexivity.
Qed.
Print Assumptions C114_cpp_float_load_refuted.
