(** The C++ single-precision quotient: the lemmas of FloatProofs*.v for binary32. *)
From Coq Require Import Floats.SpecFloat Zpower.
From Verif Require Import Base ArraysModel ArraysProofs FloatModel FloatModel2 FloatProofs FloatProofs2 FloatProofs3.

Definition finish_1 (x : shr_record) (e : Z) : spec_float := match rne x with Zpos m => if Zpos m =? 2 ^ 24 then S754_finite false (2 ^ 23)%positive (e + 1) else S754_finite false m e | _ => S754_nan end.

Lemma aux_ok_1 x m0 lx ex : -149 <= ex <= 100 -> shr_record_of_loc m0 lx = x -> shr_m x = m0 -> 2 ^ 23 <= m0 < 2 ^ 24 -> (rne x = m0 \/ rne x = m0 + 1) -> binary_round_aux 24 128 false m0 ex lx = finish_1 x ex.
Proof.
  intros He Ex Em Hm Hr. unfold binary_round_aux. unfold shr_fexp at 1. rewrite (digits_unique m0 23) by lia. unfold fexp at 1, emin. replace (Z.max (23 + 1 + ex - 24) (3 - 128 - 24) - ex) with 0 by lia. cbn [shr]. rewrite Ex. fold (rne x).
  unfold shr_fexp. assert (D : rne x = 2 ^ 24 \/ 2 ^ 23 <= rne x < 2 ^ 24) by lia. unfold finish_1. destruct D as [D|D].
  - rewrite D. change (Zdigits2 (2 ^ 24)) with 25. unfold fexp, emin. replace (Z.max (25 + ex - 24) (3 - 128 - 24) - ex) with 1 by lia. cbn [shr shr_record_of_loc]. change (SpecFloat.iter_pos shr_1 1 _) with (Build_shr_record (2 ^ 23) false false). cbn [shr_m]. change (2 ^ 23) with (Z.pos (2 ^ 23)). change (2 ^ 24) with (Z.pos (2 ^ 24)). cbn iota. rewrite Z.eqb_refl. destruct (Zle_bool (ex + 1) (128 - 24)) eqn:E; [reflexivity|]. rewrite Z.leb_gt in E. lia.
  - rewrite (digits_unique (rne x) 23) by lia. unfold fexp, emin. replace (Z.max (23 + 1 + ex - 24) (3 - 128 - 24) - ex) with 0 by lia. cbn [shr shr_record_of_loc shr_m]. destruct (rne x) as [|p|p]; [lia| |lia]. destruct (Z.eqb_spec (Z.pos p) (2 ^ 24)); [lia|]. destruct (Zle_bool ex (128 - 24)) eqn:E; [reflexivity|]. rewrite Z.leb_gt in E. lia.
Qed.

Lemma aux_ok2_1 N D lx ex : -149 <= ex <= 90 -> 0 < D -> 0 <= N -> shr_record_of_loc (N / D) lx = recq N D -> 2 ^ 24 <= N / D < 2 ^ 25 -> binary_round_aux 24 128 false (N / D) ex lx = finish_1 (recq N (2 * D)) (ex + 1).
Proof.
  intros He HD HN Ex Hm. assert (Q : N / (2 * D) = (N / D) / 2) by (rewrite Z.mul_comm, <- Z.div_div by lia; reflexivity).
  assert (Hq : 2 ^ 23 <= N / (2 * D) < 2 ^ 24). { rewrite Q. split; [apply Z.div_le_lower_bound; lia|apply Z.div_lt_upper_bound; lia]. }
  assert (RR := rec_round N (2 * D) ltac:(lia) HN). unfold binary_round_aux. unfold shr_fexp at 1. rewrite (digits_unique (N / D) 24) by lia. unfold fexp at 1, emin. replace (Z.max (24 + 1 + ex - 24) (3 - 128 - 24) - ex) with 1 by lia. cbn [shr SpecFloat.iter_pos]. rewrite Ex, shr_rec by assumption.
  set (x := recq N (2 * D)) in *. fold (rne x). replace (shr_fexp 24 128 (rne x) (ex + 1) loc_Exact) with (shr_fexp 24 128 (rne x) (ex + 1) loc_Exact) by reflexivity.
  unfold shr_fexp. assert (Dd : rne x = 2 ^ 24 \/ 2 ^ 23 <= rne x < 2 ^ 24) by lia. unfold finish_1. destruct Dd as [Dd|Dd].
  - rewrite Dd. change (Zdigits2 (2 ^ 24)) with 25. unfold fexp, emin. replace (Z.max (25 + (ex + 1) - 24) (3 - 128 - 24) - (ex + 1)) with 1 by lia. cbn [shr shr_record_of_loc]. change (SpecFloat.iter_pos shr_1 1 _) with (Build_shr_record (2 ^ 23) false false). cbn [shr_m]. change (2 ^ 23) with (Z.pos (2 ^ 23)). change (2 ^ 24) with (Z.pos (2 ^ 24)). cbn iota. rewrite Z.eqb_refl. destruct (Zle_bool (ex + 1 + 1) (128 - 24)) eqn:E; [reflexivity|]. rewrite Z.leb_gt in E. lia.
  - rewrite (digits_unique (rne x) 23) by lia. unfold fexp, emin. replace (Z.max (23 + 1 + (ex + 1) - 24) (3 - 128 - 24) - (ex + 1)) with 0 by lia. cbn [shr shr_record_of_loc shr_m]. destruct (rne x) as [|p|p]; [lia| |lia]. destruct (Z.eqb_spec (Z.pos p) (2 ^ 24)); [lia|]. destruct (Zle_bool (ex + 1) (128 - 24)) eqn:E; [reflexivity|]. rewrite Z.leb_gt in E. lia.
Qed.

Lemma float_ok_1 a : 0 < a < 2 ^ 24 -> exists d m, 1 <= d <= 24 /\ 2 ^ (d - 1) <= a < 2 ^ d /\ Zpos m = a * 2 ^ (24 - d) /\ 2 ^ 23 <= Zpos m < 2 ^ 24 /\ c_float a = S754_finite false m (d - 24).
Proof.
  intros Ha. destruct a as [|p|p]; [lia| |lia]. assert (D := digits_pos p). set (d := Z.pos (digits2_pos p)) in *. assert (D1 : 1 <= d) by (unfold d; lia).
  assert (D2 : d <= 24). { assert (d - 1 < 24); [|lia]. apply (Z.pow_lt_mono_r_iff 2); lia. }
  assert (G : exists m, shl_align p 0 (fexp 24 128 (d + 0)) = (m, d - 24) /\ Zpos m = Zpos p * 2 ^ (24 - d)).
  { unfold shl_align, fexp, emin. replace (Z.max (d + 0 - 24) (3 - 128 - 24)) with (d - 24) by lia. replace (d - 24 - 0) with (d - 24) by lia. destruct (d - 24) as [|k|k] eqn:E; [|lia|].
    - exists p. split; [reflexivity|]. replace (24 - d) with 0 by lia. lia.
    - eexists. split; [reflexivity|]. rewrite shift_pos_correct. rewrite <- Z.pow_pos_fold || idtac. replace (24 - d) with (Z.pos k) by lia. rewrite Z.mul_comm. reflexivity. }
  destruct G as (m & E1 & E2). exists d, m. split; [lia|]. split; [exact D|]. split; [exact E2|].
  assert (B : 2 ^ 23 <= Z.pos m < 2 ^ 24). { rewrite E2. assert (P : 0 < 2 ^ (24 - d)) by (apply Z.pow_pos_nonneg; lia). assert (X1 : 2 ^ 23 = 2 ^ (d - 1) * 2 ^ (24 - d)) by (rewrite <- Z.pow_add_r by lia; f_equal; lia). assert (X2 : 2 ^ 24 = 2 ^ d * 2 ^ (24 - d)) by (rewrite <- Z.pow_add_r by lia; f_equal; lia). rewrite X1, X2. split; [apply Z.mul_le_mono_nonneg_r; lia|apply Z.mul_lt_mono_pos_r; lia]. }
  split; [exact B|]. unfold c_float, binary_normalize, binary_round. fold d. rewrite E1. rewrite (aux_ok_1 (Build_shr_record (Z.pos m) false false)); [|lia|reflexivity|reflexivity|exact B|left; reflexivity].
  unfold finish_1, rne. cbn [shr_m loc_of_shr_record round_nearest_even]. destruct (Z.eqb_spec (Z.pos m) (2 ^ 24)); [lia|reflexivity].
Qed.

Lemma div_ok_1 a b : 0 < a -> a <= b -> b < 2 ^ 24 -> exists j, 23 <= j <= 60 /\ 2 ^ 23 * b <= a * 2 ^ j < 2 ^ 24 * b /\ c_fdiv a b = finish_1 (recq (a * 2 ^ j) b) (- j).
Proof.
  intros Ha Hab Hb. destruct (float_ok_1 a ltac:(lia)) as (da & ma & D1 & D2 & E1 & B1 & F1). destruct (float_ok_1 b ltac:(lia)) as (db & mb & D3 & D4 & E2 & B2 & F2).
  assert (DD : da <= db). { assert (da - 1 < db); [|lia]. apply (Z.pow_lt_mono_r_iff 2); lia. }
  unfold c_fdiv. rewrite F1, F2. cbn [SFdiv xorb]. unfold SFdiv_core_binary. rewrite (digits_unique (Z.pos ma) 23), (digits_unique (Z.pos mb) 23) by lia.
  assert (EE : Z.min (fexp 24 128 (23 + 1 + (da - 24) - (23 + 1 + (db - 24)))) (da - 24 - (db - 24)) = da - db - 24) by (unfold fexp, emin; lia). rewrite EE.
  replace (da - 24 - (db - 24) - (da - db - 24)) with 24 by lia. rewrite Z.shiftl_mul_pow2 by lia. set (N0 := Z.pos ma * 2 ^ 24). set (D0 := Z.pos mb).
  assert (HD0 : 1 < D0) by (unfold D0; lia). assert (HN0 : 0 <= N0) by (unfold N0; lia).
  assert (DE : Z.div_eucl N0 D0 = (N0 / D0, N0 mod D0)) by (unfold Z.div, Z.modulo; destruct (Z.div_eucl N0 D0); reflexivity). rewrite DE.
  assert (RL := rec_loc N0 D0 ltac:(lia) HN0 HD0). set (j0 := 24 + db - da).
  assert (SC : N0 = 2 ^ (24 - db) * (a * 2 ^ j0)). { unfold N0, j0. rewrite E1. transitivity (a * (2 ^ (24 - da) * 2 ^ 24)); [ring|]. transitivity (a * (2 ^ (24 - db) * 2 ^ (24 + db - da))); [|ring]. rewrite <- !Z.pow_add_r by lia. do 2 f_equal. lia. }
  assert (SD : D0 = 2 ^ (24 - db) * b) by (unfold D0; rewrite E2; ring). assert (PC : 0 < 2 ^ (24 - db)) by (apply Z.pow_pos_nonneg; lia).
  assert (Q1 : 2 ^ 23 <= N0 / D0) by (apply Z.div_le_lower_bound; [lia|unfold N0, D0; nia]). assert (Q2 : N0 / D0 < 2 ^ 25) by (apply Z.div_lt_upper_bound; [lia|unfold N0, D0; nia]).
  assert (EN := Z.div_mod N0 D0 ltac:(lia)). assert (BM := Z.mod_pos_bound N0 D0 ltac:(lia)).
  destruct (Z.lt_ge_cases (N0 / D0) (2 ^ 24)) as [L|L].
  - exists j0. split; [unfold j0; lia|]. split; [rewrite SC, SD in EN, BM; clear - EN BM Q1 L SC SD PC; rewrite SC, SD in Q1, L; set (q := _ / _) in *; set (r := _ mod _) in *; nia|].
    rewrite (aux_ok_1 (recq N0 D0)); [|lia|exact RL|reflexivity|lia|apply rec_round; lia]. rewrite SC, SD, rec_scale by lia. f_equal. unfold j0. lia.
  - exists (j0 - 1). split; [unfold j0; lia|]. assert (P2 : a * 2 ^ j0 = 2 * (a * 2 ^ (j0 - 1))). { replace j0 with (Z.succ (j0 - 1)) at 1 by lia. rewrite Z.pow_succ_r by (unfold j0; lia). ring. }
    split. { rewrite SC, SD in EN, BM. rewrite SC, SD in Q2, L. rewrite P2 in EN, BM, Q2, L. set (q := _ / _) in *; set (r := _ mod _) in *. set (X := a * 2 ^ (j0 - 1)) in *. clear - EN BM Q2 L PC. nia. }
    rewrite (aux_ok2_1 N0 D0); [|lia|lia|lia|exact RL|lia]. rewrite SC, SD, P2. replace (2 ^ (24 - db) * (2 * (a * 2 ^ (j0 - 1)))) with (2 * 2 ^ (24 - db) * (a * 2 ^ (j0 - 1))) by ring. replace (2 * (2 ^ (24 - db) * b)) with (2 * 2 ^ (24 - db) * b) by ring. rewrite rec_scale by lia. f_equal. unfold j0. lia.
Qed.

Lemma finish_ok_1 N D e : 0 < D -> 2 ^ 23 * D <= N < 2 ^ 24 * D -> exists m e', finish_1 (recq N D) e = S754_finite false m e' /\ 2 ^ 23 <= Zpos m < 2 ^ 24 /\ e <= e' /\ Zpos m * 2 ^ (e' - e) = rne (recq N D).
Proof.
  intros HD HN. destruct (rec_round N D HD ltac:(lia)) as (_ & R). assert (B : 2 ^ 23 <= N / D < 2 ^ 24) by (split; [apply Z.div_le_lower_bound; lia|apply Z.div_lt_upper_bound; lia]).
  assert (C : rne (recq N D) = 2 ^ 24 \/ 2 ^ 23 <= rne (recq N D) < 2 ^ 24) by lia. unfold finish_1. destruct C as [C|C].
  - rewrite C. change (2 ^ 24) with (Z.pos (2 ^ 24)). cbn iota. rewrite Z.eqb_refl. exists (2 ^ 23)%positive, (e + 1). split; [reflexivity|]. split; [lia|]. split; [lia|]. replace (e + 1 - e) with 1 by lia. reflexivity.
  - destruct (rne (recq N D)) as [|m|m]; [lia| |lia]. exists m, e. destruct (Z.eqb_spec (Z.pos m) (2 ^ 24)); [lia|]. split; [reflexivity|]. split; [exact C|]. split; [lia|]. rewrite Z.sub_diag. lia.
Qed.

Lemma gap_1 a b j p q i K U1 U2 : 0 < a -> 0 < b -> 0 < p -> 0 < q -> p <= q -> b * q <= 2 ^ 23 -> a * q < p * b -> 0 <= j <= K -> 0 <= i <= K ->
  2 ^ 23 * b <= a * 2 ^ j -> 2 ^ 23 * q <= p * 2 ^ i -> 2 * Z.abs (U1 * b - a * 2 ^ j) <= b -> 2 * Z.abs (U2 * q - p * 2 ^ i) <= q -> U1 * 2 ^ (K - j) < U2 * 2 ^ (K - i).
Proof.
  intros Ha Hb Hp Hq Hpq Hbq L Hj Hi B1 B2 R1 R2.
  assert (P1 : 2 ^ K = 2 ^ j * 2 ^ (K - j)) by (rewrite <- Z.pow_add_r by lia; f_equal; lia). assert (P2 : 2 ^ K = 2 ^ i * 2 ^ (K - i)) by (rewrite <- Z.pow_add_r by lia; f_equal; lia).
  set (X := 2 ^ (K - j)) in *. set (Y := 2 ^ (K - i)) in *. assert (HX : 0 < X) by (apply Z.pow_pos_nonneg; lia). assert (HY : 0 < Y) by (apply Z.pow_pos_nonneg; lia). set (J := 2 ^ j) in *. set (I := 2 ^ i) in *. set (W := 2 ^ K) in *. assert (HW : 0 < W) by (apply Z.pow_pos_nonneg; lia).
  assert (C1 : 2 ^ 24 * b * (U1 * X) <= (2 ^ 24 + 1) * a * W).
  { assert (T1 : 2 * (U1 * b) <= 2 * (a * J) + b) by lia. assert (T2 : 2 * (U1 * b) * X <= (2 * (a * J) + b) * X) by (apply Z.mul_le_mono_nonneg_r; lia). assert (T3 : 2 ^ 23 * b * X <= a * J * X) by (apply Z.mul_le_mono_nonneg_r; lia). replace (a * J * X) with (a * W) in T3 by (rewrite P1; ring). replace ((2 * (a * J) + b) * X) with (2 * (a * W) + b * X) in T2 by (rewrite P1; ring).
    replace (2 * (U1 * b) * X) with (2 * (b * (U1 * X))) in T2 by ring. change (2 ^ 24) with (2 * 2 ^ 23). set (Z0 := b * (U1 * X)) in *. replace (2 * 2 ^ 23 * b * (U1 * X)) with (2 ^ 23 * (2 * Z0)) by (unfold Z0; ring). lia. }
  assert (C2 : (2 ^ 24 - 1) * p * W <= 2 ^ 24 * q * (U2 * Y)).
  { assert (T1 : 2 * (p * I) - q <= 2 * (U2 * q)) by lia. assert (T2 : (2 * (p * I) - q) * Y <= 2 * (U2 * q) * Y) by (apply Z.mul_le_mono_nonneg_r; lia). assert (T3 : 2 ^ 23 * q * Y <= p * I * Y) by (apply Z.mul_le_mono_nonneg_r; lia). replace (p * I * Y) with (p * W) in T3 by (rewrite P2; ring). replace ((2 * (p * I) - q) * Y) with (2 * (p * W) - q * Y) in T2 by (rewrite P2; ring).
    replace (2 * (U2 * q) * Y) with (2 * (q * (U2 * Y))) in T2 by ring. change (2 ^ 24) with (2 * 2 ^ 23). set (Z0 := q * (U2 * Y)) in *. replace (2 * 2 ^ 23 * q * (U2 * Y)) with (2 ^ 23 * (2 * Z0)) by (unfold Z0; ring). lia. }
  destruct (Z.lt_ge_cases (U1 * X) (U2 * Y)) as [|G]; [assumption|exfalso]. set (u := U1 * X) in *. set (v := U2 * Y) in *.
  assert (D1 : b * ((2 ^ 24 - 1) * p * W) <= b * (2 ^ 24 * q * v)) by (apply Z.mul_le_mono_nonneg_l; lia). assert (D2 : q * (2 ^ 24 * b * u) <= q * ((2 ^ 24 + 1) * a * W)) by (apply Z.mul_le_mono_nonneg_l; lia).
  assert (D3 : 2 ^ 24 * (b * q) * v <= 2 ^ 24 * (b * q) * u) by (apply Z.mul_le_mono_nonneg_l; [nia|lia]).
  assert (D4 : (2 ^ 24 - 1) * (p * b) * W <= (2 ^ 24 + 1) * (a * q) * W) by lia. apply Z.mul_le_mono_pos_r in D4; [|exact HW].
  assert (D5 : p * b <= q * b) by (apply Z.mul_le_mono_nonneg_r; lia). set (A := a * q) in *. set (P := p * b) in *. lia.
Qed.

Lemma widen_ok m e : -200 <= e <= 200 -> 2 ^ 23 <= Zpos m < 2 ^ 24 -> exists m', c_widen (S754_finite false m e) = S754_finite false m' (e - 29) /\ Zpos m' = Zpos m * 2 ^ 29.
Proof.
  intros He Hm. cbn [c_widen]. unfold binary_normalize, binary_round. assert (D := digits_unique (Zpos m) 23 ltac:(lia) ltac:(lia) Hm). cbn [Zdigits2] in D. rewrite D.
  unfold fexp, emin. replace (Z.max (23 + 1 + e - 53) (3 - 1024 - 53)) with (e - 29) by lia. unfold shl_align. replace (e - 29 - e) with (-29) by lia. exists (shift_pos 29 m).
  assert (EM : Zpos (shift_pos 29 m) = Zpos m * 2 ^ 29) by (rewrite shift_pos_correct, Z.mul_comm; reflexivity). split; [|exact EM].
  rewrite (aux_ok (Build_shr_record (Zpos (shift_pos 29 m)) false false)); [|lia|reflexivity|reflexivity|rewrite EM; lia|left; reflexivity]. unfold finish, rne. cbn [shr_m loc_of_shr_record round_nearest_even]. destruct (Z.eqb_spec (Zpos (shift_pos 29 m)) (2 ^ 53)); [lia|reflexivity].
Qed.
Lemma rne_exact N D c : 0 < D -> 0 <= N -> N = c * D -> rne (recq N D) = c.
Proof. intros HD HN E. destruct (rec_round N D HD HN) as (R & _). set (u := rne (recq N D)) in *. rewrite E in R. replace (u * D - c * D) with ((u - c) * D) in R by ring. rewrite Z.abs_mul, (Z.abs_eq D) in R by lia. assert (Z.abs (u - c) = 0) by nia. lia. Qed.
(** the single-precision test is the test in fractions, unless the quotient equals a load factor whose denominator is no power of two *)
Lemma c_load_exact num size p q : 0 <= num <= size -> 0 < size -> 0 < p <= q -> size * q <= 2 ^ 23 -> (num * q <> p * size \/ exists k, 0 <= k /\ q = 2 ^ k) -> c_load_test num size (py_div p q) = (num * q <? p * size).
Proof.
  intros Hn Hs Hp B HE. assert (Hq : 0 < q) by lia. assert (B1 : size < 2 ^ 24) by nia. assert (B2 : q <= 2 ^ 23) by nia. assert (B3 : q < 2 ^ 53) by lia. unfold c_load_test.
  destruct (div_ok p q ltac:(lia) ltac:(lia) B3) as (i & Hi & Bi & Ei). destruct (finish_ok (p * 2 ^ i) q (- i) Hq Bi) as (m2 & e2 & F2 & M2 & L2 & V2). rewrite Ei, F2.
  destruct (Z.eq_dec num 0) as [->|NZ].
  - destruct (float_ok_1 size ltac:(lia)) as (d & m & _ & _ & _ & _ & E). unfold c_fdiv. change (c_float 0) with (S754_zero false). rewrite E, Z.mul_0_l. destruct (Z.ltb_spec 0 (p * size)); [reflexivity|nia].
  - destruct (div_ok_1 num size ltac:(lia) ltac:(lia) B1) as (j & Hj & Bj & Ej). destruct (finish_ok_1 (num * 2 ^ j) size (- j) Hs Bj) as (m0 & e0 & F1 & M0 & L0 & V0). rewrite Ej, F1.
    assert (E0 : e0 <= 1). { destruct (Z.le_gt_cases e0 1) as [|G]; [assumption|exfalso]. destruct (rec_round (num * 2 ^ j) size Hs ltac:(lia)) as (_ & RR). assert (QB : num * 2 ^ j / size < 2 ^ 24) by (apply Z.div_lt_upper_bound; lia). assert (2 ^ 2 <= 2 ^ (e0 - - j)) by (apply Z.pow_le_mono_r; lia). nia. }
    destruct (widen_ok m0 e0 ltac:(lia) M0) as (m1 & -> & V1). assert (M1 : 2 ^ 52 <= Z.pos m1 < 2 ^ 53) by (rewrite V1; lia).
    rewrite (ltb_norm m1 (e0 - 29) m2 e2 120) by lia. destruct (rec_round (num * 2 ^ j) size Hs ltac:(lia)) as (R1 & _). destruct (rec_round (p * 2 ^ i) q Hq ltac:(lia)) as (R2 & _).
    assert (W1 : Z.pos m1 * 2 ^ (e0 - 29 + 120) = rne (recq (num * 2 ^ j) size) * 2 ^ (120 - j)) by (rewrite <- V0, V1, <- !Z.mul_assoc, <- !Z.pow_add_r by lia; do 2 f_equal; lia).
    assert (W2 : Z.pos m2 * 2 ^ (e2 + 120) = rne (recq (p * 2 ^ i) q) * 2 ^ (120 - i)) by (rewrite <- V2, <- Z.mul_assoc, <- Z.pow_add_r by lia; do 2 f_equal; lia). rewrite W1, W2.
    destruct (Z.lt_trichotomy (num * q) (p * size)) as [L|[E|G]].
    + assert (X := gap_1 num size j p q i 120 _ _ ltac:(lia) ltac:(lia) ltac:(lia) ltac:(lia) ltac:(lia) B L ltac:(lia) ltac:(lia) ltac:(lia) ltac:(lia) R1 R2). apply Z.ltb_lt in X, L. rewrite X, L. reflexivity.
    + destruct HE as [HE|(k & Hk & ->)]; [contradiction|]. assert (KB : k <= 23) by (apply (Z.pow_le_mono_r_iff 2); lia). assert (PK : forall x, k <= x -> 2 ^ x = 2 ^ (x - k) * 2 ^ k) by (intros x Hx; rewrite <- Z.pow_add_r by lia; f_equal; lia).
      assert (U1 : rne (recq (num * 2 ^ j) size) = p * 2 ^ (j - k)). { apply rne_exact; [lia|lia|]. rewrite (PK j) by lia. replace (num * (2 ^ (j - k) * 2 ^ k)) with (num * 2 ^ k * 2 ^ (j - k)) by ring. rewrite E. ring. }
      assert (U2 : rne (recq (p * 2 ^ i) (2 ^ k)) = p * 2 ^ (i - k)) by (apply rne_exact; [lia|lia|]; rewrite (PK i) by lia; ring).
      rewrite U1, U2, E, <- !Z.mul_assoc, <- !Z.pow_add_r by lia. replace (j - k + (120 - j)) with (120 - k) by lia. replace (i - k + (120 - i)) with (120 - k) by lia. rewrite !Z.ltb_irrefl. reflexivity.
    + assert (X := gap_1 p q i num size j 120 _ _ ltac:(lia) ltac:(lia) ltac:(lia) ltac:(lia) ltac:(lia) ltac:(lia) G ltac:(lia) ltac:(lia) ltac:(lia) ltac:(lia) R2 R1). destruct (Z.ltb_spec (num * q) (p * size)); [lia|]. match goal with |- (?x <? ?y) = _ => destruct (Z.ltb_spec x y); [lia|reflexivity] end.
Qed.
