(** Quotients of ints in floating point. *)
From Coq Require Import Floats.SpecFloat Zpower.
From Verif Require Import Base ArraysModel FloatModel FloatProofs.

Lemma float_ok a : 0 < a < 2 ^ 53 -> exists d m, 1 <= d <= 53 /\ 2 ^ (d - 1) <= a < 2 ^ d /\ Zpos m = a * 2 ^ (53 - d) /\ 2 ^ 52 <= Zpos m < 2 ^ 53 /\ py_float a = S754_finite false m (d - 53).
Proof.
  intros Ha. destruct a as [|p|p]; [lia| |lia]. assert (D := digits_pos p). set (d := Z.pos (digits2_pos p)) in *. assert (D1 : 1 <= d) by (unfold d; lia).
  assert (D2 : d <= 53). { assert (d - 1 < 53); [|lia]. apply (Z.pow_lt_mono_r_iff 2); lia. }
  assert (G : exists m, shl_align p 0 (fexp 53 1024 (d + 0)) = (m, d - 53) /\ Zpos m = Zpos p * 2 ^ (53 - d)).
  { unfold shl_align, fexp, emin. replace (Z.max (d + 0 - 53) (3 - 1024 - 53)) with (d - 53) by lia. replace (d - 53 - 0) with (d - 53) by lia. destruct (d - 53) as [|k|k] eqn:E; [|lia|].
    - exists p. split; [reflexivity|]. replace (53 - d) with 0 by lia. lia.
    - eexists. split; [reflexivity|]. rewrite shift_pos_correct. rewrite <- Z.pow_pos_fold || idtac. replace (53 - d) with (Z.pos k) by lia. rewrite Z.mul_comm. reflexivity. }
  destruct G as (m & E1 & E2). exists d, m. split; [lia|]. split; [exact D|]. split; [exact E2|].
  assert (B : 2 ^ 52 <= Z.pos m < 2 ^ 53). { rewrite E2. assert (P : 0 < 2 ^ (53 - d)) by (apply Z.pow_pos_nonneg; lia). assert (X1 : 2 ^ 52 = 2 ^ (d - 1) * 2 ^ (53 - d)) by (rewrite <- Z.pow_add_r by lia; f_equal; lia). assert (X2 : 2 ^ 53 = 2 ^ d * 2 ^ (53 - d)) by (rewrite <- Z.pow_add_r by lia; f_equal; lia). rewrite X1, X2. split; [apply Z.mul_le_mono_nonneg_r; lia|apply Z.mul_lt_mono_pos_r; lia]. }
  split; [exact B|]. unfold py_float, binary_normalize, binary_round. fold d. rewrite E1. rewrite (aux_ok (Build_shr_record (Z.pos m) false false)); [|lia|reflexivity|reflexivity|exact B|left; reflexivity].
  unfold finish, rne. cbn [shr_m loc_of_shr_record round_nearest_even]. destruct (Z.eqb_spec (Z.pos m) (2 ^ 53)); [lia|reflexivity].
Qed.
Lemma rec_scale c N D : 0 < c -> 0 < D -> recq (c * N) (c * D) = recq N D.
Proof.
  intros Hc HD. unfold recq. rewrite Z.div_mul_cancel_l by lia. rewrite Z.mul_mod_distr_l by lia. replace (2 * (c * N)) with (c * (2 * N)) by lia. rewrite Z.mul_mod_distr_l by lia. f_equal.
  - destruct (Z.leb_spec (c * D) (2 * (c * (N mod D)))), (Z.leb_spec D (2 * (N mod D))); try reflexivity; nia.
  - destruct (Z.eqb_spec (c * ((2 * N) mod D)) 0), (Z.eqb_spec ((2 * N) mod D) 0); try reflexivity; nia.
Qed.
Lemma div_ok a b : 0 < a -> a <= b -> b < 2 ^ 53 -> exists j, 52 <= j <= 120 /\ 2 ^ 52 * b <= a * 2 ^ j < 2 ^ 53 * b /\ py_div a b = finish (recq (a * 2 ^ j) b) (- j).
Proof.
  intros Ha Hab Hb. destruct (float_ok a ltac:(lia)) as (da & ma & D1 & D2 & E1 & B1 & F1). destruct (float_ok b ltac:(lia)) as (db & mb & D3 & D4 & E2 & B2 & F2).
  assert (DD : da <= db). { assert (da - 1 < db); [|lia]. apply (Z.pow_lt_mono_r_iff 2); lia. }
  unfold py_div. rewrite F1, F2. cbn [SFdiv xorb]. unfold SFdiv_core_binary. rewrite (digits_unique (Z.pos ma) 52), (digits_unique (Z.pos mb) 52) by lia.
  assert (EE : Z.min (fexp 53 1024 (52 + 1 + (da - 53) - (52 + 1 + (db - 53)))) (da - 53 - (db - 53)) = da - db - 53) by (unfold fexp, emin; lia). rewrite EE.
  replace (da - 53 - (db - 53) - (da - db - 53)) with 53 by lia. rewrite Z.shiftl_mul_pow2 by lia. set (N0 := Z.pos ma * 2 ^ 53). set (D0 := Z.pos mb).
  assert (HD0 : 1 < D0) by (unfold D0; lia). assert (HN0 : 0 <= N0) by (unfold N0; lia).
  assert (DE : Z.div_eucl N0 D0 = (N0 / D0, N0 mod D0)) by (unfold Z.div, Z.modulo; destruct (Z.div_eucl N0 D0); reflexivity). rewrite DE.
  assert (RL := rec_loc N0 D0 ltac:(lia) HN0 HD0). set (j0 := 53 + db - da).
  assert (SC : N0 = 2 ^ (53 - db) * (a * 2 ^ j0)). { unfold N0, j0. rewrite E1. transitivity (a * (2 ^ (53 - da) * 2 ^ 53)); [ring|]. transitivity (a * (2 ^ (53 - db) * 2 ^ (53 + db - da))); [|ring]. rewrite <- !Z.pow_add_r by lia. do 2 f_equal. lia. }
  assert (SD : D0 = 2 ^ (53 - db) * b) by (unfold D0; rewrite E2; ring). assert (PC : 0 < 2 ^ (53 - db)) by (apply Z.pow_pos_nonneg; lia).
  assert (Q1 : 2 ^ 52 <= N0 / D0) by (apply Z.div_le_lower_bound; [lia|unfold N0, D0; nia]). assert (Q2 : N0 / D0 < 2 ^ 54) by (apply Z.div_lt_upper_bound; [lia|unfold N0, D0; nia]).
  assert (EN := Z.div_mod N0 D0 ltac:(lia)). assert (BM := Z.mod_pos_bound N0 D0 ltac:(lia)).
  destruct (Z.lt_ge_cases (N0 / D0) (2 ^ 53)) as [L|L].
  - exists j0. split; [unfold j0; lia|]. split; [rewrite SC, SD in EN, BM; clear - EN BM Q1 L SC SD PC; rewrite SC, SD in Q1, L; set (q := _ / _) in *; set (r := _ mod _) in *; nia|].
    rewrite (aux_ok (recq N0 D0)); [|lia|exact RL|reflexivity|lia|apply rec_round; lia]. rewrite SC, SD, rec_scale by lia. f_equal. unfold j0. lia.
  - exists (j0 - 1). split; [unfold j0; lia|]. assert (P2 : a * 2 ^ j0 = 2 * (a * 2 ^ (j0 - 1))). { replace j0 with (Z.succ (j0 - 1)) at 1 by lia. rewrite Z.pow_succ_r by (unfold j0; lia). ring. }
    split. { rewrite SC, SD in EN, BM. rewrite SC, SD in Q2, L. rewrite P2 in EN, BM, Q2, L. set (q := _ / _) in *; set (r := _ mod _) in *. set (X := a * 2 ^ (j0 - 1)) in *. clear - EN BM Q2 L PC. nia. }
    rewrite (aux_ok2 N0 D0); [|lia|lia|lia|exact RL|lia]. rewrite SC, SD, P2. replace (2 ^ (53 - db) * (2 * (a * 2 ^ (j0 - 1)))) with (2 * 2 ^ (53 - db) * (a * 2 ^ (j0 - 1))) by ring. replace (2 * (2 ^ (53 - db) * b)) with (2 * 2 ^ (53 - db) * b) by ring. rewrite rec_scale by lia. f_equal. unfold j0. lia.
Qed.
