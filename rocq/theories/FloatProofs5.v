(** int(sqrt(n)) in floating point is the exact integer square root below 2^52. *)
From Coq Require Import Floats.SpecFloat.
From Verif Require Import Base FloatModel FloatProofs FloatProofs2.

Lemma isqrt_exact n : 0 <= n < 2 ^ 52 -> py_isqrt n = Z.sqrt n.
Proof.
  intros Hn. destruct (Z.eq_dec n 0) as [->|NZ]; [reflexivity|]. destruct (float_ok n ltac:(lia)) as (d & m & D1 & D2 & E1 & B1 & F1).
  assert (D3 : d <= 52). { assert (d - 1 < 52); [|lia]. apply (Z.pow_lt_mono_r_iff 2); lia. }
  unfold py_isqrt. rewrite F1. cbn [SFsqrt]. unfold SFsqrt_core_binary. rewrite (digits_unique (Z.pos m) 52) by lia.
  set (k := Z.div2 (d + 1)). assert (Hk : d = 2 * k \/ d = 2 * k - 1). { unfold k. rewrite Z.div2_div. pose proof (Z.div_mod (d + 1) 2). pose proof (Z.mod_pos_bound (d + 1) 2). lia. }
  assert (Ee : Z.min (fexp 53 1024 (Z.div2 (52 + 1 + (d - 53) + 1))) (Z.div2 (d - 53)) = k - 53).
  { replace (52 + 1 + (d - 53) + 1) with (d + 1) by lia. fold k. unfold fexp, emin. rewrite (Z.div2_div (d - 53)). pose proof (Z.div_mod (d - 53) 2). pose proof (Z.mod_pos_bound (d - 53) 2). lia. }
  rewrite Ee. set (s := d - 53 - 2 * (k - 53)). assert (Hs : s = 53 - (2 * k - d)) by (unfold s; lia).
  set (T := 2 ^ (53 - k)). assert (HT : 2 ^ 27 <= T) by (apply Z.pow_le_mono_r; lia).
  assert (Em : match s with Z.pos _ => Z.shiftl (Z.pos m) s | 0 => Z.pos m | Z.neg _ => 0 end = n * (T * T)).
  { destruct s as [|p|p] eqn:Es; [lia| |lia]. rewrite Z.shiftl_mul_pow2 by lia. rewrite E1. unfold T. rewrite <- Z.pow_add_r by lia. rewrite <- Z.mul_assoc. rewrite <- Z.pow_add_r by lia. f_equal. f_equal. lia. }
  rewrite Em. assert (HS := Z.sqrtrem_spec (n * (T * T)) ltac:(nia)). destruct (Z.sqrtrem (n * (T * T))) as (q & r) eqn:EQ. destruct HS as (HS1 & HS2).
  set (t := Z.sqrt n). assert (Ht := Z.sqrt_spec n ltac:(lia)). fold t in Ht. assert (Ht0 : 0 <= t) by apply Z.sqrt_nonneg. unfold Z.succ in Ht.
  assert (P52 : 2 ^ (53 - d) * 2 ^ d = 2 ^ 53) by (rewrite <- Z.pow_add_r by lia; f_equal; lia).
  assert (TT : 2 ^ 104 <= n * (T * T) < 2 ^ 106).
  { unfold T. rewrite <- Z.pow_add_r by lia. assert (P : 0 < 2 ^ (53 - k + (53 - k))) by (apply Z.pow_pos_nonneg; lia). split.
    - apply (Z.le_trans _ (2 ^ (d - 1) * 2 ^ (53 - k + (53 - k)))); [|apply Z.mul_le_mono_nonneg_r; lia]. rewrite <- Z.pow_add_r by lia. apply Z.pow_le_mono_r; lia.
    - apply (Z.lt_le_trans _ (2 ^ d * 2 ^ (53 - k + (53 - k)))); [apply Z.mul_lt_mono_pos_r; lia|]. rewrite <- Z.pow_add_r by lia. apply Z.pow_le_mono_r; lia. }
  assert (Q : 2 ^ 52 <= q < 2 ^ 53). { change (2 ^ 104) with (2 ^ 52 * 2 ^ 52) in TT. change (2 ^ 106) with (2 ^ 53 * 2 ^ 53) in TT. assert (0 <= q) by lia. split; apply Z.nlt_ge || apply Z.nle_gt; intros G; [assert (q + 1 <= 2 ^ 52) by lia|]; nia. }
  set (lz := if Zeq_bool r 0 then loc_Exact else loc_Inexact (if Zle_bool r q then Lt else Gt)).
  set (x := shr_record_of_loc q lz). set (R := if r <=? q then q else q + 1).
  assert (RN : rne x = R). { unfold x, lz, R, rne. rewrite Zeq_bool_eqb. unfold Zle_bool. change (match r ?= q with Gt => false | _ => true end) with (r <=? q). destruct (Z.eqb_spec r 0), (Z.leb_spec r q); try lia; reflexivity. }
  assert (Xm : shr_m x = q) by (unfold x; destruct lz as [|[]]; reflexivity).
  rewrite (aux_ok x q lz (k - 53)); [|lia|reflexivity|exact Xm|exact Q|rewrite RN; unfold R; destruct (r <=? q); lia].
  assert (TV : py_trunc (finish x (k - 53)) = R / T).
  { assert (RB : R = 2 ^ 53 \/ 2 ^ 52 <= R < 2 ^ 53) by (unfold R; destruct (r <=? q); lia). unfold finish. rewrite RN. destruct RB as [RB|RB].
    - rewrite RB. change (2 ^ 53) with (Z.pos (2 ^ 53)). cbn iota. rewrite Z.eqb_refl. cbn [py_trunc]. replace (k - 53 + 1) with (- (52 - k)) by lia. rewrite Z.shiftl_opp_r, Z.shiftr_div_pow2 by lia. unfold T. replace (53 - k) with (1 + (52 - k)) by lia. rewrite Z.pow_add_r by lia. rewrite <- Z.div_div by (try apply Z.pow_pos_nonneg; lia). reflexivity.
    - destruct R as [|p|p] eqn:ER; [lia| |lia]. destruct (Z.eqb_spec (Z.pos p) (2 ^ 53)); [lia|]. cbn [py_trunc]. replace (k - 53) with (- (53 - k)) by lia. rewrite Z.shiftl_opp_r, Z.shiftr_div_pow2 by lia. reflexivity. }
  rewrite TV. symmetry. assert (TP : 0 < T) by lia. apply (Z.div_unique _ _ _ (R - T * t)); [|lia]. left.
  assert (TK : t + 1 <= T).
  { assert (t < 2 ^ k); [|assert (2 ^ k <= 2 ^ 26) by (apply Z.pow_le_mono_r; lia); lia]. assert (n < 2 ^ k * 2 ^ k). { rewrite <- Z.pow_add_r by lia. assert (2 ^ d <= 2 ^ (k + k)) by (apply Z.pow_le_mono_r; lia). lia. } nia. }
  assert (L : t * T <= q). { apply Z.nlt_ge. intros G. assert (G1 : (q + 1) * (q + 1) <= (t * T) * (t * T)) by (apply Z.mul_le_mono_nonneg; lia). assert (G2 : (t * t) * (T * T) <= n * (T * T)) by (apply Z.mul_le_mono_nonneg_r; nia). nia. }
  assert (U : q < (t + 1) * T). { apply Z.nle_gt. intros G. assert (G1 : ((t + 1) * T) * ((t + 1) * T) <= q * q) by (apply Z.mul_le_mono_nonneg; nia). assert (G2 : n * (T * T) < ((t + 1) * (t + 1)) * (T * T)) by (apply Z.mul_lt_mono_pos_r; nia). nia. }
  assert (NE : r > q -> q + 1 <> (t + 1) * T).
  { intros G EQ1. assert (G1 : (n + 1) * (T * T) <= ((t + 1) * (t + 1)) * (T * T)) by (apply Z.mul_le_mono_nonneg_r; nia). assert (G2 : (t + 1) * T <= T * T) by (apply Z.mul_le_mono_nonneg_r; lia). assert (G3 : q * q + q + 1 <= n * (T * T)) by lia. assert (G4 : ((t + 1) * T) * ((t + 1) * T) = (q + 1) * (q + 1)) by (rewrite EQ1; reflexivity). nia. }
  unfold R. destruct (Z.leb_spec r q); lia.
Qed.
