(** Comparing quotients in floating point. *)
From Coq Require Import Floats.SpecFloat Zpower.
From Verif Require Import Base ArraysModel ArraysProofs FloatModel FloatProofs FloatProofs2.

Lemma finish_ok N D e : 0 < D -> 2 ^ 52 * D <= N < 2 ^ 53 * D -> exists m e', finish (recq N D) e = S754_finite false m e' /\ 2 ^ 52 <= Zpos m < 2 ^ 53 /\ e <= e' /\ Zpos m * 2 ^ (e' - e) = rne (recq N D).
Proof.
  intros HD HN. destruct (rec_round N D HD ltac:(lia)) as (_ & R). assert (B : 2 ^ 52 <= N / D < 2 ^ 53) by (split; [apply Z.div_le_lower_bound; lia|apply Z.div_lt_upper_bound; lia]).
  assert (C : rne (recq N D) = 2 ^ 53 \/ 2 ^ 52 <= rne (recq N D) < 2 ^ 53) by lia. unfold finish. destruct C as [C|C].
  - rewrite C. change (2 ^ 53) with (Z.pos (2 ^ 53)). cbn iota. rewrite Z.eqb_refl. exists (2 ^ 52)%positive, (e + 1). split; [reflexivity|]. split; [lia|]. split; [lia|]. replace (e + 1 - e) with 1 by lia. reflexivity.
  - destruct (rne (recq N D)) as [|m|m]; [lia| |lia]. exists m, e. destruct (Z.eqb_spec (Z.pos m) (2 ^ 53)); [lia|]. split; [reflexivity|]. split; [exact C|]. split; [lia|]. rewrite Z.sub_diag. lia.
Qed.
Lemma ltb_norm m1 e1 m2 e2 K : 2 ^ 52 <= Zpos m1 < 2 ^ 53 -> 2 ^ 52 <= Zpos m2 < 2 ^ 53 -> 0 <= e1 + K -> 0 <= e2 + K ->
  SFltb (S754_finite false m1 e1) (S754_finite false m2 e2) = (Zpos m1 * 2 ^ (e1 + K) <? Zpos m2 * 2 ^ (e2 + K)).
Proof.
  intros B1 B2 H1 H2. unfold SFltb, SFcompare. assert (S : forall x y m n, 2 ^ 52 <= m < 2 ^ 53 -> 2 ^ 52 <= n < 2 ^ 53 -> 0 <= x -> x < y -> m * 2 ^ x < n * 2 ^ y).
  { intros x y m n Hm Hn Hx Hy. assert (P : 0 < 2 ^ x) by (apply Z.pow_pos_nonneg; lia). assert (2 ^ (x + 1) <= 2 ^ y) by (apply Z.pow_le_mono_r; lia). rewrite Z.pow_add_r in H by lia. change (2 ^ 1) with 2 in H. nia. }
  destruct (Z.compare_spec e1 e2) as [->|H|H].
  - change (Pos.compare_cont Eq m1 m2) with (Pos.compare m1 m2). assert (P : 0 < 2 ^ (e2 + K)) by (apply Z.pow_pos_nonneg; lia). change (Pos.compare m1 m2) with (Z.compare (Zpos m1) (Zpos m2)). destruct (Z.compare_spec (Zpos m1) (Zpos m2)) as [E|L|L]; destruct (Z.ltb_spec (Z.pos m1 * 2 ^ (e2 + K)) (Z.pos m2 * 2 ^ (e2 + K))); try reflexivity; nia.
  - specialize (S (e1 + K) (e2 + K) _ _ B1 B2 H1 ltac:(lia)). destruct (Z.ltb_spec (Z.pos m1 * 2 ^ (e1 + K)) (Z.pos m2 * 2 ^ (e2 + K))); [reflexivity|lia].
  - specialize (S (e2 + K) (e1 + K) _ _ B2 B1 H2 ltac:(lia)). destruct (Z.ltb_spec (Z.pos m1 * 2 ^ (e1 + K)) (Z.pos m2 * 2 ^ (e2 + K))); [lia|reflexivity].
Qed.
Lemma gap a b j p q i K U1 U2 : 0 < a -> 0 < b -> 0 < p -> 0 < q -> p <= q -> b * q <= 2 ^ 52 -> a * q < p * b -> 0 <= j <= K -> 0 <= i <= K ->
  2 ^ 52 * b <= a * 2 ^ j -> 2 ^ 52 * q <= p * 2 ^ i -> 2 * Z.abs (U1 * b - a * 2 ^ j) <= b -> 2 * Z.abs (U2 * q - p * 2 ^ i) <= q -> U1 * 2 ^ (K - j) < U2 * 2 ^ (K - i).
Proof.
  intros Ha Hb Hp Hq Hpq Hbq L Hj Hi B1 B2 R1 R2.
  assert (P1 : 2 ^ K = 2 ^ j * 2 ^ (K - j)) by (rewrite <- Z.pow_add_r by lia; f_equal; lia). assert (P2 : 2 ^ K = 2 ^ i * 2 ^ (K - i)) by (rewrite <- Z.pow_add_r by lia; f_equal; lia).
  set (X := 2 ^ (K - j)) in *. set (Y := 2 ^ (K - i)) in *. assert (HX : 0 < X) by (apply Z.pow_pos_nonneg; lia). assert (HY : 0 < Y) by (apply Z.pow_pos_nonneg; lia). set (J := 2 ^ j) in *. set (I := 2 ^ i) in *. set (W := 2 ^ K) in *. assert (HW : 0 < W) by (apply Z.pow_pos_nonneg; lia).
  assert (C1 : 2 ^ 53 * b * (U1 * X) <= (2 ^ 53 + 1) * a * W).
  { assert (T1 : 2 * (U1 * b) <= 2 * (a * J) + b) by lia. assert (T2 : 2 * (U1 * b) * X <= (2 * (a * J) + b) * X) by (apply Z.mul_le_mono_nonneg_r; lia). assert (T3 : 2 ^ 52 * b * X <= a * J * X) by (apply Z.mul_le_mono_nonneg_r; lia). replace (a * J * X) with (a * W) in T3 by (rewrite P1; ring). replace ((2 * (a * J) + b) * X) with (2 * (a * W) + b * X) in T2 by (rewrite P1; ring).
    replace (2 * (U1 * b) * X) with (2 * (b * (U1 * X))) in T2 by ring. change (2 ^ 53) with (2 * 2 ^ 52). set (Z0 := b * (U1 * X)) in *. replace (2 * 2 ^ 52 * b * (U1 * X)) with (2 ^ 52 * (2 * Z0)) by (unfold Z0; ring). lia. }
  assert (C2 : (2 ^ 53 - 1) * p * W <= 2 ^ 53 * q * (U2 * Y)).
  { assert (T1 : 2 * (p * I) - q <= 2 * (U2 * q)) by lia. assert (T2 : (2 * (p * I) - q) * Y <= 2 * (U2 * q) * Y) by (apply Z.mul_le_mono_nonneg_r; lia). assert (T3 : 2 ^ 52 * q * Y <= p * I * Y) by (apply Z.mul_le_mono_nonneg_r; lia). replace (p * I * Y) with (p * W) in T3 by (rewrite P2; ring). replace ((2 * (p * I) - q) * Y) with (2 * (p * W) - q * Y) in T2 by (rewrite P2; ring).
    replace (2 * (U2 * q) * Y) with (2 * (q * (U2 * Y))) in T2 by ring. change (2 ^ 53) with (2 * 2 ^ 52). set (Z0 := q * (U2 * Y)) in *. replace (2 * 2 ^ 52 * q * (U2 * Y)) with (2 ^ 52 * (2 * Z0)) by (unfold Z0; ring). lia. }
  destruct (Z.lt_ge_cases (U1 * X) (U2 * Y)) as [|G]; [assumption|exfalso]. set (u := U1 * X) in *. set (v := U2 * Y) in *.
  assert (D1 : b * ((2 ^ 53 - 1) * p * W) <= b * (2 ^ 53 * q * v)) by (apply Z.mul_le_mono_nonneg_l; lia). assert (D2 : q * (2 ^ 53 * b * u) <= q * ((2 ^ 53 + 1) * a * W)) by (apply Z.mul_le_mono_nonneg_l; lia).
  assert (D3 : 2 ^ 53 * (b * q) * v <= 2 ^ 53 * (b * q) * u) by (apply Z.mul_le_mono_nonneg_l; [nia|lia]).
  assert (D4 : (2 ^ 53 - 1) * (p * b) * W <= (2 ^ 53 + 1) * (a * q) * W) by lia. apply Z.mul_le_mono_pos_r in D4; [|exact HW].
  assert (D5 : p * b <= q * b) by (apply Z.mul_le_mono_nonneg_r; lia). set (A := a * q) in *. set (P := p * b) in *. lia.
Qed.
Lemma exp_unique a b j p q i : 0 < a -> 0 < b -> 0 < p -> 0 < q -> a * q = p * b -> 0 <= j -> 0 <= i -> 2 ^ 52 * b <= a * 2 ^ j -> a * 2 ^ j < 2 ^ 53 * b -> 2 ^ 52 * q <= p * 2 ^ i -> p * 2 ^ i < 2 ^ 53 * q -> j <= i.
Proof.
  intros Ha Hb Hp Hq E Hj Hi B1 B2 B3 B4. destruct (Z.le_gt_cases j i) as [|G]; [assumption|exfalso]. assert (P : 2 ^ (i + 1) <= 2 ^ j) by (apply Z.pow_le_mono_r; lia). rewrite Z.pow_add_r in P by lia. change (2 ^ 1) with 2 in P.
  assert (Hi2 : 0 < 2 ^ i) by (apply Z.pow_pos_nonneg; lia). set (I := 2 ^ i) in *. set (J := 2 ^ j) in *. change (2 ^ 53) with (2 * 2 ^ 52) in *.
  assert (T1 : a * (I * 2) <= a * J) by (apply Z.mul_le_mono_nonneg_l; lia). assert (T2 : a * I < 2 ^ 52 * b) by lia. assert (T3 : a * I * q < 2 ^ 52 * b * q) by (apply Z.mul_lt_mono_pos_r; lia). assert (T4 : 2 ^ 52 * q * b <= p * I * b) by (apply Z.mul_le_mono_nonneg_r; lia). replace (p * I * b) with (a * q * I) in T4 by (rewrite E; ring). lia.
Qed.
(** the test of the load factor in floating point is the test in fractions *)
Lemma load_exact num size p q : 0 <= num <= size -> 0 < size -> 0 < p <= q -> size * q <= 2 ^ 52 -> load_test num size (py_div p q) = (num * q <? p * size).
Proof.
  intros Hn Hs Hp B. assert (Hq : 0 < q) by lia. assert (B1 : size < 2 ^ 53) by nia. assert (B2 : q < 2 ^ 53) by nia. unfold load_test.
  destruct (div_ok p q ltac:(lia) ltac:(lia) B2) as (i & Hi & Bi & Ei). destruct (finish_ok (p * 2 ^ i) q (- i) Hq Bi) as (m2 & e2 & F2 & M2 & L2 & V2). rewrite Ei, F2.
  destruct (Z.eq_dec num 0) as [->|NZ].
  - destruct (float_ok size ltac:(lia)) as (d & m & _ & _ & _ & _ & E). unfold py_div. change (py_float 0) with (S754_zero false). rewrite E, Z.mul_0_l. destruct (Z.ltb_spec 0 (p * size)); [reflexivity|nia].
  - destruct (div_ok num size ltac:(lia) ltac:(lia) B1) as (j & Hj & Bj & Ej). destruct (finish_ok (num * 2 ^ j) size (- j) Hs Bj) as (m1 & e1 & F1 & M1 & L1 & V1). rewrite Ej, F1.
    rewrite (ltb_norm m1 e1 m2 e2 120) by lia. destruct (rec_round (num * 2 ^ j) size Hs ltac:(lia)) as (R1 & _). destruct (rec_round (p * 2 ^ i) q Hq ltac:(lia)) as (R2 & _).
    assert (W1 : Z.pos m1 * 2 ^ (e1 + 120) = rne (recq (num * 2 ^ j) size) * 2 ^ (120 - j)) by (rewrite <- V1, <- Z.mul_assoc, <- Z.pow_add_r by lia; do 2 f_equal; lia).
    assert (W2 : Z.pos m2 * 2 ^ (e2 + 120) = rne (recq (p * 2 ^ i) q) * 2 ^ (120 - i)) by (rewrite <- V2, <- Z.mul_assoc, <- Z.pow_add_r by lia; do 2 f_equal; lia). rewrite W1, W2.
    destruct (Z.lt_trichotomy (num * q) (p * size)) as [L|[E|G]].
    + assert (X := gap num size j p q i 120 _ _ ltac:(lia) ltac:(lia) ltac:(lia) ltac:(lia) ltac:(lia) B L ltac:(lia) ltac:(lia) ltac:(lia) ltac:(lia) R1 R2). apply Z.ltb_lt in X, L. rewrite X, L. reflexivity.
    + assert (EJ : j = i) by (apply Z.le_antisymm; [apply (exp_unique num size j p q i); lia|apply (exp_unique p q i num size j); lia]). subst i.
      assert (ER : recq (num * 2 ^ j) size = recq (p * 2 ^ j) q). { rewrite <- (rec_scale q (num * 2 ^ j) size), <- (rec_scale size (p * 2 ^ j) q) by lia. f_equal; [|lia]. replace (q * (num * 2 ^ j)) with (num * q * 2 ^ j) by ring. rewrite E. ring. }
      rewrite ER, E, !Z.ltb_irrefl. reflexivity.
    + assert (X := gap p q i num size j 120 _ _ ltac:(lia) ltac:(lia) ltac:(lia) ltac:(lia) ltac:(lia) ltac:(lia) G ltac:(lia) ltac:(lia) ltac:(lia) ltac:(lia) R2 R1). destruct (Z.ltb_spec (num * q) (p * size)); [lia|]. match goal with |- (?x <? ?y) = _ => destruct (Z.ltb_spec x y); [lia|reflexivity] end.
Qed.

