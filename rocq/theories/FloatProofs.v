(** Rounding of quotients and square roots in SpecFloat, over the integers. *)
From Coq Require Import Floats.SpecFloat.
From Verif Require Import Base ArraysModel FloatModel.

(** ** digits *)
Lemma digits_pos p : 2 ^ (Zpos (digits2_pos p) - 1) <= Zpos p < 2 ^ Zpos (digits2_pos p).
Proof.
  induction p as [p IH|p IH|]; cbn [digits2_pos]; [| |cbn; lia];
    rewrite Pos2Z.inj_succ; replace (Z.succ (Z.pos (digits2_pos p)) - 1) with (Z.succ (Z.pos (digits2_pos p) - 1)) by lia; rewrite !Z.pow_succ_r by lia; lia.
Qed.
Lemma digits_unique m n : 0 < m -> 0 <= n -> 2 ^ n <= m < 2 ^ (n + 1) -> Zdigits2 m = n + 1.
Proof.
  intros Hm Hn H. destruct m as [|p|p]; [lia| |lia]. cbn [Zdigits2]. assert (D := digits_pos p). set (d := Z.pos (digits2_pos p)) in *. assert (0 < d) by (unfold d; lia).
  assert (d - 1 < n + 1) by (apply (Z.pow_lt_mono_r_iff 2); lia). assert (n < d) by (apply (Z.pow_lt_mono_r_iff 2); lia). lia.
Qed.

(** ** the record kept while shifting: quotient, half bit, sticky bit of N / D *)
Definition recq (N D : Z) : shr_record := Build_shr_record (N / D) (D <=? 2 * (N mod D)) (negb ((2 * N) mod D =? 0)).
Lemma Zeq_bool_eqb a b : Zeq_bool a b = (a =? b).
Proof. destruct (Z.eqb_spec a b) as [->|H]; [apply Zeq_is_eq_bool; reflexivity|]. destruct (Zeq_bool a b) eqn:E; [apply Zeq_bool_eq in E; contradiction|reflexivity]. Qed.
Lemma rec_loc N D : 0 < D -> 0 <= N -> 1 < D -> shr_record_of_loc (N / D) (new_location D (N mod D)) = recq N D.
Proof.
  intros HD HN H1. assert (B := Z.mod_pos_bound N D HD). set (r := N mod D) in *. unfold recq. fold r.
  assert (M : (2 * N) mod D = (2 * r) mod D) by (unfold r; rewrite Z.mul_mod_idemp_r by lia; reflexivity). rewrite M.
  assert (M2 : (2 * r) mod D = if 2 * r <? D then 2 * r else 2 * r - D). { destruct (Z.ltb_spec (2 * r) D); [apply Z.mod_small; lia|]. symmetry. apply (Z.mod_unique _ _ 1); lia. } rewrite M2. clear M M2.
  unfold new_location. assert (EV := Z.even_spec D). assert (OD := Zeven.Zodd_bool_iff D). destruct (Z.even D) eqn:E.
  - unfold new_location_even. rewrite Zeq_bool_eqb. destruct (Z.eqb_spec r 0) as [->|]; cbn [shr_record_of_loc].
    + replace (2 * 0) with 0 by lia. destruct (Z.leb_spec D 0), (Z.ltb_spec 0 D); try lia. reflexivity.
    + destruct (Z.compare_spec (2 * r) D), (Z.leb_spec D (2 * r)), (Z.ltb_spec (2 * r) D); try lia; cbn [shr_record_of_loc].
      * replace (2 * r - D) with 0 by lia. reflexivity.
      * destruct (Z.eqb_spec (2 * r) 0); [lia|reflexivity].
      * destruct (Z.eqb_spec (2 * r - D) 0); [lia|reflexivity].
  - assert (NE : forall x, D <> 2 * x). { intros x ->. rewrite Z.even_mul in E. discriminate. }
    unfold new_location_odd. rewrite Zeq_bool_eqb. destruct (Z.eqb_spec r 0) as [->|]; cbn [shr_record_of_loc].
    + replace (2 * 0) with 0 by lia. destruct (Z.leb_spec D 0), (Z.ltb_spec 0 D); try lia. reflexivity.
    + assert (NR := NE r). destruct (Z.compare_spec (2 * r + 1) D), (Z.leb_spec D (2 * r)), (Z.ltb_spec (2 * r) D); try lia; cbn [shr_record_of_loc].
      * destruct (Z.eqb_spec (2 * r) 0); [lia|reflexivity].
      * destruct (Z.eqb_spec (2 * r) 0); [lia|reflexivity].
      * destruct (Z.eqb_spec (2 * r - D) 0); [lia|reflexivity].
Qed.
Lemma shr_rec N D : 0 < D -> 0 <= N -> shr_1 (recq N D) = recq N (2 * D).
Proof.
  intros HD HN. assert (B := Z.mod_pos_bound N D HD). assert (EN := Z.div_mod N D ltac:(lia)). set (r := N mod D) in *. set (m := N / D) in *. assert (Hm : 0 <= m) by (apply Z.div_pos; lia).
  assert (Q : N / (2 * D) = m / 2) by (rewrite Z.mul_comm, <- Z.div_div by lia; reflexivity).
  assert (R : N mod (2 * D) = r + D * (m mod 2)). { assert (B2 := Z.mod_pos_bound m 2 ltac:(lia)). symmetry. apply (Z.mod_unique _ _ (m / 2)); [left; nia|]. rewrite EN at 1. assert (E2 := Z.div_mod m 2 ltac:(lia)). nia. }
  assert (SB : (D <=? 2 * r) || negb ((2 * N) mod D =? 0) = negb (r =? 0)).
  { assert (M : (2 * N) mod D = (2 * r) mod D) by (unfold r; rewrite Z.mul_mod_idemp_r by lia; reflexivity). rewrite M. destruct (Z.leb_spec D (2 * r)); cbn [orb]; [destruct (Z.eqb_spec r 0); [lia|reflexivity]|]. rewrite Z.mod_small by lia. destruct (Z.eqb_spec r 0), (Z.eqb_spec (2 * r) 0); try lia; reflexivity. }
  unfold recq. fold r m. rewrite Q, R. assert (S2 : (2 * N) mod (2 * D) = 2 * r) by (rewrite Z.mul_mod_distr_l by lia; reflexivity). rewrite S2. unfold shr_1. rewrite SB.
  replace (negb (2 * r =? 0)) with (negb (r =? 0)) by (destruct (Z.eqb_spec r 0), (Z.eqb_spec (2 * r) 0); try lia; reflexivity).
  destruct m as [|p|p]; [| |lia].
  - cbn. rewrite Z.mul_0_r, Z.add_0_r. destruct (Z.leb_spec (2 * D) (2 * r)); [lia|]. reflexivity.
  - assert (P2 : Z.pos p / 2 = Z.div2 (Z.pos p)) by (rewrite Z.div2_div; reflexivity). rewrite P2. destruct p as [p|p|]; cbn [Z.div2].
    + assert (M1 : Z.pos p~1 mod 2 = 1) by (rewrite Pos2Z.inj_xI, Z.add_comm, Z.mul_comm, Z.mod_add by lia; reflexivity). rewrite M1. destruct (Z.leb_spec (2 * D) (2 * (r + D * 1))); [|lia]. reflexivity.
    + assert (M1 : Z.pos p~0 mod 2 = 0) by (rewrite Pos2Z.inj_xO, Z.mul_comm, Z.mod_mul by lia; reflexivity). rewrite M1. destruct (Z.leb_spec (2 * D) (2 * (r + D * 0))); [lia|]. reflexivity.
    + change (1 mod 2) with 1. destruct (Z.leb_spec (2 * D) (2 * (r + D * 1))); [|lia]. reflexivity.
Qed.
(** ** rounding *)
Definition rne (x : shr_record) : Z := round_nearest_even (shr_m x) (loc_of_shr_record x).
Definition finish (x : shr_record) (e : Z) : spec_float := match rne x with Zpos m => if Zpos m =? 2 ^ 53 then S754_finite false (2 ^ 52)%positive (e + 1) else S754_finite false m e | _ => S754_nan end.
Lemma rec_round N D : 0 < D -> 0 <= N -> 2 * Z.abs (rne (recq N D) * D - N) <= D /\ (rne (recq N D) = N / D \/ rne (recq N D) = N / D + 1).
Proof.
  intros HD HN. assert (B := Z.mod_pos_bound N D HD). assert (EN := Z.div_mod N D ltac:(lia)). unfold rne, recq. cbn [shr_m loc_of_shr_record]. set (r := N mod D) in *. set (m := N / D) in *.
  assert (M : (2 * N) mod D = (2 * r) mod D) by (unfold r; rewrite Z.mul_mod_idemp_r by lia; reflexivity). rewrite M.
  destruct (Z.leb_spec D (2 * r)); destruct (Z.eqb_spec ((2 * r) mod D) 0); cbn [negb loc_of_shr_record round_nearest_even].
  - assert (2 * r = D). { assert (X : (2 * r) mod D = 2 * r - D) by (symmetry; apply (Z.mod_unique _ _ 1); lia). lia. } destruct (Z.even m); split; try (left; reflexivity); try (right; reflexivity); nia.
  - split; [nia|right; reflexivity].
  - split; [nia|left; reflexivity].
  - split; [nia|left; reflexivity].
Qed.
(** the common end of division and square root *)
Lemma aux_ok x m0 lx ex : -1074 <= ex <= 900 -> shr_record_of_loc m0 lx = x -> shr_m x = m0 -> 2 ^ 52 <= m0 < 2 ^ 53 -> (rne x = m0 \/ rne x = m0 + 1) -> binary_round_aux 53 1024 false m0 ex lx = finish x ex.
Proof.
  intros He Ex Em Hm Hr. unfold binary_round_aux. unfold shr_fexp at 1. rewrite (digits_unique m0 52) by lia. unfold fexp at 1, emin. replace (Z.max (52 + 1 + ex - 53) (3 - 1024 - 53) - ex) with 0 by lia. cbn [shr]. rewrite Ex. fold (rne x).
  unfold shr_fexp. assert (D : rne x = 2 ^ 53 \/ 2 ^ 52 <= rne x < 2 ^ 53) by lia. unfold finish. destruct D as [D|D].
  - rewrite D. change (Zdigits2 (2 ^ 53)) with 54. unfold fexp, emin. replace (Z.max (54 + ex - 53) (3 - 1024 - 53) - ex) with 1 by lia. cbn [shr shr_record_of_loc]. change (SpecFloat.iter_pos shr_1 1 _) with (Build_shr_record (2 ^ 52) false false). cbn [shr_m]. change (2 ^ 52) with (Z.pos (2 ^ 52)). change (2 ^ 53) with (Z.pos (2 ^ 53)). cbn iota. rewrite Z.eqb_refl. destruct (Zle_bool (ex + 1) (1024 - 53)) eqn:E; [reflexivity|]. rewrite Z.leb_gt in E. lia.
  - rewrite (digits_unique (rne x) 52) by lia. unfold fexp, emin. replace (Z.max (52 + 1 + ex - 53) (3 - 1024 - 53) - ex) with 0 by lia. cbn [shr shr_record_of_loc shr_m]. destruct (rne x) as [|p|p]; [lia| |lia]. destruct (Z.eqb_spec (Z.pos p) (2 ^ 53)); [lia|]. destruct (Zle_bool ex (1024 - 53)) eqn:E; [reflexivity|]. rewrite Z.leb_gt in E. lia.
Qed.
Lemma aux_ok2 N D lx ex : -1074 <= ex <= 800 -> 0 < D -> 0 <= N -> shr_record_of_loc (N / D) lx = recq N D -> 2 ^ 53 <= N / D < 2 ^ 54 -> binary_round_aux 53 1024 false (N / D) ex lx = finish (recq N (2 * D)) (ex + 1).
Proof.
  intros He HD HN Ex Hm. assert (Q : N / (2 * D) = (N / D) / 2) by (rewrite Z.mul_comm, <- Z.div_div by lia; reflexivity).
  assert (Hq : 2 ^ 52 <= N / (2 * D) < 2 ^ 53). { rewrite Q. split; [apply Z.div_le_lower_bound; lia|apply Z.div_lt_upper_bound; lia]. }
  assert (RR := rec_round N (2 * D) ltac:(lia) HN). unfold binary_round_aux. unfold shr_fexp at 1. rewrite (digits_unique (N / D) 53) by lia. unfold fexp at 1, emin. replace (Z.max (53 + 1 + ex - 53) (3 - 1024 - 53) - ex) with 1 by lia. cbn [shr SpecFloat.iter_pos]. rewrite Ex, shr_rec by assumption.
  set (x := recq N (2 * D)) in *. fold (rne x). replace (shr_fexp 53 1024 (rne x) (ex + 1) loc_Exact) with (shr_fexp 53 1024 (rne x) (ex + 1) loc_Exact) by reflexivity.
  unfold shr_fexp. assert (Dd : rne x = 2 ^ 53 \/ 2 ^ 52 <= rne x < 2 ^ 53) by lia. unfold finish. destruct Dd as [Dd|Dd].
  - rewrite Dd. change (Zdigits2 (2 ^ 53)) with 54. unfold fexp, emin. replace (Z.max (54 + (ex + 1) - 53) (3 - 1024 - 53) - (ex + 1)) with 1 by lia. cbn [shr shr_record_of_loc]. change (SpecFloat.iter_pos shr_1 1 _) with (Build_shr_record (2 ^ 52) false false). cbn [shr_m]. change (2 ^ 52) with (Z.pos (2 ^ 52)). change (2 ^ 53) with (Z.pos (2 ^ 53)). cbn iota. rewrite Z.eqb_refl. destruct (Zle_bool (ex + 1 + 1) (1024 - 53)) eqn:E; [reflexivity|]. rewrite Z.leb_gt in E. lia.
  - rewrite (digits_unique (rne x) 52) by lia. unfold fexp, emin. replace (Z.max (52 + 1 + (ex + 1) - 53) (3 - 1024 - 53) - (ex + 1)) with 0 by lia. cbn [shr shr_record_of_loc shr_m]. destruct (rne x) as [|p|p]; [lia| |lia]. destruct (Z.eqb_spec (Z.pos p) (2 ^ 53)); [lia|]. destruct (Zle_bool (ex + 1) (1024 - 53)) eqn:E; [reflexivity|]. rewrite Z.leb_gt in E. lia.
Qed.
