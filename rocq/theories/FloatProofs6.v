(** The sparse table with a logarithm that may come out too large. *)
From Verif Require Import Base RangeModel RangeSpec FenwickProofs SparseProofs FloatModel.

Section F.
  Context {V : Type} (func : combiner V) (op : V -> V -> V) (CB : combines func op).
  Context (coe : V -> V) (a : list V) (d : V).
  Local Notation rf := (SparseProofs.rf op).
  Local Notation rf_one := (SparseProofs.rf_one op).
  Local Notation rf_split := (SparseProofs.rf_split func op CB).
  Local Notation rf_some := (SparseProofs.rf_some op).
  Local Notation tab_set_ok := (SparseProofs.tab_set_ok coe).
  Context (Hcoe : forall l r v, rf a l r = Some v -> coe v = v).
  Notation table := (list (list (option V))).
  Context (lg : Z -> Z) (HA : Z.log2 (len a) <= lg (len a)).
  Definition cell_ok (t : table) (i j : Z) : Prop := tg t i j = rf a i (i + 2 ^ j - 1).
  Definition sparse_okL (t : table) : Prop := shape (len a) (lg (len a) + 1) t /\
    forall i j, 0 <= j -> 0 <= i -> i + 2 ^ j <= len a -> cell_ok t i j.

  Lemma pow_log j : 0 <= j -> 2 ^ j <= len a -> j <= lg (len a).
  Proof. intros Hj H. transitivity (Z.log2 (len a)); [|exact HA]. pose proof (Z.log2_le_mono _ _ H) as Q. rewrite Z.log2_pow2 in Q by lia. exact Q. Qed.

  Lemma sparse_new_okL : a <> [] -> wp (sparse_new_lg func coe lg a) sparse_okL.
  Proof.
    intros Ha. assert (Hl : 0 < len a) by (destruct a; [contradiction|unfold len; cbn [length]; lia]). unfold sparse_new_lg.
    destruct (Z.eqb_spec (len a) 0); [lia|]. set (L := lg (len a) + 1). assert (HL : 0 < L) by (pose proof (Z.log2_nonneg (len a)); unfold L; lia).
    assert (HL2 : len a < 2 ^ L) by (apply (Z.lt_le_trans _ (2 ^ (Z.log2 (len a) + 1))); [apply Z.log2_spec; lia|apply Z.pow_le_mono_r; unfold L; lia]).
    apply wp_bind. apply wp_for_range with (I := fun k t => shape (len a) L t /\ forall i, 0 <= i < k -> tg t i 0 = rf a i i).
    - split; [|intros; lia]. split; [rewrite len_repeat; reflexivity|]. intros i Hi. unfold zn. rewrite (nth_indep _ [] (repeat None (Z.to_nat L))) by (rewrite repeat_length; unfold len in Hi; lia).
      rewrite nth_repeat, len_repeat. lia.
    - intros i t Hi [S H]. rewrite (lget_ok V d) by lia. cbn [bind]. rewrite (cb1 _ _ CB).
      eapply wp_mono; [apply (tab_set_ok _ _ t i 0 _ S); lia|]. intros t' (S' & E1 & E2). split; [exact S'|].
      intros k Hk. destruct (Z.eq_dec k i) as [->|]; [|rewrite E2; [apply H; lia|lia|lia|congruence]]. rewrite E1. cbn [option_map].
      rewrite (rf_one a d i) by lia. rewrite (Hcoe i i); [reflexivity|]. apply rf_one. lia.
    - intros t [S H]. replace (Z.max 0 (len a)) with (len a) in H by lia.
      apply wp_for_range with (I := fun j t => shape (len a) L t /\ forall i k, 0 <= k < j -> 0 <= i -> i + 2 ^ k <= len a -> cell_ok t i k).
      + split; [exact S|]. intros i k Hk Hi Hb. replace k with 0 in * by lia. change (2 ^ 0) with 1 in *. unfold cell_ok. rewrite H by lia. f_equal. change (2 ^ 0) with 1. lia.
      + intros j t1 Hj [S1 H1]. rewrite !Z.shiftl_mul_pow2, !Z.mul_1_l by lia.
        assert (Ep : 2 ^ j = 2 * 2 ^ (j - 1)) by (rewrite <- Z.pow_succ_r by lia; f_equal; lia). assert (P0 : 0 < 2 ^ (j - 1)) by (apply Z.pow_pos_nonneg; lia).
        apply wp_for_range with (I := fun q t => shape (len a) L t /\ (forall i k, 0 <= k < j -> 0 <= i -> i + 2 ^ k <= len a -> cell_ok t i k) /\ (forall i, 0 <= i < q -> cell_ok t i j)).
        * split; [exact S1|]. split; [exact H1|]. intros; lia.
        * intros i t2 Hi (S2 & H2 & H3).
          assert (HjL : j < L). { pose proof (pow_log j ltac:(lia)). unfold L. lia. }
          rewrite (tab_get_ok _ _ t2 i (j - 1) S2) by lia. cbn [bind]. rewrite (tab_get_ok _ _ t2 (i + 2 ^ (j - 1)) (j - 1) S2) by lia. cbn [bind].
          eapply wp_mono; [apply (tab_set_ok _ _ t2 i j _ S2); lia|]. intros t3 (S3 & E1 & E2). split; [exact S3|]. split.
          -- intros i' k Hk Hi' Hb. unfold cell_ok. assert (0 < 2 ^ k) by (apply Z.pow_pos_nonneg; lia). rewrite E2; [apply H2; lia|lia|lia|congruence || (intros [=]; lia)].
          -- intros i' Hi'. unfold cell_ok. destruct (Z.eq_dec i' i) as [->|]; [|rewrite E2; [apply H3; lia|lia|lia|congruence]]. rewrite E1.
             rewrite (H2 i (j - 1)) by lia. rewrite (H2 (i + 2 ^ (j - 1)) (j - 1)) by lia.
             replace (i + 2 ^ (j - 1) + 2 ^ (j - 1) - 1) with (i + 2 ^ j - 1) by lia.
             rewrite <- (rf_split a i (i + 2 ^ (j - 1)) (i + 2 ^ j - 1)) by lia.
             destruct (rf_some a i (i + 2 ^ j - 1)) as [v Ev]; [lia|lia|lia|]. rewrite Ev. cbn [option_map]. rewrite (Hcoe _ _ _ Ev). reflexivity.
        * intros t2 (S2 & H2 & H3). split; [exact S2|]. intros i k Hk Hi Hb. destruct (Z.eq_dec k j) as [->|]; [apply H3; lia|apply H2; lia].
      + intros t1 [S1 H1]. split; [exact S1|]. intros i j Hj Hi Hb. apply H1; try lia. pose proof (pow_log j Hj ltac:(lia)). unfold L. lia.
  Qed.

  Lemma sparse_query_okL t l r : sparse_okL t -> Z.log2 (r - l + 1) - 1 <= lg (r - l + 1) -> 0 <= l -> l <= r -> r < len a -> sparse_query_lg func lg t l r = Ret (rf a l r).
  Proof.
    intros [S H] HQ H1 H2 H3. unfold sparse_query_lg. destruct (Z.leb_spec (r - l + 1) 0); [lia|].
    assert (W : wp (forM (zrange_down (lg (r - l + 1) + 1) (-1)) (fun j '(start, answer) =>
         if start + Z.shiftl 1 j - 1 <=? r then x <- tab_get t start j ;; Ret (start + Z.shiftl 1 j, c2 func answer x) else Ret (start, answer)) (l, None))
      (fun '(s, x) => x = rf a l r)).
    { apply wp_for_down with (I := fun j '(s, x) => l <= s <= r + 1 /\ x = rf a l (s - 1) /\ r + 1 - s < 2 ^ (j + 1)).
      - split; [lia|]. split; [unfold rf; rewrite range_empty by lia; reflexivity|].
        pose proof (Z.log2_spec (r - l + 1) ltac:(lia)) as [_ Q]. replace (Z.succ (Z.log2 (r - l + 1))) with (Z.log2 (r - l + 1) + 1) in Q by lia.
        assert (2 ^ (Z.log2 (r - l + 1) + 1) <= 2 ^ (lg (r - l + 1) + 1 + 1)) by (apply Z.pow_le_mono_r; lia). lia.
      - intros j [s x] Hj (Hs & -> & Hp). rewrite Z.shiftl_mul_pow2, Z.mul_1_l by lia. assert (P0 : 0 < 2 ^ j) by (apply Z.pow_pos_nonneg; lia).
        replace (j - 1 + 1) with j by lia. rewrite Z.pow_add_r in Hp by lia. change (2 ^ 1) with 2 in Hp. destruct (Z.leb_spec (s + 2 ^ j - 1) r).
        + assert (j <= lg (len a)) by (apply pow_log; lia). rewrite (tab_get_ok _ _ t s j S) by lia. cbn [bind wp].
          split; [lia|]. split; [|lia]. rewrite (H s j) by lia. rewrite (rf_split a l s (s + 2 ^ j - 1)) by lia. reflexivity.
        + cbn [wp]. split; [lia|]. split; [reflexivity|lia].
      - intros [s x] (Hs & -> & Hp). pose proof (Z.log2_nonneg (r - l + 1)). replace (Z.min (-1) (lg (r - l + 1) + 1) + 1) with 0 in Hp by lia.
        change (2 ^ 0) with 1 in Hp. f_equal. lia. }
    apply wp_ex in W. destruct W as ([s x] & -> & ->). reflexivity.
  Qed.
End F.
