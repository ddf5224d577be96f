(** SparseTable and the array back ends: every query is the fold of the inclusive range. *)
From Verif Require Import Base RangeModel RangeSpec FenwickProofs.

Lemma skipn_skipn {V} n m (l : list V) : skipn n (skipn m l) = skipn (m + n) l.
Proof. revert l. induction m as [|m IH]; intros [|x l]; simpl; try reflexivity; [rewrite skipn_nil; reflexivity|apply IH]. Qed.

Section F.
  Context {V : Type} (func : combiner V) (op : V -> V -> V) (CB : combines func op).

  Lemma fold_left_assoc l : forall x y, fold_left op l (op x y) = op x (fold_left op l y).
  Proof. induction l as [|z l IH]; intros x y; simpl; [reflexivity|]. rewrite <- (cb_assoc _ _ CB). apply IH. Qed.
  Lemma fold1_app l1 l2 : fold1 op (l1 ++ l2) = c2 func (fold1 op l1) (fold1 op l2).
  Proof.
    destruct l1 as [|x l1]; simpl; [rewrite (cb_l _ _ CB); reflexivity|]. destruct l2 as [|y l2]; simpl.
    - rewrite app_nil_r, (cb_r _ _ CB). reflexivity.
    - rewrite (cb2 _ _ CB). rewrite fold_left_app. simpl. rewrite fold_left_assoc. reflexivity.
  Qed.
  Lemma range_split (a : list V) l m r : 0 <= l -> l <= m -> m <= r + 1 -> range_of a l r = range_of a l (m - 1) ++ range_of a m r.
  Proof.
    intros H1 H2 H3. unfold range_of. replace (Z.to_nat (r - l + 1)) with (Z.to_nat (m - 1 - l + 1) + Z.to_nat (r - m + 1))%nat by lia.
    rewrite firstn_add. f_equal. rewrite skipn_skipn. do 2 f_equal. lia.
  Qed.
  Lemma range_empty (a : list V) l r : r < l -> range_of a l r = [].
  Proof. intros H. unfold range_of. replace (Z.to_nat (r - l + 1)) with O by lia. reflexivity. Qed.
  Lemma range_one (a : list V) d i : 0 <= i < len a -> range_of a i i = [zn d a i].
  Proof.
    intros H. unfold range_of, zn. replace (Z.to_nat (i - i + 1)) with 1%nat by lia. unfold len in H.
    rewrite <- (firstn_skipn (Z.to_nat i) a) at 2. rewrite app_nth2; rewrite firstn_length, Nat.min_l by lia; [|lia]. rewrite Nat.sub_diag.
    destruct (skipn (Z.to_nat i) a) eqn:Es; [|reflexivity]. apply (f_equal (@length V)) in Es. rewrite skipn_length in Es. simpl in Es. lia.
  Qed.
  Definition rf (a : list V) l r := fold1 op (range_of a l r).
  Lemma rf_split a l m r : 0 <= l -> l <= m -> m <= r + 1 -> rf a l r = c2 func (rf a l (m - 1)) (rf a m r).
  Proof. intros. unfold rf. rewrite (range_split a l m r) by lia. apply fold1_app. Qed.
  Lemma rf_one a d i : 0 <= i < len a -> rf a i i = Some (zn d a i).
  Proof. intros H. unfold rf. rewrite (range_one a d i H). reflexivity. Qed.
  Lemma rf_some a l r : 0 <= l -> l <= r -> r < len a -> exists v, rf a l r = Some v.
  Proof.
    intros H1 H2 H3. unfold rf, fold1. destruct (range_of a l r) eqn:E; [|eauto]. apply (f_equal (@length V)) in E. unfold range_of in E.
    rewrite firstn_length, skipn_length in E. unfold len in H3. simpl in E. lia.
  Qed.

  (** ** array back end *)
  Lemma check_ok l r n : 0 <= l -> l <= r -> r < n -> check_range l (r + 1) 0 n = Ret tt.
  Proof. intros. unfold check_range. destruct (Z.leb_spec (r + 1) l); [lia|]. destruct (Z.ltb_spec l 0); [lia|]. destruct (Z.ltb_spec n (r + 1)); [lia|]. reflexivity. Qed.
  Lemma check_err l r n : ~ (0 <= l /\ l <= r /\ r < n) -> check_range l (r + 1) 0 n = Raise (if r <? l then ValueError else IndexError).
  Proof.
    intros. unfold check_range. destruct (Z.leb_spec (r + 1) l), (Z.ltb_spec r l); try lia; try reflexivity.
    destruct (Z.ltb_spec l 0); [reflexivity|]. destruct (Z.ltb_spec n (r + 1)); [reflexivity|]. lia.
  Qed.
  Lemma array_query_ok a l r : 0 <= l -> l <= r -> r < len a -> rqs_array_query func a l r = Ret (rf a l r).
  Proof.
    intros H1 H2 H3. unfold rqs_array_query. rewrite check_ok by lia. cbn [bind].
    assert (Hd : exists d : V, True) by (destruct a as [|d a']; [unfold len in H3; simpl in H3; lia|exists d; exact I]). destruct Hd as [d _].
    rewrite (lget_ok V d) by lia. cbn [bind]. destruct (Z.eqb_spec (r - l + 1) 1) as [E|E].
    - rewrite (cb1 _ _ CB). replace r with l by lia. rewrite (rf_one a d l) by lia. reflexivity.
    - rewrite (lget_ok V d) by lia. cbn [bind].
      assert (W : wp (forM (zrange (l + 2) (r + 1)) (fun i ans => z <- lget a i ;; Ret (c2 func ans (Some z))) (c2 func (Some (zn d a l)) (Some (zn d a (l + 1)))))
        (fun x => x = rf a l r)).
      { apply wp_for_range with (I := fun i x => x = rf a l (i - 1)).
        - rewrite (rf_split a l (l + 1) (l + 2 - 1)) by lia. replace (l + 1 - 1) with l by lia. replace (l + 2 - 1) with (l + 1) by lia. rewrite !(rf_one a d) by lia. reflexivity.
        - intros i x Hi ->. rewrite (lget_ok V d) by lia. cbn [bind wp]. rewrite (rf_split a l i (i + 1 - 1)) by lia. replace (i + 1 - 1) with i by lia. rewrite (rf_one a d i) by lia. reflexivity.
        - intros x ->. f_equal. lia. }
      apply wp_ex in W. destruct W as (x & -> & ->). reflexivity.
  Qed.

  (** ** SparseTable *)
  Context (coe : V -> V) (a : list V) (d : V).
  (** every partial fold is left unchanged by the coercion (true of ints) *)
  Context (Hcoe : forall l r v, rf a l r = Some v -> coe v = v).
  Notation table := (list (list (option V))).
  Definition tg (t : table) (i j : Z) : option V := zn None (zn [] t i) j.
  Definition shape (n L : Z) (t : table) : Prop := len t = n /\ forall i, 0 <= i < n -> len (zn [] t i) = L.
  Lemma tab_get_ok n L t i j : shape n L t -> 0 <= i < n -> 0 <= j < L -> tab_get t i j = Ret (tg t i j).
  Proof. intros [E S] Hi Hj. unfold tab_get. rewrite (lget_ok _ []) by lia. cbn [bind]. rewrite (aget_ok _ None) by (rewrite S; lia). reflexivity. Qed.
  Lemma tab_set_ok n L t i j v : shape n L t -> 0 <= i < n -> 0 <= j < L ->
    wp (tab_set coe t i j v) (fun t' => shape n L t' /\ tg t' i j = option_map coe v /\
      forall i' j', 0 <= i' < n -> 0 <= j' -> (i', j') <> (i, j) -> tg t' i' j' = tg t i' j').
  Proof.
    intros [E S] Hi Hj. unfold tab_set. rewrite (lget_ok _ []) by lia. cbn [bind]. rewrite aset_ok by (rewrite S; lia). cbn [bind]. rewrite aset_ok by lia. cbn [wp].
    split; [split|split].
    - rewrite len_zupd. exact E.
    - intros i' Hi'. rewrite zn_zupd by lia. destruct (Z.eqb_spec i i') as [<-|]; [rewrite len_zupd|]; apply S; lia.
    - unfold tg. rewrite zn_zupd_eq by lia. rewrite zn_zupd_eq by (rewrite S; lia). reflexivity.
    - intros i' j' Hi' Hj' Hne. unfold tg. rewrite zn_zupd by lia. destruct (Z.eqb_spec i i') as [<-|]; [|reflexivity].
      rewrite zn_zupd_ne; [reflexivity|rewrite S; lia|lia|congruence].
  Qed.

  Definition cell_ok (t : table) (i j : Z) : Prop := tg t i j = rf a i (i + 2 ^ j - 1).
  Definition sparse_ok (t : table) : Prop := shape (len a) (Z.log2 (len a) + 1) t /\
    forall i j, 0 <= j -> 0 <= i -> i + 2 ^ j <= len a -> cell_ok t i j.

  Lemma pow_log j : 0 <= j -> 2 ^ j <= len a -> j <= Z.log2 (len a).
  Proof. intros Hj H. pose proof (Z.log2_le_mono _ _ H) as Q. rewrite Z.log2_pow2 in Q by lia. exact Q. Qed.

  Lemma sparse_new_ok : a <> [] -> wp (sparse_new func coe a) sparse_ok.
  Proof.
    intros Ha. assert (Hl : 0 < len a) by (destruct a; [contradiction|unfold len; cbn [length]; lia]). unfold sparse_new.
    destruct (Z.eqb_spec (len a) 0); [lia|]. set (L := Z.log2 (len a) + 1). assert (HL : 0 < L) by (pose proof (Z.log2_nonneg (len a)); unfold L; lia).
    assert (HL2 : len a < 2 ^ L) by (unfold L; apply Z.log2_spec; lia).
    apply wp_bind. apply wp_for_range with (I := fun k t => shape (len a) L t /\ forall i, 0 <= i < k -> tg t i 0 = rf a i i).
    - split; [|intros; lia]. split; [rewrite len_repeat; reflexivity|]. intros i Hi. unfold zn. rewrite (nth_indep _ [] (repeat None (Z.to_nat L))) by (rewrite repeat_length; unfold len in Hi; lia).
      rewrite nth_repeat, len_repeat. lia.
    - intros i t Hi [S H]. rewrite (lget_ok V d) by lia. cbn [bind]. rewrite (cb1 _ _ CB).
      eapply wp_mono; [apply (tab_set_ok _ _ t i 0 _ S); lia|]. intros t' (S' & E1 & E2). split; [exact S'|].
      intros k Hk. destruct (Z.eq_dec k i) as [->|]; [|rewrite E2; [apply H; lia|lia|lia|congruence]]. rewrite E1. cbn [option_map].
      rewrite (rf_one a d i) by lia. rewrite (Hcoe i i); [reflexivity|]. apply rf_one. lia.
    - intros t [S H]. replace (Z.max 0 (len a)) with (len a) in H by lia.
      apply wp_for_range with (I := fun j t => shape (len a) L t /\ forall i k, 0 <= k < j -> 0 <= i -> i + 2 ^ k <= len a -> cell_ok t i k).
      + split; [exact S|]. intros i k Hk Hi Hb. replace k with 0 in * by lia. change (2 ^ 0) with 1 in *. unfold cell_ok. rewrite H by lia. f_equal. change (2 ^ 0) with 1. lia.
      + intros j t1 Hj [S1 H1]. rewrite !Z.shiftl_mul_pow2, !Z.mul_1_l by lia.
        assert (Ep : 2 ^ j = 2 * 2 ^ (j - 1)) by (rewrite <- Z.pow_succ_r by lia; f_equal; lia). assert (P0 : 0 < 2 ^ (j - 1)) by (apply Z.pow_pos_nonneg; lia).
        apply wp_for_range with (I := fun q t => shape (len a) L t /\ (forall i k, 0 <= k < j -> 0 <= i -> i + 2 ^ k <= len a -> cell_ok t i k) /\ (forall i, 0 <= i < q -> cell_ok t i j)).
        * split; [exact S1|]. split; [exact H1|]. intros; lia.
        * intros i t2 Hi (S2 & H2 & H3).
          assert (HjL : j < L). { pose proof (pow_log j ltac:(lia)). unfold L. lia. }
          rewrite (tab_get_ok _ _ t2 i (j - 1) S2) by lia. cbn [bind]. rewrite (tab_get_ok _ _ t2 (i + 2 ^ (j - 1)) (j - 1) S2) by lia. cbn [bind].
          eapply wp_mono; [apply (tab_set_ok _ _ t2 i j _ S2); lia|]. intros t3 (S3 & E1 & E2). split; [exact S3|]. split.
          -- intros i' k Hk Hi' Hb. unfold cell_ok. assert (0 < 2 ^ k) by (apply Z.pow_pos_nonneg; lia). rewrite E2; [apply H2; lia|lia|lia|congruence || (intros [=]; lia)].
          -- intros i' Hi'. unfold cell_ok. destruct (Z.eq_dec i' i) as [->|]; [|rewrite E2; [apply H3; lia|lia|lia|congruence]]. rewrite E1.
             rewrite (H2 i (j - 1)) by lia. rewrite (H2 (i + 2 ^ (j - 1)) (j - 1)) by lia.
             replace (i + 2 ^ (j - 1) + 2 ^ (j - 1) - 1) with (i + 2 ^ j - 1) by lia.
             rewrite <- (rf_split a i (i + 2 ^ (j - 1)) (i + 2 ^ j - 1)) by lia.
             destruct (rf_some a i (i + 2 ^ j - 1)) as [v Ev]; [lia|lia|lia|]. rewrite Ev. cbn [option_map]. rewrite (Hcoe _ _ _ Ev). reflexivity.
        * intros t2 (S2 & H2 & H3). split; [exact S2|]. intros i k Hk Hi Hb. destruct (Z.eq_dec k j) as [->|]; [apply H3; lia|apply H2; lia].
      + intros t1 [S1 H1]. split; [exact S1|]. intros i j Hj Hi Hb. apply H1; try lia. pose proof (pow_log j Hj ltac:(lia)). unfold L. lia.
  Qed.

  Lemma sparse_query_ok t l r : sparse_ok t -> 0 <= l -> l <= r -> r < len a -> sparse_query func t l r = Ret (rf a l r).
  Proof.
    intros [S H] H1 H2 H3. unfold sparse_query. destruct (Z.leb_spec (r - l + 1) 0); [lia|].
    assert (W : wp (forM (zrange_down (Z.log2 (r - l + 1) + 1) (-1)) (fun j '(start, answer) =>
         if start + Z.shiftl 1 j - 1 <=? r then x <- tab_get t start j ;; Ret (start + Z.shiftl 1 j, c2 func answer x) else Ret (start, answer)) (l, None))
      (fun '(s, x) => x = rf a l r)).
    { apply wp_for_down with (I := fun j '(s, x) => l <= s <= r + 1 /\ x = rf a l (s - 1) /\ r + 1 - s < 2 ^ (j + 1)).
      - split; [lia|]. split; [unfold rf; rewrite range_empty by lia; reflexivity|].
        pose proof (Z.log2_spec (r - l + 1) ltac:(lia)) as [_ Q]. replace (Z.succ (Z.log2 (r - l + 1))) with (Z.log2 (r - l + 1) + 1) in Q by lia.
        assert (2 ^ (Z.log2 (r - l + 1) + 1) <= 2 ^ (Z.log2 (r - l + 1) + 1 + 1)) by (apply Z.pow_le_mono_r; lia). lia.
      - intros j [s x] Hj (Hs & -> & Hp). rewrite Z.shiftl_mul_pow2, Z.mul_1_l by lia. assert (P0 : 0 < 2 ^ j) by (apply Z.pow_pos_nonneg; lia).
        replace (j - 1 + 1) with j by lia. rewrite Z.pow_add_r in Hp by lia. change (2 ^ 1) with 2 in Hp. destruct (Z.leb_spec (s + 2 ^ j - 1) r).
        + assert (j <= Z.log2 (len a)) by (apply pow_log; lia). rewrite (tab_get_ok _ _ t s j S) by lia. cbn [bind wp].
          split; [lia|]. split; [|lia]. rewrite (H s j) by lia. rewrite (rf_split a l s (s + 2 ^ j - 1)) by lia. reflexivity.
        + cbn [wp]. split; [lia|]. split; [reflexivity|lia].
      - intros [s x] (Hs & -> & Hp). pose proof (Z.log2_nonneg (r - l + 1)). replace (Z.min (-1) (Z.log2 (r - l + 1) + 1) + 1) with 0 in Hp by lia.
        change (2 ^ 0) with 1 in Hp. f_equal. lia. }
    apply wp_ex in W. destruct W as ([s x] & -> & ->). reflexivity.
  Qed.
End F.
