(** BinaryIndexedTree: node i holds the sum of positions (i - lowbit i, i]. *)
From Verif Require Import Base RangeModel RangeSpec.

Definition lb (z : Z) : Z := Z.land z (- z).

Lemma lb_double z : lb (2 * z) = 2 * lb z.
Proof.
  unfold lb. replace (- (2 * z)) with (2 * - z) by lia. apply Z.bits_inj'. intros n Hn.
  rewrite Z.land_spec. destruct (Z.eq_dec n 0) as [->|Hn0].
  - rewrite !Z.testbit_even_0. reflexivity.
  - replace n with (Z.succ (n - 1)) by lia. rewrite !Z.testbit_even_succ by lia. rewrite Z.land_spec. reflexivity.
Qed.
Lemma lb_odd q : lb (2 * q + 1) = 1.
Proof.
  unfold lb. replace (- (2 * q + 1)) with (2 * (- q - 1) + 1) by lia. apply Z.bits_inj'. intros n Hn.
  rewrite Z.land_spec. destruct (Z.eq_dec n 0) as [->|Hn0].
  - rewrite !Z.testbit_odd_0. reflexivity.
  - replace n with (Z.succ (n - 1)) by lia. rewrite !Z.testbit_odd_succ by lia. replace (Z.testbit 1 (Z.succ (n - 1))) with false by (pose proof (Z.testbit_odd_succ 0 (n - 1) ltac:(lia)) as Q; rewrite Z.testbit_0_l in Q; symmetry; exact Q).
    replace (- q - 1) with (Z.lnot q) by (unfold Z.lnot; lia). rewrite Z.lnot_spec by lia. apply andb_negb_r.
Qed.
Lemma lb_form z : 0 < z -> exists k q, 0 <= k /\ 0 <= q /\ z = 2 ^ k * (2 * q + 1) /\ lb z = 2 ^ k.
Proof.
  intros Hz. pattern z. apply Zlt_lower_bound_ind with (z := 1); [|lia]. clear z Hz. intros z IH Hz.
  destruct (Z.Even_or_Odd z) as [[y ->]|[q ->]].
  - destruct (IH y) as (k & q & Hk & Hq & E & L); [lia|]. exists (Z.succ k), q. rewrite Z.pow_succ_r by lia. rewrite lb_double, L.
    split; [lia|]. split; [lia|]. split; [rewrite E at 1; ring|ring].
  - exists 0, q. rewrite lb_odd. change (2 ^ 0) with 1. lia.
Qed.
Lemma lb_pos z : 0 < z -> 1 <= lb z <= z.
Proof. intros H. destruct (lb_form z H) as (k & q & Hk & Hq & E & ->). assert (0 < 2 ^ k) by (apply Z.pow_pos_nonneg; lia). nia. Qed.

(** node [i] covers position [p] *)
Definition covers (i p : Z) : bool := (i - lb i <? p) && (p <=? i).

Lemma covers_next i p : 0 < i -> 0 < p -> covers i p = (i =? p) || covers i (p + lb p).
Proof.
  intros Hi Hp. unfold covers. destruct (lb_form i Hi) as (j & r & Hj & Hr & Ei & Li). destruct (lb_form p Hp) as (k & q & Hk & Hq & Ep & Lp).
  rewrite Li, Lp. assert (Pj : 0 < 2 ^ j) by (apply Z.pow_pos_nonneg; lia). assert (Pk : 0 < 2 ^ k) by (apply Z.pow_pos_nonneg; lia).
  destruct (Z.leb_spec j k).
  - assert (D : 2 ^ k = 2 ^ j * 2 ^ (k - j)) by (rewrite <- Z.pow_add_r by lia; f_equal; lia).
    assert (P2 : 0 < 2 ^ (k - j)) by (apply Z.pow_pos_nonneg; lia). set (m := 2 ^ (k - j)) in *. set (J := 2 ^ j) in *.
    assert (Ep' : p = J * (m * (2 * q + 1))) by (rewrite Ep, D; ring).
    assert (En : p + 2 ^ k = J * (2 * (m * (q + 1)))) by (rewrite Ep, D; ring).
    replace (i - J) with (J * (2 * r)) by (rewrite Ei; ring). rewrite En. rewrite Ei, Ep'. clear - Pj.
    generalize (m * (2 * q + 1)) as x. generalize (m * (q + 1)) as y. intros y x.
    assert (A : (J * (2 * r) <? J * x) = (2 * r <? x)) by (destruct (Z.ltb_spec (2*r) x), (Z.ltb_spec (J * (2 * r)) (J * x)); nia || reflexivity).
    assert (B : (J * x <=? J * (2 * r + 1)) = (x <=? 2 * r + 1)) by (destruct (Z.leb_spec x (2*r+1)), (Z.leb_spec (J * x) (J * (2 * r + 1))); nia || reflexivity).
    assert (C : (J * (2 * r) <? J * (2 * y)) = (2 * r <? 2 * y)) by (destruct (Z.ltb_spec (2*r) (2*y)), (Z.ltb_spec (J * (2 * r)) (J * (2 * y))); nia || reflexivity).
    assert (D : (J * (2 * y) <=? J * (2 * r + 1)) = (2 * y <=? 2 * r + 1)) by (destruct (Z.leb_spec (2 * y) (2*r+1)), (Z.leb_spec (J * (2 * y)) (J * (2 * r + 1))); nia || reflexivity).
    assert (E : (J * (2 * r + 1) =? J * x) = (2 * r + 1 =? x)) by (destruct (Z.eqb_spec (2*r+1) x), (Z.eqb_spec (J * (2 * r+1)) (J * x)); nia || reflexivity).
    rewrite A, B, C, D, E. destruct (Z.ltb_spec (2*r) x), (Z.leb_spec x (2*r+1)), (Z.eqb_spec (2*r+1) x), (Z.ltb_spec (2*r) (2*y)), (Z.leb_spec (2*y) (2*r+1)); simpl; lia || reflexivity.
  - assert (D : 2 ^ j = 2 * 2 ^ k * 2 ^ (j - k - 1)) by (rewrite <- Z.pow_succ_r, <- Z.pow_add_r by lia; f_equal; lia).
    assert (P2 : 0 < 2 ^ (j - k - 1)) by (apply Z.pow_pos_nonneg; lia). set (m := 2 ^ (j - k - 1)) in *. set (J := 2 ^ k) in *.
    replace (i - 2 ^ j) with (J * (2 * (2 * m * r))) by (rewrite Ei, D; ring). replace i with (J * (2 * (m * (2 * r + 1)))) by (rewrite Ei, D; ring).
    replace (p + J) with (J * (2 * (q + 1))) by (rewrite Ep; ring). rewrite Ep. clear - Pk.
    generalize (2 * m * r) as x. generalize (m * (2 * r + 1)) as y. intros y x.
    assert (A : (J * (2 * x) <? J * (2 * q + 1)) = (2 * x <? 2 * q + 1)) by (destruct (Z.ltb_spec (2*x) (2 * q + 1)), (Z.ltb_spec (J * (2 * x)) (J * (2 * q + 1))); nia || reflexivity).
    assert (B : (J * (2 * q + 1) <=? J * (2 * y)) = (2 * q + 1 <=? 2 * y)) by (destruct (Z.leb_spec (2*q+1) (2*y)), (Z.leb_spec (J * (2 * q + 1)) (J * (2 * y))); nia || reflexivity).
    assert (C : (J * (2 * x) <? J * (2 * (q + 1))) = (2 * x <? 2 * (q + 1))) by (destruct (Z.ltb_spec (2*x) (2*(q+1))), (Z.ltb_spec (J * (2 * x)) (J * (2 * (q + 1)))); nia || reflexivity).
    assert (D : (J * (2 * (q + 1)) <=? J * (2 * y)) = (2 * (q + 1) <=? 2 * y)) by (destruct (Z.leb_spec (2 * (q+1)) (2*y)), (Z.leb_spec (J * (2 * (q+1))) (J * (2 * y))); nia || reflexivity).
    assert (E : (J * (2 * y) =? J * (2 * q + 1)) = (2 * y =? 2 * q + 1)) by (destruct (Z.eqb_spec (2*y) (2*q+1)), (Z.eqb_spec (J * (2 * y)) (J * (2*q+1))); nia || reflexivity).
    rewrite A, B, C, D, E.
    destruct (Z.ltb_spec (2*x) (2*q+1)), (Z.leb_spec (2*q+1) (2*y)), (Z.eqb_spec (2*y) (2*q+1)), (Z.ltb_spec (2*x) (2*(q+1))), (Z.leb_spec (2*(q+1)) (2*y)); simpl; lia || reflexivity.
Qed.

Lemma firstn_add {V} n m (l : list V) : firstn (n + m) l = firstn n l ++ firstn m (skipn n l).
Proof. revert l. induction n as [|n IH]; intros [|x l]; simpl; try reflexivity; [rewrite firstn_nil; reflexivity|]. rewrite IH. reflexivity. Qed.
Definition psum (a : list Z) (k : Z) : Z := zsum (firstn (Z.to_nat k) a).
Lemma zsum_app a b : zsum (a ++ b) = zsum a + zsum b.
Proof. induction a as [|x a IH]; simpl; [reflexivity|]. rewrite IH. lia. Qed.
Lemma psum_upd a p v k : 0 <= p < len a -> 0 <= k -> psum (zupd a p v) k = psum a k + (if p <? k then v - zn 0 a p else 0).
Proof.
  intros Hp Hk. unfold psum, zupd, zn. unfold len in Hp. revert p k Hp Hk. induction a as [|x a IH]; intros p k Hp Hk; [simpl in Hp; lia|].
  destruct (Z.eq_dec k 0) as [->|Hk0]; [simpl; destruct (Z.ltb_spec p 0); lia|].
  replace (Z.to_nat k) with (S (Z.to_nat (k - 1))) by lia. destruct (Z.eq_dec p 0) as [->|Hp0].
  - simpl. destruct (Z.ltb_spec 0 k); lia.
  - cbn [length] in Hp. specialize (IH (p - 1) (k - 1) ltac:(lia) ltac:(lia)). replace (Z.to_nat p) with (S (Z.to_nat (p - 1))) by lia. simpl. rewrite IH.
    destruct (Z.ltb_spec (p - 1) (k - 1)), (Z.ltb_spec p k); lia.
Qed.
Lemma psum_range a l r : 0 <= l -> l <= r + 1 -> psum a (r + 1) - psum a l = zsum (range_of a l r).
Proof.
  intros Hl Hr. unfold psum, range_of. replace (Z.to_nat (r + 1)) with (Z.to_nat l + Z.to_nat (r - l + 1))%nat by lia.
  rewrite firstn_add, zsum_app. lia.
Qed.

Definition tree_ok (n : Z) (g tree : list Z) : Prop :=
  len tree = n + 2 /\ forall i, 1 <= i <= n -> zn 0 tree i = psum g i - psum g (i - lb i).

Lemma add_loop_ok n g tree p v : tree_ok n g tree -> 0 <= p < n -> len g = n ->
  wp (fw_add_loop (Z.to_nat n + 2) n (p + 1) v tree) (tree_ok n (zupd g p (zn 0 g p + v))).
Proof.
  intros [Hl Ht] Hp Hg. unfold fw_add_loop.
  apply wp_while with (I := fun '(i, t) => 0 < i /\ len t = n + 2 /\
     forall j, 1 <= j <= n -> zn 0 t j + (if covers j i then v else 0) = zn 0 tree j + (if covers j (p + 1) then v else 0))
     (m := fun '(i, t) => Z.to_nat (n + 1 - i)).
  - intros [i t] (Hi & Hlt & Hc). destruct (Z.ltb_spec i (n + 1)).
    + rewrite (lget_ok Z 0) by lia. cbn [bind]. rewrite aset_ok by lia. cbn [bind wp]. fold (lb i). pose proof (lb_pos i Hi). split; [|lia].
      split; [lia|]. split; [rewrite len_zupd; exact Hlt|]. intros j Hj. specialize (Hc j Hj). rewrite (covers_next j i) in Hc by lia.
      rewrite zn_zupd by lia. rewrite (Z.eqb_sym i j). destruct (Z.eqb_spec j i) as [Ej|Hne]; [rewrite Ej in * |exact Hc].
      cbn [orb] in Hc. destruct (covers i (i + lb i)) eqn:E; [|lia]. unfold covers in E. apply andb_prop in E. destruct E as [_ E]. apply Z.leb_le in E. lia.
    + cbn [wp]. split; [exact Hlt|]. intros j Hj. specialize (Hc j Hj). assert (E : covers j i = false).
      { unfold covers. destruct (Z.leb_spec i j); [lia|]. apply andb_false_r. }
      rewrite E in Hc. rewrite (Ht j Hj) in Hc. pose proof (lb_pos j ltac:(lia)). rewrite !psum_upd by lia.
      unfold covers in Hc. destruct (Z.ltb_spec (j - lb j) (p + 1)), (Z.leb_spec (p + 1) j), (Z.ltb_spec p j), (Z.ltb_spec p (j - lb j)); simpl in Hc; lia.
  - split; [lia|]. auto.
  - lia.
Qed.

Definition fw_ok (b : fenwick) : Prop :=
  tree_ok (len (fw_array b)) (fw_array b) (fw_tree b) /\ fw_flag b = repeat 1 (length (fw_array b)).

Lemma zn_repeat (x : Z) n i : 0 <= i < Z.of_nat n -> zn 0 (repeat x n) i = x.
Proof.
  intros H. unfold zn. rewrite (nth_indep _ 0 x) by (rewrite repeat_length; lia). apply nth_repeat.
Qed.
Lemma len_repeat {V} (x : V) n : len (repeat x n) = Z.of_nat n.
Proof. unfold len. rewrite repeat_length. reflexivity. Qed.

Lemma update_ok b i v : fw_ok b -> 0 <= i < len (fw_array b) ->
  wp (fw_update b i v) (fun b' => fw_ok b' /\ fw_array b' = zupd (fw_array b) i v).
Proof.
  intros [Ht Hf] Hi. unfold fw_update, fw_update_fuel. rewrite Hf. rewrite (lget_ok Z 0) by (rewrite len_repeat; exact Hi). cbn [bind].
  rewrite zn_repeat by exact Hi. change (1 =? 0) with false. cbv iota. rewrite (aget_ok Z 0) by exact Hi. cbn [bind]. apply wp_bind.
  replace (length (fw_array b) + 2)%nat with (Z.to_nat (len (fw_array b)) + 2)%nat by (unfold len; lia).
  eapply wp_mono; [apply (add_loop_ok _ _ _ _ _ Ht Hi eq_refl)|]. intros t Ht'. rewrite aset_ok by exact Hi. cbn [bind wp]. split; [|reflexivity].
  unfold fw_ok. cbn. rewrite len_zupd. split.
  - replace (zn 0 (fw_array b) i + (v - zn 0 (fw_array b) i)) with v in Ht' by lia. exact Ht'.
  - unfold zupd. rewrite length_upd. reflexivity.
Qed.
Lemma update_err b i v : fw_ok b -> i < 0 \/ len (fw_array b) <= i -> fw_update b i v = Raise IndexError.
Proof.
  intros [Ht Hf] Hi. unfold fw_update, fw_update_fuel. rewrite Hf. unfold lget. rewrite len_repeat. fold (len (fw_array b)).
  set (j := if i <? 0 then i + len (fw_array b) else i). destruct (Z_lt_dec j 0) as [Hj|Hj]; [rewrite aget_err by (left; exact Hj); reflexivity|].
  destruct (Z_le_dec (len (fw_array b)) j) as [Hj2|Hj2]; [rewrite aget_err by (rewrite len_repeat; right; exact Hj2); reflexivity|].
  rewrite (aget_ok Z 0) by (rewrite len_repeat; unfold len in *; lia). cbn [bind]. rewrite zn_repeat by (unfold len in *; lia). change (1 =? 0) with false. cbv iota.
  rewrite aget_err by exact Hi. reflexivity.
Qed.

Lemma new_ok a : a <> [] -> wp (fw_new a) (fun b => fw_ok b /\ fw_array b = a).
Proof.
  intros Ha. assert (Hl : 0 < len a) by (destruct a; [contradiction|unfold len; cbn [length]; lia]).
  unfold fw_new. rewrite (lget_ok Z 0) by lia. cbn [bind].
  apply wp_for_range with (I := fun k b => fw_array b = a /\ tree_ok (len a) (firstn (Z.to_nat k) a ++ repeat 0 (length a - Z.to_nat k)) (fw_tree b) /\
     fw_flag b = repeat 1 (Z.to_nat k) ++ repeat 0 (length a - Z.to_nat k)).
  - cbn [fw_array fw_tree fw_flag]. change (Z.to_nat 0) with O. cbn [firstn repeat app]. rewrite Nat.sub_0_r. split; [reflexivity|]. split; [|reflexivity]. split.
    + rewrite len_repeat. unfold len. lia.
    + intros i Hi. unfold len in Hi. rewrite zn_repeat by lia.
      assert (Z0 : forall n k, psum (repeat 0 n) k = 0).
      { intros n k. unfold psum. generalize (Z.to_nat k). clear. induction n as [|n IH]; intros [|m]; simpl; auto. rewrite IH. reflexivity. }
      rewrite !Z0. reflexivity.
  - intros i b Hi (Ea & Ht & Hf). rewrite (lget_ok Z 0) by lia. cbn [bind]. unfold fw_update, fw_update_fuel. rewrite Ea, Hf.
    assert (Hnat : (Z.to_nat i < length a)%nat) by (unfold len in Hi; lia).
    rewrite (lget_ok Z 0) by (unfold len; rewrite app_length, !repeat_length; unfold len in Hi; lia). cbn [bind].
    assert (E0 : zn 0 (repeat 1 (Z.to_nat i) ++ repeat 0 (length a - Z.to_nat i)) i = 0).
    { unfold zn. rewrite app_nth2 by (rewrite repeat_length; lia). rewrite repeat_length, Nat.sub_diag. destruct (length a - Z.to_nat i)%nat; reflexivity. }
    rewrite E0. change (0 =? 0) with true. cbv iota.
    rewrite aset_ok by (unfold len; rewrite app_length, !repeat_length; unfold len in Hi; lia). cbn [bind]. apply wp_bind.
    set (g := firstn (Z.to_nat i) a ++ repeat 0 (length a - Z.to_nat i)) in *.
    assert (Lg : len g = len a) by (unfold g, len; rewrite app_length, firstn_length, repeat_length; lia).
    replace (length a + 2)%nat with (Z.to_nat (len a) + 2)%nat by (unfold len; lia).
    eapply wp_mono; [apply (add_loop_ok _ _ _ i (zn 0 a i) Ht Hi Lg)|]. intros t Ht'. rewrite aset_ok by lia. cbn [bind wp fw_array fw_tree fw_flag].
    assert (Hs : exists m, (length a - Z.to_nat i)%nat = S m /\ (length a - Z.to_nat (i + 1))%nat = m) by (exists (length a - Z.to_nat i - 1)%nat; lia).
    destruct Hs as (m & Em1 & Em2).
    assert (Eg : zupd g i (zn 0 g i + zn 0 a i) = firstn (Z.to_nat (i + 1)) a ++ repeat 0 (length a - Z.to_nat (i + 1))).
    { unfold zupd, g. rewrite upd_app2 by (rewrite firstn_length; lia). rewrite firstn_length, Nat.min_l by lia. rewrite Nat.sub_diag, Em1, Em2. cbn [repeat upd].
      unfold zn at 1. rewrite app_nth2 by (rewrite firstn_length; lia). rewrite firstn_length, Nat.min_l by lia. rewrite Nat.sub_diag. cbn [nth].
      replace (Z.to_nat (i + 1)) with (Z.to_nat i + 1)%nat by lia. rewrite firstn_add, <- app_assoc. f_equal.
      unfold zn. rewrite <- (firstn_skipn (Z.to_nat i) a) at 1. rewrite app_nth2 by (rewrite firstn_length; lia). rewrite firstn_length, Nat.min_l by lia. rewrite Nat.sub_diag.
      destruct (skipn (Z.to_nat i) a) eqn:Es; [|reflexivity]. apply (f_equal (@length Z)) in Es. rewrite skipn_length in Es. simpl in Es. lia. }
    rewrite Eg in Ht'. split; [|split; [exact Ht'|]].
    + unfold zupd, zn. apply upd_nth_same.
    + unfold zupd. rewrite upd_app2 by (rewrite repeat_length; lia). rewrite repeat_length, Nat.sub_diag, Em1, Em2. cbn [repeat upd].
      replace (Z.to_nat (i + 1)) with (Z.to_nat i + 1)%nat by lia. rewrite repeat_app, <- app_assoc. reflexivity.
  - intros b (Ea & Ht & Hf). split; [|exact Ea]. unfold fw_ok. rewrite Ea. unfold len in Ht, Hf. replace (Z.to_nat (Z.max 0 (Z.of_nat (length a)))) with (length a) in * by lia. rewrite Nat.sub_diag in *. cbn [repeat] in *.
    rewrite app_nil_r in Ht, Hf. rewrite firstn_all in Ht. auto.
Qed.

Lemma prefix_ok b i : fw_ok b -> i < len (fw_array b) -> fw_prefix b i = Ret (psum (fw_array b) (i + 1)).
Proof.
  intros [[Hl Ht] _] Hi. unfold fw_prefix.
  assert (W : wp (while_loop (Z.to_nat (i + 1) + 1) (fun '(index, sum) => if 0 <? index then v <- lget (fw_tree b) index ;; Ret (Next (index - Z.land index (- index), sum + v))
    else Ret (Break sum)) (i + 1, 0)) (fun s => s = psum (fw_array b) (i + 1))).
  { apply wp_while with (I := fun '(k, s) => k <= i + 1 /\ s + psum (fw_array b) k = psum (fw_array b) (i + 1)) (m := fun '(k, s) => Z.to_nat k).
    - intros [k s] [Hk Hs]. destruct (Z.ltb_spec 0 k).
      + rewrite (lget_ok Z 0) by lia. cbn [bind wp]. fold (lb k). pose proof (lb_pos k ltac:(lia)). rewrite (Ht k) by lia. split; [|lia]. split; lia.
      + cbn [wp]. unfold psum in Hs at 1. replace (Z.to_nat k) with O in Hs by lia. simpl in Hs. lia.
    - split; lia.
    - lia. }
  apply wp_ex in W. destruct W as (s & E & ->). exact E.
Qed.
Lemma sum_ok b l r : fw_ok b -> 0 <= l -> l <= r + 1 -> r < len (fw_array b) -> fw_sum b l r = Ret (zsum (range_of (fw_array b) l r)).
Proof.
  intros O Hl Hlr Hr. unfold fw_sum. rewrite <- psum_range by lia. destruct (Z.leb_spec 1 l).
  - rewrite !prefix_ok by (auto; lia). cbn [bind]. replace (l - 1 + 1) with l by lia. reflexivity.
  - rewrite prefix_ok by (auto; lia). replace l with 0 by lia. unfold psum at 3. simpl. f_equal. lia.
Qed.
