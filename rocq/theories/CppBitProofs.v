(** Proofs about the C++ BinaryIndexedTree: its tree holds, modulo 2^64, what the tree of the Python class holds. *)
From Verif Require Import Base RangeModel RangeSpec FenwickProofs CppModel CppProofs CppArrayModel CppBitModel.

Lemma s64_mod x y : s64 x = s64 y <-> x mod word = y mod word.
Proof.
  unfold s64. rewrite word_val. split; intros H.
  - assert (E : (x + 2 ^ 63) mod 18446744073709551616 = (y + 2 ^ 63) mod 18446744073709551616) by lia.
    replace x with ((x + 2 ^ 63) - 2 ^ 63) by lia. replace y with ((y + 2 ^ 63) - 2 ^ 63) by lia. rewrite Zminus_mod, E, <- Zminus_mod. reflexivity.
  - rewrite Zplus_mod, H, <- Zplus_mod. reflexivity.
Qed.
Lemma s64_s64 x : s64 (s64 x) = s64 x.
Proof. apply s64_mod. unfold s64. rewrite Zminus_mod, Zmod_mod, <- Zminus_mod. f_equal. lia. Qed.
Lemma s64_modw x : s64 x mod word = x mod word.
Proof. apply s64_mod. apply s64_s64. Qed.
Lemma s64_add x y : s64 (s64 x + s64 y) = s64 (x + y).
Proof. apply s64_mod. rewrite Zplus_mod, !s64_modw, <- Zplus_mod. reflexivity. Qed.
Lemma s64_sub x y : s64 (s64 x - s64 y) = s64 (x - y).
Proof. apply s64_mod. rewrite Zminus_mod, !s64_modw, <- Zminus_mod. reflexivity. Qed.

Lemma lget_inv (l : list Z) i v : 0 <= i -> lget l i = Ret v -> i < len l /\ pl_get l i = Ret v /\ pl_get (map s64 l) i = Ret (s64 v).
Proof.
  intros Hi. unfold lget, aget, pl_get, len. rewrite map_length. assert (H0 : i <? 0 = false) by (apply Z.ltb_ge; lia). rewrite !H0.
  cbv zeta. rewrite ?H0. destruct (Z.leb_spec (Z.of_nat (length l)) i); cbn [orb]; [discriminate|].
  intros E. split; [lia|]. rewrite nth_error_map. destruct (nth_error l (Z.to_nat i)); [|discriminate]. injection E as ->. auto.
Qed.
Lemma aget_inv (l : list Z) i v : 0 <= i -> aget l i = Ret v -> pl_get l i = Ret v.
Proof. intros Hi H. apply (lget_inv l i v Hi). unfold lget. destruct (Z.ltb_spec i 0); [lia|exact H]. Qed.
Lemma upd_map (f : Z -> Z) (l : list Z) : forall n v, map f (upd l n v) = upd (map f l) n (f v).
Proof. induction l as [|x l IH]; intros [|n] v; cbn; auto. f_equal. apply IH. Qed.
Lemma aset_inv (l l' : list Z) i v : 0 <= i -> aset l i v = Ret l' -> pl_set l i v = Ret l' /\ pl_set (map s64 l) i (s64 v) = Ret (map s64 l').
Proof.
  intros Hi. unfold aset, pl_set, len. rewrite map_length. assert (H0 : i <? 0 = false) by (apply Z.ltb_ge; lia). rewrite !H0.
  cbv zeta. rewrite ?H0. destruct (Z.leb_spec (Z.of_nat (length l)) i); cbn [orb]; [discriminate|].
  intros [= <-]. rewrite upd_map. auto.
Qed.

Lemma add_loop_sim (size v w : Z) : size < 2 ^ 62 -> s64 w = s64 v -> forall fuel index tree tree', 0 < index < 2 ^ 63 ->
  fw_add_loop fuel size index v tree = Ret tree' -> cb_add_loop fuel size index w (map s64 tree) = Ret (map s64 tree').
Proof.
  intros Hs Hw. unfold fw_add_loop, cb_add_loop. induction fuel as [|n IH]; intros index tree tree' Hi; [discriminate|]. cbn [while_loop].
  destruct (Z.ltb_spec index (size + 1)); [|intros [= <-]; reflexivity].
  destruct (lget tree index) as [x| |] eqn:E1; cbn [bind]; try discriminate. destruct (lget_inv tree index x ltac:(lia) E1) as (_ & _ & E2). rewrite E2. cbn [bind].
  destruct (aset tree index (x + v)) as [t1| |] eqn:E3; cbn [bind]; try discriminate. destruct (aset_inv tree t1 index (x + v) ltac:(lia) E3) as [_ E4].
  replace (s64 (s64 x + w)) with (s64 (x + v)) by (rewrite <- (s64_add x v), <- Hw, !s64_add; rewrite <- (s64_add (s64 x) w), s64_s64, s64_add; reflexivity).
  rewrite E4. cbn [bind]. pose proof (lb_pos index ltac:(lia)) as HL. unfold lb in HL.
  rewrite (s64_id (-1 * index)) by lia. replace (-1 * index) with (- index) by lia. rewrite (s64_id (index + _)) by lia. apply IH. lia.
Qed.

Definition sim (b : fenwick) (c : cbit) : Prop := cb_array c = fw_array b /\ cb_flag c = fw_flag b /\ cb_tree c = map s64 (fw_tree b).
Definition fits_long (v : Z) : Prop := - 2 ^ 63 <= v < 2 ^ 63.
Lemma as_long_ok v : fits_long v -> as_long v = Ret v.
Proof. intros [H1 H2]. unfold as_long. destruct (Z.ltb_spec v (- 2 ^ 63)); [lia|]. destruct (Z.leb_spec (2 ^ 63) v); [lia|]. reflexivity. Qed.

Lemma update_sim b c b' i v : sim b c -> len (fw_array b) < 2 ^ 62 -> 0 <= i < len (fw_array b) -> fits_long v -> fw_update b i v = Ret b' ->
  exists c', cb_update c i v = Ret c' /\ sim b' c'.
Proof.
  intros (Ea & Ef & Et) Hs Hi Hv. unfold fw_update, fw_update_fuel, cb_update, cb_update_fuel. rewrite Ea, Ef, Et.
  rewrite (as_long_ok i) by (unfold fits_long; lia). rewrite (as_long_ok v) by exact Hv. cbn [bind]. cbv zeta. rewrite (s64_id (i + 1)) by lia.
  destruct (lget (fw_flag b) i) as [f| |] eqn:E1; cbn [bind]; try discriminate. destruct (lget_inv _ i f ltac:(lia) E1) as (_ & E1' & _). rewrite E1'. cbn [bind].
  destruct (f =? 0).
  - destruct (aset (fw_flag b) i 1) as [fl| |] eqn:E2; cbn [bind]; try discriminate. destruct (aset_inv _ _ i 1 ltac:(lia) E2) as [E2' _]. rewrite E2'. cbn [bind].
    destruct (fw_add_loop _ _ _ _ _) as [t| |] eqn:E3; cbn [bind]; try discriminate. rewrite (add_loop_sim _ v v Hs eq_refl _ (i + 1) _ _ ltac:(lia) E3). cbn [bind].
    destruct (aset (fw_array b) i v) as [a| |] eqn:E4; cbn [bind]; try discriminate. destruct (aset_inv _ _ i v ltac:(lia) E4) as [E4' _]. rewrite E4'. cbn [bind].
    intros [= <-]. eexists. split; [reflexivity|]. repeat split; cbn; auto.
  - destruct (aget (fw_array b) i) as [o| |] eqn:E2; cbn [bind]; try discriminate. rewrite (aget_inv _ i o ltac:(lia) E2). cbn [bind].
    destruct (fw_add_loop _ _ _ _ _) as [t| |] eqn:E3; cbn [bind]; try discriminate. rewrite (add_loop_sim _ (v - o) (s64 (v - o)) Hs (s64_s64 _) _ (i + 1) _ _ ltac:(lia) E3). cbn [bind].
    destruct (aset (fw_array b) i v) as [a| |] eqn:E4; cbn [bind]; try discriminate. destruct (aset_inv _ _ i v ltac:(lia) E4) as [E4' _]. rewrite E4'. cbn [bind].
    intros [= <-]. eexists. split; [reflexivity|]. repeat split; cbn; auto.
Qed.

Lemma fw_update_array b b' i v : fw_update b i v = Ret b' -> 0 <= i -> fw_array b' = upd (fw_array b) (Z.to_nat i) v.
Proof.
  unfold fw_update, fw_update_fuel. intros H Hi. destruct (lget (fw_flag b) i) as [f| |]; cbn [bind] in H; try discriminate.
  assert (A : forall a, aset (fw_array b) i v = Ret a -> a = upd (fw_array b) (Z.to_nat i) v).
  { intros a. unfold aset. destruct (Z.ltb_spec i 0); [lia|]. destruct ((i <? 0) || (len (fw_array b) <=? i)); congruence. }
  destruct (f =? 0).
  - destruct (aset (fw_flag b) i 1); cbn [bind] in H; try discriminate. destruct (fw_add_loop _ _ _ _ _); cbn [bind] in H; try discriminate.
    destruct (aset (fw_array b) i v) eqn:E; cbn [bind] in H; try discriminate. injection H as <-. cbn. auto.
  - destruct (aget (fw_array b) i); cbn [bind] in H; try discriminate. destruct (fw_add_loop _ _ _ _ _); cbn [bind] in H; try discriminate.
    destruct (aset (fw_array b) i v) eqn:E; cbn [bind] in H; try discriminate. injection H as <-. cbn. auto.
Qed.

Lemma new_sim a : a <> [] -> len a < 2 ^ 62 -> Forall fits_long a -> forall b, fw_new a = Ret b -> exists c, cb_new a = Ret c /\ sim b c.
Proof.
  intros Ha Hs F b. unfold fw_new, cb_new. destruct a as [|a0 a1]; [contradiction|]. set (a := a0 :: a1) in *.
  destruct (lget a 0); cbn [bind]; try discriminate.
  assert (L : forall l b0 c0, Forall (fun i => 0 <= i < len a) l -> sim b0 c0 -> fw_array b0 = a ->
    forall b1, forM l (fun index b => v <- lget a index ;; fw_update b index v) b0 = Ret b1 ->
    exists c1, forM l (fun i b => v <- pl_get (cb_array b) i ;; cb_update b i v) c0 = Ret c1 /\ sim b1 c1).
  { induction l as [|i l IH]; intros b0 c0 FI S Eb b1; cbn [forM]; [intros [= <-]; exists c0; auto|]. inversion FI as [|? ? Hi FI']; subst.
    destruct (lget a i) as [v| |] eqn:E1; cbn [bind]; try discriminate. destruct (lget_inv a i v ltac:(lia) E1) as (_ & E1' & _).
    rewrite (proj1 S), Eb, E1'. cbn [bind]. destruct (fw_update b0 i v) as [b2| |] eqn:E2; cbn [bind]; try discriminate.
    assert (Hv : fits_long v).
    { rewrite Forall_forall in F. apply F. unfold lget, aget in E1. destruct (Z.ltb_spec i 0); [lia|]. destruct (Z.ltb_spec i 0); [lia|].
      destruct (len a <=? i); cbn [orb] in E1; [discriminate|]. destruct (nth_error a (Z.to_nat i)) eqn:E; [|discriminate]. injection E1 as ->. eapply nth_error_In; eauto. }
    destruct (update_sim b0 c0 b2 i v S ltac:(rewrite Eb; exact Hs) ltac:(rewrite Eb; exact Hi) Hv E2) as (c2 & E3 & S2). rewrite E3. cbn [bind].
    intros H. apply (IH b2 c2 FI' S2); [|exact H]. rewrite (fw_update_array _ _ _ _ E2) by lia. rewrite Eb.
    unfold lget, aget in E1. destruct (Z.ltb_spec i 0); [lia|]. destruct (Z.ltb_spec i 0); [lia|]. destruct (len a <=? i); cbn [orb] in E1; [discriminate|].
    destruct (nth_error a (Z.to_nat i)) eqn:E; [|discriminate]. injection E1 as ->. erewrite <- (nth_error_nth a _ 0 E). apply upd_nth_same. }
  apply L; [|split; [reflexivity|split; [reflexivity|]]|reflexivity].
  - apply Forall_forall. intros i Hi. apply zrange_in in Hi. lia.
  - cbn [cb_tree fw_tree]. generalize (length a + 2)%nat. clear. intros n. induction n as [|n IH]; [reflexivity|]. cbn [repeat map]. rewrite <- IH. reflexivity.
Qed.

Lemma prefix_loop_sim (t : list Z) : forall fuel k s0 s, fits_long k ->
  while_loop fuel (fun '(index, sum) => if 0 <? index then v <- lget t index ;; Ret (Next (index - Z.land index (- index), sum + v)) else Ret (Break sum)) (k, s0) = Ret s ->
  while_loop fuel (fun '(index, sum) =>
    if 0 <? index then v <- pl_get (map s64 t) index ;; Ret (Next (s64 (index - Z.land index (s64 (-1 * index))), s64 (sum + v)))
    else Ret (Break sum)) (k, s64 s0) = Ret (s64 s).
Proof.
  induction fuel as [|n IH]; intros k s0 s Hk; [discriminate|]. cbn [while_loop]. destruct (Z.ltb_spec 0 k); [|intros [= <-]; reflexivity].
  destruct (lget t k) as [x| |] eqn:E1; cbn [bind]; try discriminate. destruct (lget_inv _ k x ltac:(lia) E1) as (_ & _ & E2). rewrite E2. cbn [bind].
  pose proof (lb_pos k ltac:(lia)) as HL. unfold lb in HL. unfold fits_long in *.
  rewrite (s64_id (-1 * k)) by lia. replace (-1 * k) with (- k) by lia. rewrite (s64_id (k - _)) by lia. rewrite s64_add. apply IH. lia.
Qed.
Lemma prefix_sim b c i s : sim b c -> fits_long (i + 1) -> fits_long i -> fw_prefix b i = Ret s -> cb_prefix c i = Ret (s64 s).
Proof.
  intros (_ & _ & Et) Hi Hi' H. unfold cb_prefix. rewrite as_long_ok by exact Hi'. cbn [bind]. rewrite Et, (s64_id (i + 1)) by exact Hi.
  apply (prefix_loop_sim (fw_tree b) _ (i + 1) 0 s Hi H).
Qed.
Lemma sum_sim b c l r s : sim b c -> 0 <= l -> l <= r + 1 -> 0 <= r < 2 ^ 62 -> fw_sum b l r = Ret s -> cb_sum c l r = Ret (s64 s).
Proof.
  intros S Hl Hlr Hr. unfold fw_sum, cb_sum. rewrite !as_long_ok by (unfold fits_long; lia). cbn [bind]. destruct (1 <=? l) eqn:E.
  - destruct (fw_prefix b r) as [x| |] eqn:E1; cbn [bind]; try discriminate. destruct (fw_prefix b (l - 1)) as [y| |] eqn:E2; cbn [bind]; try discriminate. intros [= <-].
    apply Z.leb_le in E. rewrite (prefix_sim b c r x S), (prefix_sim b c (l - 1) y S); cbn [bind]; auto; try (unfold fits_long; lia). rewrite s64_sub. reflexivity.
  - intros H. apply (prefix_sim b c); auto; unfold fits_long; lia.
Qed.
Lemma run_sim us : forall b c b', sim b c -> fw_ok b -> len (fw_array b) < 2 ^ 62 -> Forall (fun u => 0 <= fst u < len (fw_array b) /\ fits_long (snd u)) us ->
  forM us (fun u b => fw_update b (fst u) (snd u)) b = Ret b' -> exists c', forM us (fun u c => cb_update c (fst u) (snd u)) c = Ret c' /\ sim b' c'.
Proof.
  induction us as [|[i v] us IH]; intros b c b' S O Hs F; cbn [forM fst snd]; [intros [= <-]; exists c; auto|].
  inversion F as [|? ? [Hi Hv] F']; subst. cbn [fst snd] in *. destruct (fw_update b i v) as [b1| |] eqn:E; cbn [bind]; try discriminate.
  destruct (update_sim b c b1 i v S Hs Hi Hv E) as (c1 & E1 & S1). rewrite E1. cbn [bind]. pose proof (update_ok b i v O Hi) as W. rewrite E in W. cbn [wp] in W. destruct W as [O1 A1].
  apply IH; auto; rewrite A1, len_zupd; auto.
Qed.
