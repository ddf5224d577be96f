(** matrix_multiply_parallel on rectangular matrices: exactly what it computes. *)
From Verif Require Import Base SortModel SearchModel SearchSpec SubseqProofs LisProofs MatSpec.

Lemma rect_row n m M i : rectangular n m M -> 0 <= i < n -> len (zn [] M i) = m.
Proof. intros [H1 H2] Hi. apply H2. unfold zn. apply nth_In. unfold len in H1. lia. Qed.
Lemma forM_app {X S} (l1 l2 : list X) (f : X -> S -> res S) (s : S) : forM (l1 ++ l2) f s = (t <- forM l1 f s ;; forM l2 f t).
Proof. revert s. induction l1 as [|x l1 IH]; intros s; [reflexivity|]. cbn [app forM]. destruct (f x s) as [t| |]; cbn [bind]; auto. Qed.
Lemma lget_over {V} (a : list V) i : len a <= i -> lget a i = Raise IndexError.
Proof.
  intros H. unfold lget. assert (0 <= len a) by (unfold len; lia). destruct (Z.ltb_spec i 0); [lia|]. apply aget_err. right. exact H.
Qed.
Lemma helper_ok n m p m1 m2 i j : rectangular n m m1 -> rectangular m p m2 -> n <= m -> 0 <= i < n -> 0 <= j < p ->
  wp (matrix_multiply_helper m1 m2 i j) (fun v => v = sum_below (Z.to_nat n) (fun k => zn 0 (zn [] m1 i) k * zn 0 (zn [] m2 k) j)).
Proof.
  intros S1 S2 Hnm Hi Hj. unfold matrix_multiply_helper.
  apply (wp_for_range _ _ _ _ (fun k s => s = sum_below (Z.to_nat k) (fun k => zn 0 (zn [] m1 i) k * zn 0 (zn [] m2 k) j))).
  - reflexivity.
  - intros k s Hk ->. pose proof (rect_row _ _ _ i S1 Hi) as R1. destruct S1 as [L1 _]. pose proof (rect_row _ _ _ k S2 ltac:(lia)) as R2. destruct S2 as [L2 _].
    apply wp_bind. apply (wp_lget _ []); [lia|]. apply wp_bind. apply (wp_lget _ 0); [lia|].
    apply wp_bind. apply (wp_lget _ []); [lia|]. apply wp_bind. apply (wp_lget _ 0); [lia|]. apply wp_ret.
    replace (Z.to_nat (k + 1)) with (S (Z.to_nat k)) by lia. cbn [sum_below]. rewrite Z2Nat.id by lia. reflexivity.
  - intros s ->. destruct S1 as [L1 _]. f_equal. lia.
Qed.
Section R.
  Context (n m p : Z) (m1 m2 : list (list Z)) (Hn : 1 <= n) (Hm : 1 <= m) (Hp : 1 <= p) (S1 : rectangular n m m1) (S2 : rectangular m p m2).
  Let val := fun i j => sum_below (Z.to_nat n) (fun k => zn 0 (zn [] m1 i) k * zn 0 (zn [] m2 k) j).
  Let inv := fun (q i j : Z) (C : list (list (option Z))) => len C = m /\ (forall i, 0 <= i < m -> len (zn [] C i) = m) /\
     forall r c, 0 <= r < m -> 0 <= c < m -> zn None (zn [] C r) c = if (r <? i) && (c <? q) || (r =? i) && (c <? j) then Some (val r c) else None.
  Lemma row_ok q i C : n <= m -> q <= m -> q <= p -> 0 <= q -> 0 <= i < n -> inv p i 0 C ->
    wp (forM (zrange 0 q) (fun j C => v <- matrix_multiply_helper m1 m2 i j ;; r <- lget C i ;; r' <- aset r j (Some v) ;; aset C i r') C) (inv p i q).
  Proof.
    intros Hnm Hqm Hqp Hq Hi HC. apply (wp_for_range _ _ _ _ (fun j C => inv p i j C)) with (Q := inv p i q); [exact HC| |].
    - intros j C' Hj (E1 & E2 & E3). apply wp_bind. eapply wp_mono; [apply (helper_ok n m p); auto; lia|].
      intros v ->. apply wp_bind. apply (wp_lget _ []); [lia|]. apply wp_bind. apply wp_aset; [rewrite E2; lia|]. apply wp_aset; [lia|].
      split; [rewrite len_zupd; exact E1|]. split.
      + intros r Hr. rewrite zn_zupd by lia. destruct (Z.eqb_spec i r); [rewrite len_zupd|]; apply E2; lia.
      + intros r c Hr Hc. rewrite zn_zupd by lia. destruct (Z.eqb_spec i r) as [<-|].
        * rewrite zn_zupd by (rewrite ?E2; lia). rewrite Z.eqb_refl. destruct (Z.ltb_spec i i); [lia|]. cbn [andb orb]. destruct (Z.eqb_spec j c) as [<-|].
          -- destruct (Z.ltb_spec j (j + 1)); [reflexivity|lia].
          -- rewrite E3 by lia. rewrite Z.eqb_refl. destruct (Z.ltb_spec i i); [lia|]. cbn [andb orb]. destruct (Z.ltb_spec c j), (Z.ltb_spec c (j + 1)); try lia; reflexivity.
        * rewrite E3 by lia. destruct (Z.eqb_spec r i); [lia|]. reflexivity.
    - intros C'. replace (Z.max 0 q) with q by lia. auto.
  Qed.
  Lemma inv_next i C : inv p i p C -> inv p (i + 1) 0 C.
  Proof.
    intros (E1 & E2 & E3). split; [exact E1|]. split; [exact E2|]. intros r c Hr Hc. rewrite E3 by lia.
    destruct (Z.ltb_spec r i), (Z.ltb_spec r (i + 1)), (Z.eqb_spec r i), (Z.eqb_spec r (i + 1)), (Z.ltb_spec c p), (Z.ltb_spec c 0); try lia; reflexivity.
  Qed.
  Lemma inv_0 : inv p 0 0 (repeat (repeat None (Z.to_nat m)) (Z.to_nat m)).
  Proof.
    split; [rewrite len_repeat; lia|]. split.
    - intros i Hi. rewrite zn_repeat by lia. rewrite len_repeat. lia.
    - intros r c Hr Hc. rewrite zn_repeat by lia. rewrite zn_repeat by lia. destruct (Z.ltb_spec r 0), (Z.ltb_spec c 0); try lia. rewrite andb_false_r. reflexivity.
  Qed.
  Lemma unfold_mm nt : matrix_multiply_parallel m1 m2 nt = forM (zrange 0 n) (fun i C => forM (zrange 0 p) (fun j C => v <- matrix_multiply_helper m1 m2 i j ;; r <- lget C i ;; r' <- aset r j (Some v) ;; aset C i r') C) (repeat (repeat None (Z.to_nat m)) (Z.to_nat m)).
  Proof.
    unfold matrix_multiply_parallel. pose proof (rect_row _ _ _ 0 S1 ltac:(lia)) as R1. pose proof (rect_row _ _ _ 0 S2 ltac:(lia)) as R2. destruct S1 as [L1 _], S2 as [L2 _].
    rewrite (lget_ok _ [] m1) by lia. cbn [bind]. rewrite (lget_ok _ [] m2) by lia. cbn [bind]. rewrite R1, R2, L1, L2, Z.eqb_refl. reflexivity.
  Qed.
  Lemma mm_ok nt : n <= m -> p <= m -> wp (matrix_multiply_parallel m1 m2 nt) (fun C => len C = m /\ (forall i, 0 <= i < m -> len (zn [] C i) = m) /\
     forall r c, 0 <= r < m -> 0 <= c < m -> zn None (zn [] C r) c = if (r <? n) && (c <? p) then Some (val r c) else None).
  Proof.
    intros Hnm Hpm. rewrite unfold_mm. apply (wp_for_range _ _ _ _ (fun i C => inv p i 0 C)).
    - exact inv_0.
    - intros i C Hi HC. eapply wp_mono; [apply row_ok; auto; lia|]. intros C' H. apply inv_next, H.
    - intros C. replace (Z.max 0 n) with n by lia. intros (E1 & E2 & E3). split; [exact E1|]. split; [exact E2|]. intros r c Hr Hc. rewrite E3 by lia.
      destruct (Z.ltb_spec c 0); [lia|]. rewrite andb_false_r, orb_false_r. reflexivity.
  Qed.
  Lemma mm_wide nt : n <= m -> m < p -> matrix_multiply_parallel m1 m2 nt = Raise IndexError.
  Proof.
    intros Hnm Hmp. rewrite unfold_mm. rewrite (zrange_cons 0 n) by lia. cbn [forM]. rewrite (zrange_split 0 m p) by lia. rewrite forM_app, (zrange_cons m p) by lia. cbn [forM].
    pose proof (row_ok m 0 _ Hnm ltac:(lia) ltac:(lia) ltac:(lia) ltac:(lia) inv_0) as W. apply wp_ex in W. destruct W as (C & -> & E1 & E2 & _). cbn [bind].
    pose proof (helper_ok n m p m1 m2 0 m S1 S2 Hnm ltac:(lia) ltac:(lia)) as W. apply wp_ex in W. destruct W as (v & -> & _). cbn [bind].
    rewrite (lget_ok _ []) by lia. cbn [bind]. unfold aset. rewrite (E2 0) by lia. destruct (Z.ltb_spec m 0); [lia|]. destruct (Z.ltb_spec m 0), (Z.leb_spec m m); try lia. reflexivity.
  Qed.
  Lemma mm_tall nt : m < n -> matrix_multiply_parallel m1 m2 nt = Raise IndexError.
  Proof.
    intros Hmn. rewrite unfold_mm. rewrite (zrange_cons 0 n) by lia. cbn [forM]. rewrite (zrange_cons 0 p) by lia. cbn [forM].
    assert (W : matrix_multiply_helper m1 m2 0 0 = Raise IndexError); [|rewrite W; reflexivity].
    unfold matrix_multiply_helper. pose proof (rect_row _ _ _ 0 S1 ltac:(lia)) as R1. assert (L1 : len m1 = n) by (destruct S1; assumption). assert (L2 : len m2 = m) by (destruct S2; assumption).
    rewrite L1. rewrite (zrange_split 0 m n) by lia. rewrite forM_app, (zrange_cons m n) by lia. cbn [forM].
    assert (W : wp (forM (zrange 0 m) (fun i s => r1 <- lget m1 0 ;; x <- lget r1 i ;; r2 <- lget m2 i ;; y <- lget r2 0 ;; Ret (s + x * y)) 0) (fun _ => True)).
    { apply (wp_for_range _ _ _ _ (fun _ _ => True)); auto. intros k s Hk _. pose proof (rect_row _ _ _ k S2 ltac:(lia)) as R2.
      apply wp_bind. apply (wp_lget _ []); [lia|]. apply wp_bind. apply (wp_lget _ 0); [lia|].
      apply wp_bind. apply (wp_lget _ []); [lia|]. apply wp_bind. apply (wp_lget _ 0); [lia|]. apply wp_ret. exact I. }
    apply wp_ex in W. destruct W as (t & -> & _). cbn [bind]. rewrite (lget_ok _ []) by lia. cbn [bind]. rewrite lget_over by lia. reflexivity.
  Qed.
End R.
