(** Proofs about next_permutation and prev_permutation. *)
From Verif Require Import Base SortModel SearchModel SearchSpec SearchProofs SubseqProofs DistProofs.
From Coq Require Import Sorted.

Section Lex.
  Context {A : Type} (lt : A -> A -> Prop).
  Context (irr : forall x, ~ lt x x) (tr : forall x y z, lt x y -> lt y z -> lt x z)
          (tot : forall x y, x = y \/ lt x y \/ lt y x).
  Notation ge := (fun x y => ~ lt x y).     (* non-increasing *)
  Notation le := (fun x y => ~ lt y x).     (* non-decreasing *)

  Lemma ge_trans x y z : ge x y -> ge y z -> ge x z.
  Proof.
    intros H1 H2 H3. destruct (tot x y) as [->|[K|K]]; [contradiction|contradiction|]. apply H2. apply (tr _ x); assumption.
  Qed.

  Lemma SS_inv_app' {V} (R : V -> V -> Prop) l1 l2 : StronglySorted R (l1 ++ l2) ->
    StronglySorted R l1 /\ StronglySorted R l2 /\ forall x y, In x l1 -> In y l2 -> R x y.
  Proof.
    induction l1 as [|x l1 IH]; simpl; intros H; [repeat split; [constructor|exact H|intros x y []]|].
    inversion H as [|? ? H1 H2]; subst. destruct (IH H1) as (I1 & I2 & I3). rewrite Forall_forall in H2. repeat split.
    - constructor; [exact I1|]. apply Forall_forall. intros y Hy. apply H2, in_or_app; auto.
    - exact I2.
    - intros u v [<-|Hu] Hv; [apply H2, in_or_app; auto|apply I3; assumption].
  Qed.
  Lemma SS_rev {V} (R : V -> V -> Prop) l : StronglySorted R l -> StronglySorted (fun x y => R y x) (rev l).
  Proof.
    induction l as [|x l IH]; simpl; intros H; [constructor|]. inversion H as [|? ? H1 H2]; subst. rewrite Forall_forall in H2.
    apply SS_app; [apply IH, H1|repeat constructor|]. intros u v Hu [<-|[]]. apply H2. apply in_rev. exact Hu.
  Qed.

  (** the non-decreasing arrangement is the least one *)
  Lemma sorted_least s : StronglySorted le s -> forall t, Permutation s t -> s = t \/ lex lt s t.
  Proof.
    induction s as [|x s IH]; intros Hs t P.
    - apply Permutation_nil in P. subst; left; reflexivity.
    - destruct t as [|y t]; [apply Permutation_sym, Permutation_nil in P; discriminate|].
      inversion Hs as [|? ? H1 H2]; subst. rewrite Forall_forall in H2.
      destruct (tot x y) as [->|[K|K]].
      + apply Permutation_cons_inv in P. destruct (IH H1 t P) as [->|L]; [left; reflexivity|right; constructor 2; exact L].
      + right. constructor; [exact K|]. apply Permutation_length in P. simpl in P. lia.
      + exfalso. assert (In y (x :: s)) by (eapply Permutation_in; [apply Permutation_sym, P|left; reflexivity]).
        destruct H as [->|H]; [exact (irr _ K)|]. exact (H2 _ H K).
  Qed.
  (** the non-increasing arrangement has none above it *)
  Lemma antisorted_greatest l : StronglySorted ge l -> no_lex_greater lt l.
  Proof.
    intros Hs q P L. revert Hs P. induction L as [x y l l' Hlt Hlen|x l l' L IH]; intros Hs P.
    - inversion Hs as [|? ? H1 H2]; subst. rewrite Forall_forall in H2.
      assert (In y (x :: l)) by (eapply Permutation_in; [apply Permutation_sym, P|left; reflexivity]).
      destruct H as [->|H]; [exact (irr _ Hlt)|]. exact (H2 _ H Hlt).
    - inversion Hs; subst. apply Permutation_cons_inv in P. auto.
  Qed.

  Lemma lex_app p l l' : lex lt l l' -> lex lt (p ++ l) (p ++ l').
  Proof. intros H; induction p; simpl; [exact H|constructor 2; assumption]. Qed.

  Lemma next_lemma pre x s1 y s2 : StronglySorted ge (s1 ++ y :: s2) -> lt x y -> (forall z, In z s2 -> ~ lt x z) ->
    lex_successor lt (pre ++ x :: s1 ++ y :: s2) (pre ++ y :: rev (s1 ++ x :: s2)).
  Proof.
    intros Hs Hxy Hs2. pose proof (SS_inv_app' _ _ _ Hs) as (S1 & Sy & S12). inversion Sy as [|? ? S2 Fy]; subst. rewrite Forall_forall in Fy.
    assert (Pm : Permutation (x :: s1 ++ y :: s2) (y :: rev (s1 ++ x :: s2))).
    { rewrite <- Permutation_rev. rewrite <- !Permutation_middle. apply perm_swap. }
    assert (Srev : StronglySorted le (rev (s1 ++ x :: s2))).
    { apply (SS_rev ge). apply SS_app; [exact S1|constructor; [exact S2|apply Forall_forall, Hs2]|].
      intros u v Hu [<-|Hv].
      - intros K. apply (S12 u y Hu); [left; reflexivity|]. exact (tr _ _ _ K Hxy).
      - apply S12; [exact Hu|right; exact Hv]. }
    split; [apply Permutation_app_head, Pm|]. split.
    - apply lex_app. constructor; [exact Hxy|]. apply Permutation_length in Pm. simpl in Pm. lia.
    - induction pre as [|u pre IH]; simpl.
      + intros q P L. destruct q as [|b q]; [inversion L|]. inversion L as [? ? ? ? Hlt Hlen|? ? ? L']; subst.
        * assert (Hb : In b (x :: s1 ++ y :: s2)) by (eapply Permutation_in; [apply Permutation_sym, P|left; reflexivity]).
          assert (Hbx : b <> x) by (intros ->; exact (irr _ Hlt)).
          assert (Hyb : ~ lt b y).
          { intros K. destruct Hb as [?|Hb]; [congruence|]. apply in_app_or in Hb. destruct Hb as [Hb|[<-|Hb]].
            - exact (S12 b y Hb (or_introl eq_refl) K).
            - exact (irr _ K).
            - exact (Hs2 _ Hb Hlt). }
          destruct (tot y b) as [<-|[K|K]]; [|right; constructor; [exact K|]|contradiction].
          -- rewrite Pm in P. apply Permutation_cons_inv in P.
             destruct (sorted_least _ Srev q P) as [->|L2]; [left; reflexivity|right; constructor 2; exact L2].
          -- rewrite rev_length. apply Permutation_length in P. simpl in P. rewrite !app_length in *. simpl in *. lia.
        * exfalso. apply Permutation_cons_inv in P. exact (antisorted_greatest _ Hs q P L').
      + intros q P L. destruct q as [|b q]; [inversion L|]. inversion L as [? ? ? ? Hlt Hlen|? ? ? L']; subst.
        * right. constructor; [exact Hlt|]. rewrite <- Hlen. apply Permutation_length. apply Permutation_app_head. symmetry. exact Pm.
        * apply Permutation_cons_inv in P. destruct (IH q P L') as [->|L2]; [left; reflexivity|right; constructor 2; exact L2].
  Qed.
End Lex.

Section Perm.
  Context {A : Type} (d : A) (pc : A -> A -> bool).

  (** reversing in place *)
  Lemma reverse_loop (p : list A) i size : 0 <= i -> i <= size -> size = len p ->
    wp (while_loop (S (Z.to_nat size)) (fun '(permute, left_, right_) =>
        if left_ <? right_ then
          p' <- swap permute left_ right_ ;; Ret (Next (p', left_ + 1, right_ - 1))
        else Ret (Break permute)) (p, i, size - 1))
      (fun q => q = firstn (Z.to_nat i) p ++ rev (skipn (Z.to_nat i) p)).
  Proof.
    intros Hi Hsz Hs.
    apply (wp_while _ _ (fun '(q, l, r) => len q = size /\ i <= l /\ l + r = i + size - 1 /\ l <= r + 2 /\
        forall k, 0 <= k < size -> zn d q k = if (k <? i) || ((l <=? k) && (k <=? r)) then zn d p k else zn d p (i + size - 1 - k))
      (fun '(q, l, r) => Z.to_nat (r - l + 1))).
    - intros [[q l] r] (Lq & Hl & Hlr & Hlr2 & Hq). destruct (Z.ltb_spec l r) as [K|K].
      + apply wp_bind. unfold swap. apply wp_bind. apply (wp_aget _ d); [lia|]. apply wp_bind. apply (wp_aget _ d); [lia|].
        apply wp_bind. apply wp_aset; [lia|]. apply wp_aset; [rewrite len_zupd; lia|]. apply wp_ret.
        split; [|lia]. split; [rewrite !len_zupd; lia|]. split; [lia|]. split; [lia|]. split; [lia|].
        intros k Hk. rewrite zn_zupd by (rewrite ?len_zupd; lia). rewrite zn_zupd by lia.
        rewrite (Hq l), (Hq r), (Hq k) by lia.
        destruct (Z.ltb_spec l i), (Z.ltb_spec r i), (Z.ltb_spec k i), (Z.leb_spec l l), (Z.leb_spec l r), (Z.leb_spec r r), (Z.leb_spec l k), (Z.leb_spec k r),
          (Z.leb_spec (l + 1) k), (Z.leb_spec k (r - 1)), (Z.eqb_spec r k), (Z.eqb_spec l k); cbn [orb andb]; try lia; try reflexivity; f_equal; lia.
      + apply wp_ret. apply (zn_ext _ d).
        * unfold len. rewrite app_length, rev_length, skipn_length, firstn_length. unfold len in *. lia.
        * intros k Hk. rewrite Hq by lia. unfold zn.
          destruct (Z.ltb_spec k i); cbn [orb].
          -- rewrite app_nth1 by (rewrite firstn_length; unfold len in *; lia).
             rewrite <- (firstn_skipn (Z.to_nat i) p) at 1. rewrite app_nth1 by (rewrite firstn_length; unfold len in *; lia). reflexivity.
          -- assert (Ln : length (firstn (Z.to_nat i) p) = Z.to_nat i) by (rewrite firstn_length; unfold len in *; lia).
             rewrite app_nth2 by (rewrite Ln; lia). rewrite Ln.
             assert (Ls : length (skipn (Z.to_nat i) p) = (length p - Z.to_nat i)%nat) by apply skipn_length.
             rewrite rev_nth by (rewrite Ls; unfold len in *; lia). rewrite Ls.
             assert (E : forall m, nth m (skipn (Z.to_nat i) p) d = nth (Z.to_nat i + m) p d).
             { intros m. rewrite <- (firstn_skipn (Z.to_nat i) p) at 2. rewrite app_nth2 by (rewrite Ln; lia). f_equal. rewrite Ln. lia. }
             rewrite E. destruct ((l <=? k) && (k <=? r)) eqn:B.
             ++ apply andb_true_iff in B. destruct B as [B1 B2]. apply Z.leb_le in B1, B2. f_equal. unfold len in *. lia.
             ++ f_equal. unfold len in *. lia.
    - split; [lia|]. split; [lia|]. split; [lia|]. split; [lia|]. intros k Hk.
      destruct (Z.ltb_spec k i); cbn [orb]; [reflexivity|]. destruct (Z.leb_spec i k), (Z.leb_spec k (size - 1)); try lia. reflexivity.
    - lia.
  Qed.

  (** the copied range *)
  Lemma copy_range (a : list A) s e : 0 <= s -> s <= e + 1 -> e < len a ->
    wp (forM (zrange s (e + 1)) (fun i p => x <- aget a i ;; Ret (p ++ [x])) [])
      (fun p => p = firstn (Z.to_nat (e - s + 1)) (skipn (Z.to_nat s) a)).
  Proof.
    intros Hs Hse He.
    apply (wp_for_range _ _ _ _ (fun i p => p = firstn (Z.to_nat (i - s)) (skipn (Z.to_nat s) a))).
    - rewrite Z.sub_diag. reflexivity.
    - intros i p Hi ->. apply wp_bind. apply (wp_aget _ d); [lia|]. apply wp_ret.
      replace (i + 1 - s) with (i - s + 1) by lia. rewrite (firstn_snoc _ d).
      + f_equal. f_equal. unfold zn. rewrite <- (firstn_skipn (Z.to_nat s) a) at 1. rewrite app_nth2 by (rewrite firstn_length; unfold len in *; lia).
        f_equal. rewrite firstn_length. unfold len in *. lia.
      + unfold len. rewrite skipn_length. unfold len in *. lia.
    - intros p ->. f_equal. f_equal. lia.
  Qed.

  (** non-increasing: [pc x y] is transitive *)
  Context (pct : forall x y z, pc x y = true -> pc y z = true -> pc x z = true).

  (** outcome of _permutation_util in list form *)
  Definition perm_post (p : list A) (r : bool * list A) : Prop :=
    (r = (false, rev p) /\ StronglySorted (fun u v => pc u v = true) p) \/
    (exists pre x s1 y s2, p = pre ++ x :: s1 ++ y :: s2 /\ r = (true, pre ++ y :: rev (s1 ++ x :: s2)) /\
       StronglySorted (fun u v => pc u v = true) (s1 ++ y :: s2) /\ pc x y = false /\ forall z, In z s2 -> pc x z = true).

  Lemma SS_from_index (l : list A) : (forall i j, 0 <= i < j -> j < len l -> pc (zn d l i) (zn d l j) = true) ->
    StronglySorted (fun u v => pc u v = true) l.
  Proof.
    induction l as [|x l IH]; intros H; constructor.
    - apply IH. intros i j H1 H2. specialize (H (i + 1) (j + 1)). unfold zn in *.
      replace (Z.to_nat (i + 1)) with (S (Z.to_nat i)) in H by lia. replace (Z.to_nat (j + 1)) with (S (Z.to_nat j)) in H by lia.
      simpl in H. apply H; unfold len in *; simpl length; lia.
    - apply Forall_forall. intros y Hy. apply (In_nth _ _ d) in Hy. destruct Hy as (n & Hn & <-).
      specialize (H 0 (Z.of_nat (S n))). unfold zn in H. rewrite Nat2Z.id in H. simpl in H. apply H; unfold len; simpl length; lia.
  Qed.

  Lemma perm_util_ok (a : list A) s e : 0 <= s -> s <= e + 1 -> e < len a ->
    wp (permutation_util pc a s e) (perm_post (firstn (Z.to_nat (e - s + 1)) (skipn (Z.to_nat s) a))).
  Proof.
    intros Hs Hse He. unfold permutation_util. cbv zeta. apply wp_bind. eapply wp_mono; [apply copy_range; assumption|].
    intros p Ep. set (n := e - s + 1) in *.
    assert (Lp : len p = n). { rewrite Ep. unfold len. rewrite firstn_length, skipn_length. unfold len in *. lia. }
    rewrite <- Ep. clear Ep. assert (Hn : 0 <= n) by lia. clearbody n. clear Hs Hse He s e a.
    apply wp_bind.
    apply wp_mono with (P := fun i => (n = 0 -> i = -1) /\ (0 < n -> 0 <= i < n) /\ (forall k, 0 <= i < k -> k < n -> pc (zn d p (k - 1)) (zn d p k) = true) /\
       (0 < i -> pc (zn d p (i - 1)) (zn d p i) = false)).
    { apply (wp_while _ _ (fun i => (n = 0 -> i = -1) /\ (0 < n -> 0 <= i < n) /\ (forall k, 0 <= i < k -> k < n -> pc (zn d p (k - 1)) (zn d p k) = true)) (fun i => Z.to_nat i)).
      - intros i (Hi0 & Hi & Hpc). destruct (Z.ltb_spec 0 i) as [K|K].
        + assert (0 < n) by lia. specialize (Hi ltac:(lia)). apply wp_bind. apply (wp_aget _ d); [lia|]. apply wp_bind. apply (wp_aget _ d); [lia|].
          destruct (pc (zn d p (i - 1)) (zn d p i)) eqn:E; apply wp_ret.
          * split; [|lia]. split; [lia|]. split; [lia|]. intros k Hk1 Hk2. destruct (Z.eq_dec k i) as [->|]; [exact E|]. apply Hpc; lia.
          * repeat split; try lia; auto.
        + apply wp_ret. repeat split; try lia; auto.
      - split; [lia|]. split; [lia|]. intros; lia.
      - lia. }
    intros i (Hi0 & Hi & Hadj & Hpiv).
    destruct (Z.ltb_spec 0 i) as [K|K].
    - assert (Hn0 : 0 < n) by lia. specialize (Hi Hn0). specialize (Hpiv K).
      (* non-increasing from i on *)
      assert (Hsuf : forall k m, i <= k < m -> m < n -> pc (zn d p k) (zn d p m) = true).
      { intros k m Hk Hm. remember (Z.to_nat (m - k - 1)) as t eqn:Et. revert m Hk Hm Et. induction t as [|t IHt]; intros m Hk Hm Et.
        - replace k with (m - 1) by lia. apply Hadj; lia.
        - apply (pct _ (zn d p (m - 1))); [apply IHt; lia|apply Hadj; lia]. }
      set (x := zn d p (i - 1)) in *.
      assert (Hx : forall k m, i <= k -> k <= m -> m < n -> pc x (zn d p k) = true -> pc x (zn d p m) = true).
      { intros k m H1 H2 H3 H4. destruct (Z.eq_dec k m) as [<-|]; [exact H4|]. apply (pct _ (zn d p k)); [exact H4|apply Hsuf; lia]. }
      apply wp_bind.
      apply wp_mono with (P := fun p' => exists l, i < l <= n /\ (forall k, l <= k < n -> pc x (zn d p k) = true) /\ pc x (zn d p (l - 1)) = false /\
                                p' = zupd (zupd p (i - 1) (zn d p (l - 1))) (l - 1) x).
      { apply wp_bind.
        apply wp_mono with (P := fun '(l, r) => i < l <= n /\ (forall k, i <= k < l -> pc x (zn d p k) = false) /\ (forall k, l <= k < n -> pc x (zn d p k) = true)).
        - apply (wp_while _ _ (fun '(l, r) => i <= l /\ l <= r + 1 /\ r < n /\ (forall k, i <= k < l -> pc x (zn d p k) = false) /\ (forall k, r < k < n -> pc x (zn d p k) = true))
                   (fun '(l, r) => Z.to_nat (r - l + 1))).
          + intros [l r] (H1 & H2 & H3 & H4 & H5). destruct (Z.leb_spec l r) as [Q|Q].
            * set (m := l + (r - l) / 2). assert (Hm : l <= m <= r).
              { unfold m. pose proof (Z.div_pos (r - l) 2). pose proof (Z.div_le_upper_bound (r - l) 2 (r - l)). lia. }
              apply wp_bind. apply (wp_aget _ d); [lia|]. fold x. apply wp_bind. apply (wp_aget _ d); [lia|].
              destruct (pc x (zn d p m)) eqn:E; cbn [negb]; apply wp_ret.
              -- split; [|lia]. split; [lia|]. split; [lia|]. split; [lia|]. split; [exact H4|]. intros k Hk. apply (Hx m k); [lia|lia|lia|exact E].
              -- split; [|lia]. split; [lia|]. split; [lia|]. split; [lia|]. split; [|exact H5]. intros k Hk.
                 destruct (pc x (zn d p k)) eqn:Ek; [|reflexivity]. rewrite (Hx k m) in E by (lia || exact Ek). discriminate.
            * apply wp_ret. split; [|split; [exact H4|intros; apply H5; lia]]. split; [|lia].
              destruct (Z.eq_dec l i) as [->|]; [|lia]. rewrite (H5 i) in Hpiv by lia. discriminate.
          + repeat split; try lia.
          + lia.
        - intros [l r] (H1 & H2 & H3). unfold swap. apply wp_bind. apply (wp_aget _ d); [lia|]. apply wp_bind. apply (wp_aget _ d); [lia|]. fold x.
          apply wp_bind. apply wp_aset; [lia|]. apply wp_aset; [rewrite len_zupd; lia|]. exists l. split; [lia|]. split; [exact H3|]. split; [apply H2; lia|reflexivity]. }
      intros p' (l & Hl & Hge & Hy & ->). set (y := zn d p (l - 1)) in *.
      apply wp_bind. eapply wp_mono; [apply reverse_loop; rewrite ?len_zupd; lia|]. intros q ->. apply wp_ret.
      (* list decomposition *)
      right. unfold len in Lp.
      set (pre := firstn (Z.to_nat (i - 1)) p). set (rest := skipn (Z.to_nat i) p).
      assert (Ep1 : p = pre ++ x :: rest).
      { unfold pre, rest, x, zn. replace (Z.to_nat i) with (S (Z.to_nat (i - 1))) by lia. apply list_split_nth. lia. }
      assert (Lpre : length pre = Z.to_nat (i - 1)) by (unfold pre; rewrite firstn_length; lia).
      set (s1 := firstn (Z.to_nat (l - 1 - i)) rest). set (s2 := skipn (Z.to_nat (l - i)) rest).
      assert (Lrest : length rest = Z.to_nat (n - i)) by (unfold rest; rewrite skipn_length; lia).
      assert (Zr : forall k, 0 <= k < n - i -> nth (Z.to_nat k) rest d = zn d p (i + k)).
      { intros k Hk. unfold zn. rewrite Ep1 at 1. rewrite app_nth2 by lia. rewrite Lpre.
        replace (Z.to_nat (i + k) - Z.to_nat (i - 1))%nat with (S (Z.to_nat k)) by lia. reflexivity. }
      assert (Er : rest = s1 ++ y :: s2).
      { unfold s1, s2, y. replace (zn d p (l - 1)) with (nth (Z.to_nat (l - 1 - i)) rest d).
        - replace (Z.to_nat (l - i)) with (S (Z.to_nat (l - 1 - i))) by lia. apply list_split_nth. lia.
        - rewrite Zr by lia. f_equal. lia. }
      assert (Ls1 : length s1 = Z.to_nat (l - 1 - i)) by (unfold s1; rewrite firstn_length; lia).
      exists pre, x, s1, y, s2. split; [rewrite Ep1, Er at 1; reflexivity|].
      assert (Eq : zupd (zupd p (i - 1) y) (l - 1) x = (pre ++ [y]) ++ s1 ++ x :: s2).
      { unfold zupd. rewrite Ep1, Er. rewrite upd_app2 by lia. rewrite Lpre, Nat.sub_diag. cbn [upd].
        rewrite upd_app2 by lia. rewrite Lpre. replace (Z.to_nat (l - 1) - Z.to_nat (i - 1))%nat with (S (length s1)) by lia. cbn [upd].
        rewrite upd_app2 by lia. rewrite Nat.sub_diag. cbn [upd]. rewrite <- app_assoc. reflexivity. }
      split; [|split; [|split]].
      + f_equal. rewrite Eq. rewrite firstn_app, skipn_app. rewrite app_length, Lpre. cbn [length].
        replace (Z.to_nat i - (Z.to_nat (i - 1) + 1))%nat with O by lia. rewrite firstn_all2 by (rewrite app_length, Lpre; simpl; lia).
        rewrite skipn_all2 by (rewrite app_length, Lpre; simpl; lia). simpl. rewrite app_nil_r, <- app_assoc. reflexivity.
      + rewrite <- Er. apply SS_from_index. intros k m Hk Hm. unfold zn. unfold len in Hm. rewrite !Zr by lia. apply Hsuf; lia.
      + exact Hy.
      + intros z Hz. unfold s2 in Hz. apply (In_nth _ _ d) in Hz. destruct Hz as (m & Hm & <-). rewrite skipn_length in Hm.
        assert (E : nth m (skipn (Z.to_nat (l - i)) rest) d = nth (Z.to_nat (l - i) + m) rest d).
        { rewrite <- (firstn_skipn (Z.to_nat (l - i)) rest) at 2. rewrite app_nth2 by (rewrite firstn_length; lia). f_equal. rewrite firstn_length. lia. }
        rewrite E. replace (Z.to_nat (l - i) + m)%nat with (Z.to_nat (l - i + Z.of_nat m)) by lia. rewrite Zr by lia. apply Hge. lia.
    - apply wp_bind. apply wp_ret.
      destruct (Z.eq_dec n 0) as [E0|E0].
      + rewrite (Hi0 E0). rewrite E0 in *. destruct p; [|unfold len in Lp; simpl in Lp; lia]. cbn. left. split; [reflexivity|constructor].
      + assert (i = 0) by lia. subst i. apply wp_bind. eapply wp_mono; [apply reverse_loop; lia|]. intros q ->. apply wp_ret. left.
        split; [reflexivity|]. apply SS_from_index. rewrite Lp. intros k m Hk Hm.
        remember (Z.to_nat (m - k - 1)) as t eqn:Et. revert m Hk Hm Et. induction t as [|t IHt]; intros m Hk Hm Et.
        * replace k with (m - 1) by lia. apply Hadj; lia.
        * apply (pct _ (zn d p (m - 1))); [apply IHt; lia|apply Hadj; lia].
  Qed.
End Perm.
