(** Proofs: merge_sort_parallel, brick_sort. *)
From Verif Require Import Base SortModel SortSpec SortProofs.

Section Order3.
  Context {A : Type} (comp : A -> A -> bool) (leA : A -> A -> Prop) (D : decides comp leA).
  Notation cmp := (pcomp comp).
  Notation arr := (list (option A)).
  Notation "a $ i" := (zn None a i) (at level 9, format "a $ i").
  Notation R := (R leA).
  Notation R_t := (R_t comp leA D).
  Notation R_f := (R_f comp leA D).
  Notation R_trans := (R_trans comp leA D).
  Notation R_refl := (R_refl comp leA D).
  Notation sorted_adj := (sorted_adj comp leA D).

  (** functional merge *)
  Fixpoint mrg (l : arr) : arr -> arr :=
    match l with
    | [] => fun r => r
    | x :: l' => fix mr (r : arr) : arr :=
        match r with
        | [] => x :: l'
        | y :: r' => if cmp x y then x :: mrg l' (y :: r') else y :: mr r'
        end
    end.
  Lemma mrg_nil_r l : mrg l [] = l. Proof. destruct l; reflexivity. Qed.
  Lemma mrg_cons x l y r : mrg (x :: l) (y :: r) = if cmp x y then x :: mrg l (y :: r) else y :: mrg (x :: l) r.
  Proof. reflexivity. Qed.
  Lemma mrg_perm l : forall r, Permutation (l ++ r) (mrg l r).
  Proof.
    induction l as [|x l IH]; intros r; [reflexivity|]. induction r as [|y r IHr]; [rewrite mrg_nil_r, app_nil_r; reflexivity|].
    rewrite mrg_cons. destruct (cmp x y).
    - simpl. apply perm_skip, IH.
    - rewrite <- IHr. rewrite <- Permutation_middle. reflexivity.
  Qed.
  Lemma mrg_len l r : len (mrg l r) = len l + len r.
  Proof. unfold len. rewrite <- (Permutation_length (mrg_perm l r)), app_length. lia. Qed.

  Inductive Srt : arr -> Prop := Srt_nil : Srt [] | Srt_cons x l : Srt l -> (forall y, In y l -> R x y) -> Srt (x :: l).
  Lemma mrg_srt l : forall r, Srt l -> Srt r -> Srt (mrg l r).
  Proof.
    induction l as [|x l IH]; intros r Sl Sr; [exact Sr|]. induction r as [|y r IHr]; [rewrite mrg_nil_r; exact Sl|].
    rewrite mrg_cons. inversion Sl; subst. inversion Sr; subst. destruct (cmp x y) eqn:E.
    - apply R_t in E. constructor; [apply IH; assumption|]. intros z Hz. apply (Permutation_in _ (Permutation_sym (mrg_perm _ _))) in Hz.
      apply in_app_or in Hz. destruct Hz as [Hz|[<-|Hz]]; [auto|exact E|]. eapply R_trans; [exact E|auto].
    - apply R_f in E. constructor; [apply IHr; assumption|]. intros z Hz. apply (Permutation_in _ (Permutation_sym (mrg_perm _ _))) in Hz.
      apply in_app_or in Hz. destruct Hz as [[<-|Hz]|Hz]; [exact E| |auto]. eapply R_trans; [exact E|auto].
  Qed.
  Lemma Srt_nth l : Srt l <-> forall i j, 0 <= i -> i <= j -> j < len l -> R (l$i) (l$j).
  Proof.
    split.
    - induction 1 as [|x l S IH H]; intros i j Hi Hij Hj; [unfold len in Hj; simpl in Hj; lia|].
      unfold zn. destruct (Z.to_nat i) eqn:Ei, (Z.to_nat j) eqn:Ej; try lia; simpl.
      + apply R_refl.
      + apply H. apply nth_In. unfold len in Hj; simpl in Hj. lia.
      + specialize (IH (Z.of_nat n) (Z.of_nat n0)). unfold zn in IH. rewrite !Nat2Z.id in IH. apply IH; unfold len in *; simpl in *; lia.
    - induction l as [|x l IH]; intros H; constructor.
      + apply IH. intros i j Hi Hij Hj. specialize (H (i+1) (j+1)). unfold zn in *.
        replace (Z.to_nat (i+1)) with (S (Z.to_nat i)) in H by lia. replace (Z.to_nat (j+1)) with (S (Z.to_nat j)) in H by lia.
        apply H; unfold len in *; simpl; lia.
      + intros y Hy. apply (In_nth _ _ None) in Hy. destruct Hy as (n & Hn & <-).
        specialize (H 0 (Z.of_nat n + 1)). unfold zn in H. replace (Z.to_nat (Z.of_nat n + 1)) with (S n) in H by lia. apply H; unfold len; simpl; lia.
  Qed.
  Lemma Srt_seg (a : arr) s e : 0 <= s -> e < len a -> sorted_range leA a s e -> Srt (seg a s e).
  Proof.
    intros Hs He HS. apply Srt_nth. intros i j Hi Hij Hj.
    destruct (Z_lt_le_dec e s).
    { unfold seg in Hj. replace (Z.to_nat (e + 1 - s)) with 0%nat in Hj by lia. unfold len in Hj; simpl in Hj. lia. }
    rewrite seg_len in Hj by lia. rewrite !(zn_seg None) by lia. apply HS; lia.
  Qed.

  (** stability of a merge *)
  Lemma mrg_stable (Hiff : forall x y, leA x y -> comp x y = true) x l : forall r, Srt l -> filter (tied comp x) (mrg l r) = filter (tied comp x) (l ++ r).
  Proof.
    induction l as [|u l IH]; intros r Sl; [reflexivity|]. inversion Sl as [|? ? Sl' Hu]; subst.
    induction r as [|v r IHr]; [rewrite mrg_nil_r, app_nil_r; reflexivity|].
    rewrite mrg_cons. destruct (cmp u v) eqn:E.
    - simpl. rewrite IH by assumption. reflexivity.
    - cbn [filter]. rewrite IHr. rewrite !filter_app. cbn [filter]. destruct (tied comp x v) eqn:Et; [|reflexivity]. clear IH IHr.
      assert (Hno : filter (tied comp x) (u :: l) = []).
      { assert (Hall : forall z, In z (u :: l) -> tied comp x z = false).
        { intros z Hz. destruct (tied comp x z) eqn:Ez; [|reflexivity]. exfalso.
          destruct v as [v|]; [|discriminate]. destruct z as [z|]; [|discriminate].
          assert (Ruz : R u (Some z)) by (destruct Hz as [->|Hz]; [apply R_refl|auto]).
          destruct u as [u|]; [|simpl in Ruz; contradiction]. unfold SortProofs.R in Ruz; simpl in Ruz. simpl in *.
          apply andb_prop in Et. apply andb_prop in Ez. destruct Et as [E1 E2], Ez as [E3 E4].
          assert (leA u v). { eapply (dec_trans _ _ D); [exact Ruz|]. eapply (dec_trans _ _ D); [apply (dec_true _ _ D), E4|apply (dec_true _ _ D), E1]. }
          rewrite (Hiff _ _ H) in E. discriminate. }
        clear -Hall. induction (u :: l) as [|z q IHq]; [reflexivity|]. simpl. rewrite (Hall z) by (left; reflexivity). apply IHq. intros; apply Hall; right; assumption. }
      cbn [filter] in Hno. rewrite Hno. reflexivity.
  Qed.

  (** *** the loops of _merge *)
  Lemma seg_empty (a : arr) s e : e < s -> seg a s e = [].
  Proof. intros H. unfold seg. replace (Z.to_nat (e + 1 - s)) with 0%nat by lia. reflexivity. Qed.
  Lemma seg_snoc (a : arr) s e : 0 <= s -> s <= e -> e < len a -> seg a s e = seg a s (e - 1) ++ [a$e].
  Proof.
    intros Hs Hse He. unfold seg. replace (Z.to_nat (e + 1 - s)) with (S (Z.to_nat (e - 1 + 1 - s))) by lia.
    assert (E : forall (l : arr) n, (n < length l)%nat -> firstn (S n) l = firstn n l ++ [nth n l None]).
    { induction l as [|y l IH]; intros n Hn; simpl in Hn; [lia|]. destruct n; [reflexivity|]. simpl. f_equal. apply IH. lia. }
    rewrite E by (rewrite skipn_length; unfold len in He; lia). f_equal. f_equal. rewrite (nth_skipn_ None). unfold zn. f_equal. lia.
  Qed.

  Lemma take_range_ok (a : arr) lo hi end_ : 0 <= lo -> end_ < len a ->
    wp (take_range a lo hi end_) (fun '(b, l) => l = seg a lo (Z.min hi end_) /\ len b = len a /\
      forall i, 0 <= i -> i < lo \/ Z.min hi end_ < i -> b$i = a$i).
  Proof.
    intros Hlo He. unfold take_range.
    apply (wp_for_range _ _ _ _ (fun i p => snd p = seg a lo (Z.min (i - 1) end_) /\ len (fst p) = len a /\
       forall k, 0 <= k -> k < lo \/ Z.min (i - 1) end_ < k -> (fst p)$k = a$k)).
    - cbn [fst snd]. rewrite seg_empty by lia. auto.
    - intros i [b l] Hi (E1 & E2 & E3). cbn [fst snd] in *. destruct (Z.leb_spec i end_).
      + apply wp_bind, (wp_aget _ None); [lia|]. apply wp_bind, wp_aset; [lia|]. simpl. rewrite len_zupd. split; [|split; [lia|]].
        * replace (Z.min (i + 1 - 1) end_) with i by lia. rewrite (seg_snoc a lo i) by lia. replace (i - 1) with (Z.min (i - 1) end_) by lia.
          rewrite E1. f_equal. f_equal. apply E3; lia.
        * intros k Hk Ho. rewrite zn_zupd_ne by lia. apply E3; lia.
      + simpl. split; [|split; [lia|]].
        * rewrite E1. f_equal. lia.
        * intros k Hk Ho. apply E3; lia.
    - intros [b l] (E1 & E2 & E3). cbn [fst snd] in *.
      destruct (Z_lt_le_dec hi lo).
      + rewrite Z.max_l in * by lia. split; [|split; [exact E2|]].
        * rewrite E1. rewrite !seg_empty by lia. reflexivity.
        * intros i Hi Ho. apply E3; lia.
      + rewrite Z.max_r in * by lia. replace (hi + 1 - 1) with hi in * by lia. auto.
  Qed.

  (** [b] holds [w] from position [sl] on, and equals [a] outside [sl..M] *)
  Definition holds (a b : arr) (sl M : Z) (w : arr) : Prop :=
    len b = len a /\ (forall t, 0 <= t < len w -> b$(sl + t) = w$t) /\ (forall i, 0 <= i -> i < sl \/ M < i -> b$i = a$i).
  Lemma holds_snoc a b sl M w x : 0 <= sl -> M < len a -> sl + len w <= M -> holds a b sl M w -> holds a (zupd b (sl + len w) x) sl M (w ++ [x]).
  Proof.
    intros Hs HM Hw (H1 & H2 & H3). pose proof (len_nonneg _ w). split; [rewrite len_zupd; exact H1|]. split.
    - intros t Ht. unfold len in Ht. rewrite app_length in Ht. simpl in Ht. destruct (Z.eq_dec t (len w)) as [->|].
      + rewrite zn_zupd_eq by lia. unfold zn, len. rewrite Nat2Z.id, app_nth2, Nat.sub_diag by lia. reflexivity.
      + rewrite zn_zupd_ne by lia. unfold len in *. rewrite H2 by lia. unfold zn. rewrite app_nth1 by lia. reflexivity.
    - intros i Hi Ho. rewrite zn_zupd_ne by lia. apply H3; lia.
  Qed.
  Lemma skipn_cons_z (l : arr) i : 0 <= i < len l -> skipn (Z.to_nat i) l = l$i :: skipn (Z.to_nat (i + 1)) l.
  Proof.
    intros H. replace (Z.to_nat (i + 1)) with (S (Z.to_nat i)) by lia. unfold zn, len in *.
    assert (G : forall (l : arr) n, (n < length l)%nat -> skipn n l = nth n l None :: skipn (S n) l).
    { induction l0 as [|z l0 IH]; intros n Hn; simpl in Hn; [lia|]. destruct n; [reflexivity|]. simpl. apply IH. lia. }
    apply G. lia.
  Qed.
  Lemma len_snoc (w : arr) x : len (w ++ [x]) = len w + 1.
  Proof. unfold len. rewrite app_length. simpl. lia. Qed.

  Lemma merge_loops (a b0 : arr) sl M l r : 0 <= sl -> M < len a -> sl + len l + len r = M + 1 -> holds a b0 sl M [] ->
    wp (' (array, i, j, k) <- while_loop (S (length l + length r)) (fun '(array, i, j, k) =>
        if (i <? len l) && (j <? len r) then
          x <- lget l i ;; y <- lget r j ;;
          if cmp x y then array' <- aset array k x ;; Ret (Next (array', i + 1, j, k + 1))
          else array' <- aset array k y ;; Ret (Next (array', i, j + 1, k + 1))
        else Ret (Break (array, i, j, k))) (b0, 0, 0, sl) ;;
    ' (array, k) <- while_loop (S (length l)) (fun '(array, i, k) =>
        if i <? len l then x <- lget l i ;; array' <- aset array k x ;; Ret (Next (array', i + 1, k + 1))
        else Ret (Break (array, k))) (array, i, k) ;;
    ' (array, k) <- while_loop (S (length r)) (fun '(array, j, k) =>
        if j <? len r then x <- lget r j ;; array' <- aset array k x ;; Ret (Next (array', j + 1, k + 1))
        else Ret (Break (array, k))) (array, j, k) ;;
    Ret array) (fun b => holds a b sl M (mrg l r)).
  Proof.
    intros Hs HM Hsz H0. pose proof (len_nonneg _ l) as Hll. pose proof (len_nonneg _ r) as Hlr. apply wp_bind.
    eapply wp_while with (m := fun '(b, i, j, k) => Z.to_nat (len l - i + (len r - j)))
     (I := fun '(b, i, j, k) => 0 <= i <= len l /\ 0 <= j <= len r /\ exists w, k = sl + len w /\ len w = i + j /\ holds a b sl M w /\
         mrg l r = w ++ mrg (skipn (Z.to_nat i) l) (skipn (Z.to_nat j) r)).
    - intros [[[b i] j] k] (Hi & Hj & w & -> & Ew & HH & Em).
      destruct (Z.ltb_spec i (len l)) as [Hil|Hil]; [destruct (Z.ltb_spec j (len r)) as [Hjl|Hjl]|]; cbn [andb wp].
      + apply wp_bind. rewrite (lget_ok _ None) by lia. simpl. apply wp_bind. rewrite (lget_ok _ None) by lia. simpl.
        rewrite (skipn_cons_z l i), (skipn_cons_z r j), mrg_cons in Em by lia.
        assert (Hb : len b = len a) by apply HH.
        destruct (cmp (l$i) (r$j)) eqn:E.
        * apply wp_bind, wp_aset; [lia|]. simpl. split; [|lia]. split; [lia|]. split; [lia|]. exists (w ++ [l$i]). rewrite len_snoc.
          split; [lia|]. split; [lia|]. split; [apply holds_snoc; auto; lia|]. rewrite Em, <- app_assoc, (skipn_cons_z r j) by lia. reflexivity.
        * apply wp_bind, wp_aset; [lia|]. simpl. split; [|lia]. split; [lia|]. split; [lia|]. exists (w ++ [r$j]). rewrite len_snoc.
          split; [lia|]. split; [lia|]. split; [apply holds_snoc; auto; lia|]. rewrite Em, <- app_assoc, (skipn_cons_z l i) by lia. reflexivity.
      + (* r exhausted *)
        assert (Hjr : skipn (Z.to_nat j) r = []) by (apply skipn_all2; unfold len in *; lia).
        rewrite Hjr, mrg_nil_r in Em. apply wp_bind.
        eapply wp_while with (m := fun '(b, i, k) => Z.to_nat (len l - i)) (I := fun '(b, i, k) => 0 <= i <= len l /\ exists w, k = sl + len w /\ len w = i + j /\ holds a b sl M w /\
            mrg l r = w ++ skipn (Z.to_nat i) l); [| |unfold len in *; lia].
        * intros [[b1 i1] k1] (Hi1 & w1 & -> & Ew1 & HH1 & Em1). destruct (Z.ltb_spec i1 (len l)).
          -- apply wp_bind. rewrite (lget_ok _ None) by lia. simpl. assert (Hb : len b1 = len a) by apply HH1.
             apply wp_bind, wp_aset; [lia|]. simpl. split; [|lia]. split; [lia|]. exists (w1 ++ [l$i1]). rewrite len_snoc.
             split; [lia|]. split; [lia|]. split; [apply holds_snoc; auto; lia|]. rewrite Em1, (skipn_cons_z l i1), <- app_assoc by lia. reflexivity.
          -- simpl. destruct (Z.ltb_spec j (len r)); [lia|]. simpl. rewrite Em1, skipn_all2, app_nil_r by (unfold len in *; lia). exact HH1.
        * split; [lia|]. exists w. auto.
      + assert (Hir : skipn (Z.to_nat i) l = []) by (apply skipn_all2; unfold len in *; lia).
        rewrite Hir in Em. cbn [mrg] in Em.
        apply wp_bind. eapply wp_eq; [cbn [while_loop]; destruct (Z.ltb_spec i (len l)); [lia|]; reflexivity|]. cbv beta iota. apply wp_bind.
        eapply wp_while with (m := fun '(b, j, k) => Z.to_nat (len r - j)) (I := fun '(b, j, k) => 0 <= j <= len r /\ exists w, k = sl + len w /\ len w = i + j /\ holds a b sl M w /\
            mrg l r = w ++ skipn (Z.to_nat j) r); [| |unfold len in *; lia].
        * intros [[b1 j1] k1] (Hi1 & w1 & -> & Ew1 & HH1 & Em1). destruct (Z.ltb_spec j1 (len r)).
          -- apply wp_bind. rewrite (lget_ok _ None) by lia. simpl. assert (Hb : len b1 = len a) by apply HH1.
             apply wp_bind, wp_aset; [lia|]. simpl. split; [|lia]. split; [lia|]. exists (w1 ++ [r$j1]). rewrite len_snoc.
             split; [lia|]. split; [lia|]. split; [apply holds_snoc; auto; lia|]. rewrite Em1, (skipn_cons_z r j1), <- app_assoc by lia. reflexivity.
          -- simpl. rewrite Em1, skipn_all2, app_nil_r by (unfold len in *; lia). exact HH1.
        * split; [lia|]. exists w. auto.
    - split; [lia|]. split; [lia|]. exists []. split; [change (len (@nil (option A))) with 0; lia|]. split; [reflexivity|]. split; [exact H0|reflexivity].
    - unfold len. lia.
  Qed.

  Lemma merge_ok (a : arr) sl w end_ : 0 <= sl -> 1 <= w -> sl <= end_ -> end_ < len a ->
    sorted_range leA a sl (Z.min (sl + w - 1) end_) -> sorted_range leA a (sl + w) (Z.min (sl + 2 * w - 1) end_) ->
    wp (ms_merge comp a sl (sl + w - 1) (sl + w) (sl + 2 * w - 1) end_) (fun b =>
       sorts leA a sl (Z.min (sl + 2 * w - 1) end_) b /\ ((forall x y, leA x y -> comp x y = true) -> stable comp a b)).
  Proof.
    intros Hs Hw Hse He S1 S2. unfold ms_merge.
    apply wp_bind. eapply wp_mono; [apply (take_range_ok a); lia|]. intros [b l] (El & Eb & Fb).
    apply wp_bind. eapply wp_mono; [apply (take_range_ok b); lia|]. intros [c r] (Er & Ec & Fc).
    set (M := Z.min (sl + 2 * w - 1) end_) in *.
    assert (Er' : r = seg a (sl + w) M).
    { rewrite Er. destruct (Z_lt_le_dec M (sl + w)); [rewrite !seg_empty by lia; reflexivity|].
      apply (zn_ext _ None); [rewrite !seg_len by lia; reflexivity|]. intros i Hi. rewrite seg_len in Hi by lia.
      rewrite !(zn_seg None) by lia. apply Fb; lia. }
    assert (Ls : len l + len r = M + 1 - sl).
    { rewrite El, Er'. rewrite seg_len by lia. destruct (Z_lt_le_dec M (sl + w)).
      - rewrite seg_empty by lia. change (len (@nil (option A))) with 0. lia.
      - rewrite seg_len by lia. lia. }
    eapply wp_mono; [apply (merge_loops a c sl M l r); try lia|].
    - split; [lia|]. split; [intros t Ht; change (len (@nil (option A))) with 0 in Ht; lia|].
      intros i Hi Ho. rewrite Fc by lia. apply Fb; lia.
    - intros d (L1 & L2 & L3).
      assert (Eseg : seg d sl M = mrg l r).
      { apply (zn_ext _ None); [rewrite seg_len, mrg_len by lia; lia|]. intros i Hi. rewrite seg_len in Hi by lia.
        rewrite (zn_seg None) by lia. apply L2. rewrite mrg_len. lia. }
      assert (Elr : seg a sl M = l ++ r).
      { rewrite El, Er'. destruct (Z_lt_le_dec M (sl + w)).
        - rewrite (seg_empty _ (sl + w)) by lia. rewrite app_nil_r. f_equal. lia.
        - replace (Z.min (sl + w - 1) end_) with (sl + w - 1) by lia.
          apply (zn_ext _ None).
          + rewrite seg_len by lia. unfold len. rewrite app_length. fold (len (seg a sl (sl + w - 1))) (len (seg a (sl + w) M)).
            rewrite Nat2Z.inj_add. fold (len (seg a sl (sl + w - 1))) (len (seg a (sl + w) M)). rewrite !seg_len by lia. lia.
          + intros i Hi. rewrite seg_len in Hi by lia. rewrite (zn_seg None) by lia.
            pose proof (seg_len a sl (sl + w - 1) ltac:(lia) ltac:(lia) ltac:(lia)) as HL.
            unfold zn at 2. unfold len in HL. destruct (Z_lt_le_dec i w).
            * rewrite app_nth1 by lia. fold (zn None (seg a sl (sl + w - 1)) i). rewrite (zn_seg None) by lia. reflexivity.
            * rewrite app_nth2 by lia. replace (Z.to_nat i - length (seg a sl (sl + w - 1)))%nat with (Z.to_nat (i - w)) by lia.
              fold (zn None (seg a (sl + w) M) (i - w)). rewrite (zn_seg None) by lia. f_equal. lia. }
      assert (Sl : Srt l) by (rewrite El; apply Srt_seg; [lia|lia|exact S1]).
      assert (Sr : Srt r) by (rewrite Er'; apply Srt_seg; [lia|unfold M; lia|exact S2]).
      split; [split|].
      + apply (seg_rearr None); try lia; [exact L3|]. rewrite Eseg, Elr. apply mrg_perm.
      + pose proof (mrg_srt l r Sl Sr) as HS. rewrite <- Eseg in HS.
        pose proof (proj1 (Srt_nth _) HS) as HS'. intros i j Hi Hij Hj. specialize (HS' (i - sl) (j - sl)).
        rewrite seg_len in HS' by lia. rewrite !(zn_seg None) in HS' by lia. replace (sl + (i - sl)) with i in HS' by lia. replace (sl + (j - sl)) with j in HS' by lia.
        apply HS'; lia.
      + intros Hiff x. rewrite (split3 a sl M), (split3 d sl M) by lia. rewrite !filter_app. rewrite Eseg, Elr.
        rewrite (firstn_ext None d a) by (try lia; intros; apply L3; lia). rewrite (skipn_ext None d a) by (try lia; intros; apply L3; lia).
        rewrite (mrg_stable Hiff) by assumption. rewrite filter_app. reflexivity.
  Qed.

  (** one round *)
  Definition blocks (b : arr) s e w lo hi := forall p q, lo <= p -> p <= q -> q <= hi -> q <= e -> (p - s) / w = (q - s) / w -> R (b$p) (b$q).
  Definition stable_if (a b : arr) := (forall x y, leA x y -> comp x y = true) -> stable comp a b.

  Lemma stable_trans a b c : stable_if a b -> stable_if b c -> stable_if a c.
  Proof. intros H1 H2 Hi x. rewrite (H2 Hi x). apply (H1 Hi). Qed.

  Lemma div_block s w k p : 0 < w -> s + k * w <= p < s + (k + 1) * w -> (p - s) / w = k.
  Proof. intros Hw H. symmetry. apply Z.div_unique with (r := p - s - w * k); lia. Qed.

  Lemma round_ok (a : arr) s e w : 0 <= s -> s <= e -> e < len a -> 1 <= w -> blocks a s e w s e ->
    wp (ms_round comp a s e w) (fun b => rearranged None a s e b /\ stable_if a b /\ blocks b s e (2 * w) s e).
  Proof.
    intros Hs Hse He Hw HB. unfold ms_round.
    eapply wp_while with (m := fun '(b, i) => Z.to_nat (e + 1 - i))
      (I := fun '(b, i) => exists k, 0 <= k /\ i = s + k * (2 * w) /\ rearranged None a s e b /\ stable_if a b /\
           blocks b s e (2 * w) s (i - 1) /\ blocks b s e w i e).
    - intros [b i] (k & Hk & -> & RA & ST & B1 & B2). pose proof (rearr_len _ _ _ _ _ RA) as Hl.
      destruct (Z.leb_spec (s + k * (2 * w)) e) as [Hle|Hgt].
      + set (i := s + k * (2 * w)) in *. apply wp_bind. eapply wp_mono; [apply (merge_ok b i w e); try lia|].
        * intros p q Hp Hpq Hq. apply B2; try lia. rewrite (div_block s w (2 * k) p), (div_block s w (2 * k) q); try reflexivity; unfold i in *; nia.
        * intros p q Hp Hpq Hq. apply B2; try lia. rewrite (div_block s w (2 * k + 1) p), (div_block s w (2 * k + 1) q); try reflexivity; unfold i in *; nia.
        * intros c [[RA' S'] ST']. simpl. split; [|lia]. exists (k + 1). split; [lia|]. split; [unfold i; lia|].
          split; [eapply rearr_trans; [exact RA|eapply rearr_weaken; [exact RA'|unfold i; nia|lia]]|].
          split; [eapply stable_trans; [exact ST|exact ST']|]. split.
          -- intros p q Hp Hpq Hq Hqe Eq. destruct (Z_lt_le_dec q i).
             ++ rewrite (proj2 RA' p), (proj2 RA' q) by lia. apply B1; first [lia|exact Eq].
             ++ assert (Hq' : (q - s) / (2 * w) = k) by (apply div_block; unfold i in *; nia).
                rewrite Hq' in Eq. assert (i <= p). { unfold i. pose proof (Z.mul_div_le (p - s) (2 * w) ltac:(lia)). nia. }
                apply S'; try lia.
          -- intros p q Hp Hpq Hq Hqe Eq. rewrite (proj2 RA' p), (proj2 RA' q) by (unfold i in *; lia). apply B2; first [lia|exact Eq].
      + simpl. split; [exact RA|]. split; [exact ST|]. intros p q Hp Hpq Hq Hqe Eq. apply B1; first [lia|exact Eq].
    - exists 0. split; [lia|]. split; [lia|]. split; [apply rearr_refl|]. split; [intros Hi x; reflexivity|]. split; [intros p q; intros; lia|].
      intros p q Hp Hpq Hq Hqe Eq. apply HB; assumption.
    - lia.
  Qed.

  Lemma rounds_ok (a : arr) s e rounds : 0 <= s -> s <= e -> e < len a -> 0 <= rounds -> e - s + 1 <= 2 ^ rounds ->
    wp (ms_rounds comp rounds a s e) (fun b => sorts leA a s e b /\ stable_if a b).
  Proof.
    intros Hs Hse He Hr Hp. unfold ms_rounds.
    apply (wp_for_range _ _ _ _ (fun k b => 0 <= k /\ rearranged None a s e b /\ stable_if a b /\ blocks b s e (2 ^ k) s e)).
    - split; [lia|]. split; [apply rearr_refl|]. split; [intros Hi x; reflexivity|].
      intros p q Hp1 Hpq Hq Hqe Eq. change (2 ^ 0) with 1 in Eq. rewrite !Z.div_1_r in Eq. replace q with p by lia. apply R_refl.
    - intros k b Hk (_ & RA & ST & HB). pose proof (rearr_len _ _ _ _ _ RA) as Hl.
      assert (1 <= 2 ^ k) by (pose proof (Z.pow_pos_nonneg 2 k ltac:(lia) ltac:(lia)); lia).
      eapply wp_mono; [apply (round_ok b s e (2 ^ k)); auto; lia|]. intros c (RA' & ST' & HB').
      split; [lia|]. split; [eapply rearr_trans; eauto|]. split; [eapply stable_trans; eauto|].
      rewrite Z.pow_add_r by lia. change (2 ^ 1) with 2. replace (2 ^ k * 2) with (2 * 2 ^ k) by lia. exact HB'.
    - rewrite Z.max_r by lia. intros b (_ & RA & ST & HB). split; [split; [exact RA|]|exact ST].
      intros i j Hi Hij Hj. apply HB; try lia. rewrite !Z.div_small by lia. reflexivity.
  Qed.

  Lemma merge_sort_ok nt (a : arr) s e : 0 < nt -> 0 <= s -> s <= e -> e < len a ->
    wp (merge_sort_parallel comp nt a s e) (fun b => sorts leA a s e b /\ ((forall x y, leA x y -> comp x y = true) -> stable comp a b)).
  Proof.
    intros Hnt Hs Hse He. unfold merge_sort_parallel. destruct (Z.leb_spec (e - s + 1) 0); [lia|]. destruct (Z.leb_spec nt 0); [lia|].
    apply rounds_ok; auto; [pose proof (Z.log2_nonneg (e - s + 1)); lia|].
    pose proof (Z.log2_spec (e - s + 1) ltac:(lia)). replace (Z.log2 (e - s + 1) + 1) with (Z.succ (Z.log2 (e - s + 1))) by lia. lia.
  Qed.

  (** *** brick_sort *)
  Fixpoint inv (l : arr) : nat := match l with [] => 0 | x :: l' => length (filter (fun y => cmp y x) l') + inv l' end%nat.
  Definition no_tie (u v : option A) : Prop := cmp u v && cmp v u = false.
  Lemma inv_swap l1 x y l2 : cmp y x = true -> cmp x y = false -> (inv (l1 ++ y :: x :: l2) < inv (l1 ++ x :: y :: l2))%nat.
  Proof.
    intros H1 H2. induction l1 as [|z l1 IH]; simpl.
    - rewrite H1, H2. simpl. lia.
    - assert (E : length (filter (fun u => cmp u z) (l1 ++ y :: x :: l2)) = length (filter (fun u => cmp u z) (l1 ++ x :: y :: l2))).
      { rewrite !filter_app, !app_length. simpl. destruct (cmp y z), (cmp x z); simpl; lia. }
      rewrite E. lia.
  Qed.
  Lemma swapz_adj (b : arr) i : 0 <= i -> i + 1 < len b ->
    exists l1 l2, b = l1 ++ b$i :: b$(i+1) :: l2 /\ swapz None b i (i + 1) = l1 ++ b$(i+1) :: b$i :: l2.
  Proof.
    intros Hi Hl. exists (firstn (Z.to_nat i) b), (skipn (Z.to_nat (i + 2)) b).
    assert (Eb : b = firstn (Z.to_nat i) b ++ b$i :: b$(i+1) :: skipn (Z.to_nat (i + 2)) b).
    { rewrite <- (firstn_skipn (Z.to_nat i) b) at 1. f_equal. rewrite skipn_cons_z by lia. f_equal.
      rewrite skipn_cons_z by lia. f_equal. f_equal. lia. }
    split; [exact Eb|].
    assert (Lf : length (firstn (Z.to_nat i) b) = Z.to_nat i) by (rewrite firstn_length; unfold len in Hl; lia).
    unfold swapz. rewrite Eb at 1. unfold zupd. rewrite upd_app2 by lia. rewrite Lf, Nat.sub_diag. cbn [upd].
    rewrite upd_app2 by lia. rewrite Lf. replace (Z.to_nat (i + 1) - Z.to_nat i)%nat with 1%nat by lia. cbn [upd]. reflexivity.
  Qed.
  Lemma FOP_app (P : option A -> option A -> Prop) l1 l2 : ForallOrdPairs P (l1 ++ l2) -> ForallOrdPairs P l2.
  Proof. induction l1; simpl; intros H; [exact H|]. inversion H; auto. Qed.
  Lemma FOP_swap (P : option A -> option A -> Prop) (Hsym : forall u v, P u v -> P v u) l l' : Permutation l l' -> ForallOrdPairs P l -> ForallOrdPairs P l'.
  Proof.
    induction 1; intros F; auto.
    - inversion F; subst. constructor; auto. eapply Permutation_Forall; eauto.
    - inversion F as [|? ? F1 F2]; subst. inversion F2 as [|? ? F3 F4]; subst. inversion F1; subst.
      constructor; [constructor; auto|]. constructor; auto.
  Qed.
  Lemma no_tie_sym u v : no_tie u v -> no_tie v u.
  Proof. unfold no_tie. rewrite andb_comm. auto. Qed.

  Lemma brick_pass_ok s e l : 0 <= s -> (forall i, In i l -> s <= i < e) -> forall (a : arr) f, e < len a -> ForallOrdPairs no_tie a ->
    wp (brick_pass comp l (a, f)) (fun '(b, f') => rearranged None a s e b /\ (inv b <= inv a)%nat /\
      (f' = true -> f = true /\ b = a /\ forall i, In i l -> R (a$i) (a$(i+1))) /\
      (f' = false -> f = false \/ (inv b < inv a)%nat)).
  Proof.
    intros Hs. induction l as [|i l IH]; intros Hl a f He F.
    - simpl. split; [apply rearr_refl|]. split; [lia|]. split; [intros ->; split; [reflexivity|]; split; [reflexivity|intros ? []]|auto].
    - unfold brick_pass. cbn [forM]. fold (brick_pass comp l). assert (Hi := Hl i (or_introl eq_refl)).
      apply wp_bind, wp_bind, (wp_aget _ None); [lia|]. apply wp_bind, (wp_aget _ None); [lia|].
      destruct (cmp (a$(i+1)) (a$i)) eqn:E.
      + apply wp_bind, (wp_swap None); [lia|lia|]. simpl.
        destruct (swapz_adj a i ltac:(lia) ltac:(lia)) as (l1 & l2 & E1 & E2).
        assert (En : cmp (a$i) (a$(i+1)) = false).
        { rewrite E1 in F. apply FOP_app in F. inversion F as [|? ? F1 _]; subst. inversion F1; subst. unfold no_tie in H1.
          rewrite E, andb_true_r in H1. exact H1. }
        assert (Hinv : (inv (swapz None a i (i+1)) < inv a)%nat) by (rewrite E2, (f_equal inv E1); apply inv_swap; assumption).
        eapply wp_mono; [apply (IH (fun j Hj => Hl j (or_intror Hj)) (swapz None a i (i+1)) false)|].
        * rewrite len_swapz. exact He.
        * eapply FOP_swap; [apply no_tie_sym| |exact F]. symmetry. apply swapz_perm; lia.
        * intros [b f'] (RA & I1 & I2 & I3). split; [eapply rearr_trans; [apply rearr_swap with (i := i) (j := i + 1); lia|exact RA]|].
          split; [lia|]. split; [intros Hf; destruct (I2 Hf); discriminate|]. intros _. right. lia.
      + apply R_f in E. simpl.
        eapply wp_mono; [apply (IH (fun j Hj => Hl j (or_intror Hj)) a f He F)|].
        intros [b f'] (RA & I1 & I2 & I3). split; [exact RA|]. split; [exact I1|]. split; [|exact I3].
        intros Hf. destruct (I2 Hf) as (J1 & J2 & J3). split; [exact J1|]. split; [exact J2|]. intros j [<-|Hj]; [exact E|auto].
  Qed.

  Lemma zrange_step2_in lo hi i : In i (zrange_step lo hi 2) <-> lo <= i < hi /\ (i - lo) mod 2 = 0.
  Proof.
    unfold zrange_step. rewrite in_map_iff. split.
    - intros (k & <- & Hk). apply in_seq in Hk. replace (lo + 2 * Z.of_nat k - lo) with (Z.of_nat k * 2) by lia. rewrite Z.mod_mul by lia.
      split; [|reflexivity]. pose proof (Z.mul_div_le (hi - lo + 2 - 1) 2 ltac:(lia)). lia.
    - intros (Hi & Hm). exists (Z.to_nat ((i - lo) / 2)). pose proof (Z.div_mod (i - lo) 2 ltac:(lia)).
      assert (0 <= (i - lo) / 2) by (apply Z.div_pos; lia). split; [lia|]. apply in_seq. split; [lia|].
      assert ((i - lo) / 2 + 1 <= (hi - lo + 2 - 1) / 2) by (apply Z.div_le_lower_bound; lia). lia.
  Qed.

  Lemma inv_le l : (inv l <= length l * length l)%nat.
  Proof.
    induction l as [|x l IH]; simpl; [lia|].
    assert (length (filter (fun y => cmp y x) l) <= length l)%nat by (clear; induction l as [|z l IHl]; simpl; [lia|destruct (cmp z x); simpl; lia]).
    nia.
  Qed.

  Lemma brick_ok (a : arr) s e fuel : 0 <= s -> e < len a -> ForallOrdPairs no_tie a -> (length a * length a + 2 <= fuel)%nat ->
    wp (brick_sort comp fuel a s e) (sorts leA a s e).
  Proof.
    intros Hs He F Hfuel. unfold brick_sort.
    eapply wp_while with (m := fun '(b, f) => if f : bool then 0%nat else S (inv b))
      (I := fun '(b, f) => rearranged None a s e b /\ (f = true -> sorted_range leA b s e)).
    - intros [b f] (RA & HS). destruct f; [simpl; split; [exact RA|apply HS; reflexivity]|].
      pose proof (rearr_len _ _ _ _ _ RA) as Hl.
      assert (Fb : ForallOrdPairs no_tie b) by (eapply FOP_swap; [apply no_tie_sym|apply RA|exact F]).
      apply wp_bind. eapply wp_mono; [apply (brick_pass_ok s e); auto; [|lia]|].
      { intros i Hi. apply zrange_step2_in in Hi. lia. }
      intros [c f1] (RA1 & I1 & I2 & I3). pose proof (rearr_len _ _ _ _ _ RA1) as Hl1.
      apply wp_bind. eapply wp_mono; [apply (brick_pass_ok s e); auto; [|lia|]|].
      { intros i Hi. apply zrange_step2_in in Hi. lia. }
      { eapply FOP_swap; [apply no_tie_sym|apply RA1|exact Fb]. }
      intros [c2 f2] (RA2 & J1 & J2 & J3). simpl. split; [split|].
      + eapply rearr_trans; [exact RA|]. eapply rearr_trans; eauto.
      + intros ->. destruct (J2 eq_refl) as (K1 & -> & K2). subst f1. destruct (I2 eq_refl) as (_ & -> & K3).
        apply sorted_adj. intros i Hi.
        destruct (Z.eq_dec ((i - s) mod 2) 0) as [E|E]; [apply K2, zrange_step2_in; split; [lia|exact E]|].
        apply K3, zrange_step2_in. split.
        * split; [|lia]. destruct (Z.eq_dec i s) as [->|]; [|lia]. rewrite Z.sub_diag in E. exfalso. apply E. reflexivity.
        * pose proof (Z.mod_pos_bound (i - s) 2 ltac:(lia)). pose proof (Z.div_mod (i - s) 2 ltac:(lia)).
          replace (i - (s + 1)) with (((i - s) / 2) * 2) by lia. apply Z.mod_mul. lia.
      + destruct f2; [lia|]. destruct (J3 eq_refl) as [->|H]; [destruct (I3 eq_refl); [discriminate|lia]|lia].
    - split; [apply rearr_refl|discriminate].
    - pose proof (inv_le a). lia.
  Qed.
End Order3.
