(** Proofs for the comparison sorts. *)
From Verif Require Import Base SortModel SortSpec.

Section Rearr.
  Context {V : Type} (d : V).
  Notation arr := (list V).
  Lemma rearr_refl (a : arr) s e : rearranged d a s e a.
  Proof. split; auto. Qed.
  Lemma rearr_trans (a b c : arr) s e : rearranged d a s e b -> rearranged d b s e c -> rearranged d a s e c.
  Proof. intros [P1 F1] [P2 F2]. split; [etransitivity; eauto|]. intros i H1 H2. rewrite F2, F1 by assumption. reflexivity. Qed.
  Lemma rearr_len (a b : arr) s e : rearranged d a s e b -> len b = len a.
  Proof. intros [P _]. unfold len. rewrite (Permutation_length P). reflexivity. Qed.
  Lemma rearr_weaken (a b : arr) s e s' e' : rearranged d a s e b -> s' <= s -> e <= e' -> rearranged d a s' e' b.
  Proof. intros [P F] H1 H2. split; [exact P|]. intros i Hi Ho. apply F; lia. Qed.
  Lemma rearr_swap (a : arr) s e i j : 0 <= s -> e < len a -> s <= i <= e -> s <= j <= e -> rearranged d a s e (swapz d a i j).
  Proof.
    intros Hs He Hi Hj. split; [symmetry; apply swapz_perm; lia|].
    intros k Hk Ho. rewrite zn_swapz by lia. destruct (Z.eqb_spec k j); [lia|]. destruct (Z.eqb_spec k i); [lia|]. reflexivity.
  Qed.

  Definition seg (a : arr) (s e : Z) : arr := firstn (Z.to_nat (e + 1 - s)) (skipn (Z.to_nat s) a).
  Lemma seg_len (a : arr) s e : 0 <= s -> s <= e + 1 -> e < len a -> len (seg a s e) = e + 1 - s.
  Proof. intros. unfold seg, len in *. rewrite firstn_length, skipn_length. lia. Qed.
  Lemma nth_skipn_ (l : arr) n i : nth i (skipn n l) d = nth (n + i) l d.
  Proof. revert l; induction n; intros l; simpl; [reflexivity|]. destruct l; simpl; [destruct i; reflexivity|apply IHn]. Qed.
  Lemma nth_firstn_ (l : arr) n i : (i < n)%nat -> nth i (firstn n l) d = nth i l d.
  Proof.
    revert l i; induction n; intros l i H; [lia|]. destruct l; simpl; [destruct i; reflexivity|].
    destruct i; [reflexivity|]. apply IHn; lia.
  Qed.
  Lemma zn_seg (a : arr) s e i : 0 <= s -> 0 <= i < e + 1 - s -> zn d (seg a s e) i = zn d a (s + i).
  Proof.
    intros Hs Hi. unfold zn, seg. rewrite nth_firstn_ by lia. rewrite nth_skipn_. f_equal. lia.
  Qed.
  Lemma firstn_ext (a b : arr) n : len a = len b -> (forall i, 0 <= i < Z.of_nat n -> zn d a i = zn d b i) -> firstn n a = firstn n b.
  Proof.
    intros Hl H. apply (zn_ext _ d).
    - unfold len in *. rewrite !firstn_length. lia.
    - intros i Hi. unfold len in Hi. rewrite firstn_length in Hi. unfold zn. rewrite !nth_firstn_ by lia.
      specialize (H i). unfold zn in H. apply H. lia.
  Qed.
  Lemma skipn_ext (a b : arr) n : len a = len b -> (forall i, Z.of_nat n <= i -> zn d a i = zn d b i) -> skipn n a = skipn n b.
  Proof.
    intros Hl H. apply (zn_ext _ d).
    - unfold len in *. rewrite !skipn_length. lia.
    - intros i Hi. unfold zn. rewrite !nth_skipn_. specialize (H (Z.of_nat n + i)). unfold zn in H.
      replace (Z.to_nat (Z.of_nat n + i)) with (n + Z.to_nat i)%nat in H by lia. apply H. lia.
  Qed.
  Lemma skipn_skipn_ n m (l : arr) : skipn n (skipn m l) = skipn (n + m) l.
  Proof. revert l; induction m; intros l; [rewrite Nat.add_0_r; reflexivity|]. rewrite Nat.add_succ_r. destruct l; simpl; [destruct n; reflexivity|apply IHm]. Qed.
  Lemma split3 (a : arr) s e : 0 <= s -> s <= e + 1 -> a = firstn (Z.to_nat s) a ++ seg a s e ++ skipn (Z.to_nat (e + 1)) a.
  Proof.
    intros Hs He. unfold seg. rewrite <- (firstn_skipn (Z.to_nat s) a) at 1. f_equal.
    rewrite <- (firstn_skipn (Z.to_nat (e + 1 - s)) (skipn (Z.to_nat s) a)) at 1. f_equal.
    rewrite skipn_skipn_. f_equal. lia.
  Qed.
  Lemma rearr_seg (a b : arr) s e : 0 <= s -> s <= e + 1 -> rearranged d a s e b -> Permutation (seg a s e) (seg b s e).
  Proof.
    intros Hs He R. pose proof (rearr_len _ _ _ _ R) as Hl. destruct R as [P F].
    rewrite (split3 a s e Hs He), (split3 b s e Hs He) in P.
    rewrite (firstn_ext b a) in P by (try lia; intros; apply F; lia).
    rewrite (skipn_ext b a) in P by (try lia; intros; apply F; lia).
    apply Permutation_app_inv_l in P. apply Permutation_app_inv_r in P. exact P.
  Qed.
  Lemma seg_rearr (a b : arr) s e : 0 <= s -> s <= e + 1 -> e < len a -> len b = len a ->
    (forall i, 0 <= i -> i < s \/ e < i -> zn d b i = zn d a i) -> Permutation (seg a s e) (seg b s e) -> rearranged d a s e b.
  Proof.
    intros Hs He Hea Hl F P. split; [|exact F].
    rewrite (split3 a s e Hs He), (split3 b s e Hs He).
    rewrite (firstn_ext b a) by (try lia; intros; apply F; lia).
    rewrite (skipn_ext b a) by (try lia; intros; apply F; lia).
    apply Permutation_app_head, Permutation_app_tail, P.
  Qed.
  Lemma rearr_in (a b : arr) s e i : 0 <= s -> e < len a -> rearranged d a s e b -> s <= i <= e ->
    exists j, s <= j <= e /\ zn d b i = zn d a j.
  Proof.
    intros Hs He R Hi. pose proof (rearr_len _ _ _ _ R) as Hl. pose proof (rearr_seg a b s e Hs ltac:(lia) R) as P.
    assert (Hin : In (zn d b i) (seg b s e)).
    { replace i with (s + (i - s)) by lia. rewrite <- (zn_seg b s e) by lia. unfold zn. apply nth_In.
      pose proof (seg_len b s e). unfold len in *. lia. }
    apply (Permutation_in _ (Permutation_sym P)) in Hin. apply (In_nth _ _ d) in Hin. destruct Hin as (n & Hn & En).
    pose proof (seg_len a s e Hs ltac:(lia) He) as Hsl. unfold len in Hsl.
    exists (s + Z.of_nat n). split; [lia|]. rewrite <- En. rewrite <- (zn_seg a s e) by lia. unfold zn. rewrite Nat2Z.id. reflexivity.
  Qed.
  (** a predicate on positions' values survives rearranging a covered range *)
  Lemma rearr_all (P : V -> Prop) (a b : arr) s e lo hi : 0 <= s -> e < len a -> rearranged d a s e b ->
    lo <= s -> e <= hi -> 0 <= lo -> (forall i, lo <= i <= hi -> P (zn d a i)) -> forall i, lo <= i <= hi -> P (zn d b i).
  Proof.
    intros Hs He R H1 H2 H3 H i Hi. destruct (Z_lt_le_dec i s); [rewrite (proj2 R) by lia; auto|].
    destruct (Z_lt_le_dec e i); [rewrite (proj2 R) by lia; auto|].
    destruct (rearr_in a b s e i Hs He R ltac:(lia)) as (j & Hj & ->). apply H. lia.
  Qed.

  Lemma wp_swap (a : arr) i j (Q : arr -> Prop) : 0 <= i < len a -> 0 <= j < len a -> Q (swapz d a i j) -> wp (swap a i j) Q.
  Proof.
    intros Hi Hj HQ. unfold swap. rewrite (aget_ok _ d a j), (aget_ok _ d a i) by lia. cbn [bind].
    rewrite aset_ok by lia. cbn [bind]. rewrite aset_ok by (rewrite len_zupd; lia). exact HQ.
  Qed.
End Rearr.

Section Order.
  Context {A : Type} (comp : A -> A -> bool) (leA : A -> A -> Prop) (D : decides comp leA).
  Notation cmp := (pcomp comp).
  Notation arr := (list (option A)).
  Notation "a $ i" := (zn None a i) (at level 9, format "a $ i").
  Definition R := none_last leA.

  Lemma R_t u v : cmp u v = true -> R u v.
  Proof. destruct u, v; simpl; try discriminate; unfold R; simpl; auto. apply (dec_true _ _ D). Qed.
  Lemma R_f u v : cmp u v = false -> R v u.
  Proof. destruct u, v; simpl; try discriminate; unfold R; simpl; auto. apply (dec_false _ _ D). Qed.
  Lemma R_trans u v w : R u v -> R v w -> R u w.
  Proof. destruct u, v, w; unfold R; simpl; try tauto. apply (dec_trans _ _ D). Qed.
  Lemma R_refl u : R u u.
  Proof. destruct (cmp u u) eqn:E; [apply R_t|apply R_f]; exact E. Qed.
  Lemma R_total u v : R u v \/ R v u.
  Proof. destruct (cmp u v) eqn:E; [left; apply R_t|right; apply R_f]; exact E. Qed.

  Lemma sorted_adj (a : arr) s e : (forall i, s <= i < e -> R (a$i) (a$(i+1))) -> sorted_range leA a s e.
  Proof.
    intros H i j Hi Hij Hj.
    assert (G : forall n, i + Z.of_nat n <= e -> R (a$i) (a$(i + Z.of_nat n))).
    { induction n as [|n IH]; intros Hn; [rewrite Z.add_0_r; apply R_refl|].
      eapply R_trans; [apply IH; lia|]. replace (i + Z.of_nat (S n)) with (i + Z.of_nat n + 1) by lia. apply H. lia. }
    specialize (G (Z.to_nat (j - i))). rewrite Z2Nat.id in G by lia. replace (i + (j - i)) with j in G by lia. apply G. lia.
  Qed.

  Ltac zsw := rewrite ?zn_swapz by (rewrite ?len_swapz; lia);
     repeat match goal with |- context [Z.eqb ?x ?y] => destruct (Z.eqb_spec x y); try lia end.

  (** *** bubble_sort *)
  Definition topk (a : arr) s e k := forall p, e - k < p -> p <= e -> forall q, s <= q -> q <= p -> R (a$q) (a$p).

  Lemma bubble_pass (a : arr) s e k : 0 <= s -> s <= e -> e < len a -> 0 <= k -> topk a s e k ->
    wp (forM (zrange s e) (fun j array =>
        x <- aget array j ;; y <- aget array (j + 1) ;;
        if negb (cmp x y) then swap array j (j + 1) else Ret array) a)
       (fun b => rearranged None a s e b /\ topk b s e (k + 1)).
  Proof.
    intros Hs Hse He Hk T.
    apply (wp_for_range _ _ _ _ (fun j b => rearranged None a s e b /\ (forall q, s <= q <= j -> R (b$q) (b$j)) /\
      (forall p, e - k <= p <= e -> p <> j -> (p < j \/ e - k < p) -> forall q, s <= q <= p -> R (b$q) (b$p)))).
    - split; [apply rearr_refl|]. split.
      + intros q Hq. replace q with s by lia. apply R_refl.
      + intros p Hp Hne [H|H] q Hq; [lia|]. apply T; lia.
    - intros j b Hj (RA & H1 & H2). pose proof (rearr_len _ _ _ _ _ RA) as Hl.
      apply wp_bind, (wp_aget _ None); [lia|]. apply wp_bind, (wp_aget _ None); [lia|].
      destruct (cmp (b$j) (b$(j+1))) eqn:E; simpl.
      + apply R_t in E. split; [exact RA|]. split.
        * intros q Hq. destruct (Z.eq_dec q (j+1)) as [->|]; [apply R_refl|]. eapply R_trans; [apply H1; lia|exact E].
        * intros p Hp Hne Hor q Hq. destruct (Z.eq_dec p j) as [->|]; [apply H1; lia|]. apply H2; lia.
      + apply R_f in E. apply (wp_swap None); [lia|lia|]. split.
        { eapply rearr_trans; [exact RA|]. apply rearr_swap; lia. }
        split.
        * intros q Hq. zsw; subst; first [exact E | apply R_refl | apply H1; lia].
        * intros p Hp Hne Hor q Hq. zsw; subst; first [apply H2; lia | apply R_refl | apply H1; lia | exact E | idtac].
    - intros b (RA & H1 & H2). rewrite Z.max_r in * by lia. split; [exact RA|].
      intros p Hp1 Hp2 q Hq1 Hq2. destruct (Z.eq_dec p e) as [->|]; [apply H1; lia|apply H2; lia].
  Qed.

  Lemma topk_sorted a s e k : 0 <= k -> e - s <= k -> topk a s e k -> sorted_range leA a s e.
  Proof.
    intros Hk Hks T i j Hi Hij Hj. destruct (Z.eq_dec i j) as [->|]; [apply R_refl|]. apply T; lia.
  Qed.

  Lemma bubble_ok (a : arr) s e : 0 <= s -> e < len a -> wp (bubble_sort comp a s e) (sorts leA a s e).
  Proof.
    intros Hs He. unfold bubble_sort. destruct (Z_lt_le_dec e s) as [Hlt|Hle].
    { rewrite zrange_nil with (lo := s) by lia.
      apply (wp_for_range _ _ _ _ (fun _ b => b = a)); [reflexivity|intros; assumption|].
      intros b ->. split; [apply rearr_refl|]. intros i j; lia. }
    apply (wp_for_range _ _ _ _ (fun k b => rearranged None a s e b /\ topk b s e k)).
    - split; [apply rearr_refl|]. intros p; lia.
    - intros k b Hk (RA & T). pose proof (rearr_len _ _ _ _ _ RA) as Hl.
      eapply wp_mono; [apply (bubble_pass b s e k); try lia; exact T|]. intros b' [RA' T']. split; [eapply rearr_trans; eauto|exact T'].
    - intros b (RA & T). split; [exact RA|]. eapply topk_sorted; [| |exact T]; lia.
  Qed.

  (** *** selection_sort *)
  Lemma selection_ok (a : arr) s e : 0 <= s -> e < len a -> wp (selection_sort comp a s e) (sorts leA a s e).
  Proof.
    intros Hs He. unfold selection_sort.
    apply (wp_for_range _ _ _ _ (fun i b => rearranged None a s e b /\ forall p, s <= p < i -> forall q, p <= q <= e -> R (b$p) (b$q))).
    - split; [apply rearr_refl|]. intros p; lia.
    - intros i b Hi (RA & H). pose proof (rearr_len _ _ _ _ _ RA) as Hl.
      apply wp_bind.
      apply (wp_for_range _ _ _ _ (fun j m => i <= m <= e /\ m < j /\ forall q, i <= q < j -> R (b$m) (b$q))).
      + split; [lia|]. split; [lia|]. intros q Hq. replace q with i by lia. apply R_refl.
      + intros j m Hj (Hm & Hmj & Hmin). apply wp_bind, (wp_aget _ None); [lia|]. apply wp_bind, (wp_aget _ None); [lia|].
        simpl. destruct (cmp (b$m) (b$j)) eqn:E; simpl.
        * apply R_t in E. split; [lia|]. split; [lia|]. intros q Hq. destruct (Z.eq_dec q j) as [->|]; [exact E|]. apply Hmin; lia.
        * apply R_f in E. split; [lia|]. split; [lia|]. intros q Hq. destruct (Z.eq_dec q j) as [->|]; [apply R_refl|].
          eapply R_trans; [exact E|]. apply Hmin; lia.
      + rewrite Z.max_r by lia. intros m (Hm & _ & Hmin).
        destruct (Z.eqb_spec m i) as [->|Hne]; simpl.
        * split; [exact RA|]. intros p Hp q Hq. destruct (Z.eq_dec p i) as [->|]; [apply Hmin; lia|apply H; lia].
        * apply (wp_swap None); [lia|lia|]. split; [eapply rearr_trans; [exact RA|]; apply rearr_swap; lia|].
          intros p Hp q Hq. zsw; subst; try (apply H; lia); try (apply Hmin; lia); try apply R_refl.
    - intros b (RA & H). split; [exact RA|]. intros i j Hi Hij Hj. apply H; lia.
  Qed.

  (** *** insertion_sort and shell_sort: [b] is the virtual array with [temp] stored in the hole [j] *)
  Lemma gap_insert_gen (a : arr) s e gap i : 0 <= s -> e < len a -> 1 <= gap -> s + gap <= i <= e ->
    forall (I : Z -> arr -> Prop),
    I i a ->
    (forall j b, s + gap <= j <= i -> len b = len a -> I j b -> cmp (b$(j - gap)) (a$i) = false -> b$j = a$i -> I (j - gap) (swapz None b j (j - gap))) ->
    wp (gap_insert comp a s gap i) (fun b => rearranged None a s i b /\ exists j, s <= j <= i /\ b$j = a$i /\ I j b /\ (s + gap <= j -> cmp (b$(j - gap)) (a$i) = true)).
  Proof.
    intros Hs He Hg Hi I I0 Istep. unfold gap_insert.
    apply wp_bind, (wp_aget _ None); [lia|]. apply wp_bind.
    eapply wp_while with (m := fun p => Z.to_nat (snd p - s))
      (I := fun p => let c := fst p in let j := snd p in s <= j <= i /\ len c = len a /\
              rearranged None a s i (zupd c j (a$i)) /\ I j (zupd c j (a$i))).
    - intros [c j] (Hj & Hl & RA & HI). cbn [fst snd] in *.
      destruct (Z.leb_spec (s + gap) j) as [Hge|Hlt].
      + apply wp_bind, (wp_aget _ None); [lia|].
        assert (Eb : (zupd c j (a$i))$(j - gap) = c$(j - gap)) by (apply zn_zupd_ne; lia).
        destruct (cmp (c$(j - gap)) (a$i)) eqn:E; simpl.
        * rewrite aset_ok by lia. simpl. split; [exact RA|]. exists j. rewrite Eb. repeat split; auto; try lia.
          apply zn_zupd_eq; lia.
        * apply wp_bind, wp_aset; [lia|]. cbn [fst snd wp]. rewrite len_zupd.
          assert (Eq : zupd (zupd c j (c$(j - gap))) (j - gap) (a$i) = swapz None (zupd c j (a$i)) j (j - gap)).
          { unfold swapz. rewrite Eb, zn_zupd_eq by lia. unfold zupd. rewrite upd_upd_same. reflexivity. }
          rewrite Eq. split; [|lia]. split; [lia|]. split; [exact Hl|]. split.
          -- eapply rearr_trans; [exact RA|]. apply rearr_swap; rewrite ?len_zupd; lia.
          -- apply Istep; auto; [lia|rewrite len_zupd; exact Hl|rewrite Eb; exact E|apply zn_zupd_eq; lia].
      + simpl. rewrite aset_ok by lia. simpl. split; [exact RA|]. exists j. repeat split; auto; try lia. apply zn_zupd_eq; lia.
    - assert (Eq : zupd a i (a$i) = a) by (unfold zupd, zn; apply upd_nth_same).
      cbn [fst snd]. rewrite Eq. split; [lia|]. split; [reflexivity|]. split; [apply rearr_refl|exact I0].
    - cbn [snd]. lia.
  Qed.

  Lemma gap_insert_perm (a : arr) s e gap i : 0 <= s -> e < len a -> 1 <= gap -> s + gap <= i <= e ->
    wp (gap_insert comp a s gap i) (rearranged None a s e).
  Proof.
    intros. eapply wp_mono; [apply (gap_insert_gen a s e gap i) with (I := fun _ _ => True); auto|].
    intros b [RA _]. eapply rearr_weaken; [exact RA|lia|lia].
  Qed.

  Lemma insert_step (a : arr) s e i : 0 <= s -> e < len a -> s + 1 <= i <= e -> sorted_range leA a s (i - 1) ->
    wp (gap_insert comp a s 1 i) (fun b => rearranged None a s e b /\ sorted_range leA b s i).
  Proof.
    intros Hs He Hi HS. eapply wp_mono; [apply (gap_insert_gen a s e 1 i) with
      (I := fun j b => (forall p q, s <= p -> p <= q -> q <= i -> p <> j -> q <> j -> R (b$p) (b$q)) /\ (forall q, j < q <= i -> R (a$i) (b$q)));
      auto; try lia|].
    - split; [|intros; lia]. intros p q Hp Hpq Hq Hn1 Hn2. apply HS; lia.
    - intros j b Hj Hl (H1 & H2) E Ej. apply R_f in E. split.
      + intros p q Hp Hpq Hq Hn1 Hn2. zsw; subst; try (apply H1; lia); try apply R_refl; try lia.
      + intros q Hq. zsw; subst; try (apply H2; lia); try exact E.
    - intros b (RA & j & Hj & Ej & (H1 & H2) & H3). split; [eapply rearr_weaken; [exact RA|lia|lia]|].
      intros p q Hp Hpq Hq. fold R.
      destruct (Z.eq_dec p j) as [->|Hpj].
      + destruct (Z.eq_dec q j) as [->|]; [apply R_refl|]. rewrite Ej. apply H2; lia.
      + destruct (Z.eq_dec q j) as [->|]; [|apply H1; lia].
        rewrite Ej. assert (s + 1 <= j) by lia. specialize (H3 H). apply R_t in H3.
        eapply R_trans; [|exact H3]. apply H1; lia.
  Qed.

  Lemma insertion_pass (a : arr) s e : 0 <= s -> e < len a ->
    wp (forM (zrange (s + 1) (e + 1)) (fun i array => gap_insert comp array s 1 i) a) (sorts leA a s e).
  Proof.
    intros Hs He. apply (wp_for_range _ _ _ _ (fun i b => rearranged None a s e b /\ sorted_range leA b s (i - 1))).
    - split; [apply rearr_refl|]. intros i j; intros. replace j with i by lia. apply R_refl.
    - intros i b Hi (RA & HS). pose proof (rearr_len _ _ _ _ _ RA) as Hl.
      eapply wp_mono; [apply (insert_step b s e i); auto; lia|]. intros c [RA' HS']. split; [eapply rearr_trans; eauto|].
      replace (i + 1 - 1) with i by lia. exact HS'.
    - intros b (RA & HS). split; [exact RA|]. intros i j Hi Hij Hj. apply HS; lia.
  Qed.
  Lemma insertion_ok (a : arr) s e : 0 <= s -> e < len a -> wp (insertion_sort comp a s e) (sorts leA a s e).
  Proof. apply insertion_pass. Qed.

  Lemma shell_ok (a : arr) s e : 0 <= s -> e < len a -> wp (shell_sort comp a s e) (sorts leA a s e).
  Proof.
    intros Hs He. unfold shell_sort.
    eapply wp_while with (m := fun p => Z.to_nat (snd p))
      (I := fun p => rearranged None a s e (fst p) /\ (snd p <= 0 -> sorted_range leA (fst p) s e)).
    - intros [b gap] (RA & HS). cbn [fst snd] in *. pose proof (rearr_len _ _ _ _ _ RA) as Hl.
      destruct (Z.ltb_spec 0 gap) as [Hpos|Hz].
      + apply wp_bind. destruct (Z.eq_dec gap 1) as [->|Hne].
        * eapply wp_mono; [apply (insertion_pass b s e); lia|]. intros c [RA' HS']. simpl.
          change (1 / 2) with 0. split; [|lia]. split; [eapply rearr_trans; eauto|auto].
        * apply (wp_for_range _ _ _ _ (fun i c => rearranged None b s e c)).
          -- apply rearr_refl.
          -- intros i c Hi RA'. pose proof (rearr_len _ _ _ _ _ RA') as Hl'.
             eapply wp_mono; [apply (gap_insert_perm c s e gap i); lia|]. intros c' RA''. eapply rearr_trans; eauto.
          -- intros c RA'. simpl. assert (1 <= gap / 2) by (apply Z.div_le_lower_bound; lia).
             assert (gap / 2 < gap) by (apply Z.div_lt; lia).
             split; [|lia]. split; [eapply rearr_trans; eauto|lia].
      + simpl. split; [exact RA|]. apply HS. lia.
    - cbn [fst snd]. split; [apply rearr_refl|].
      intros Hz i j Hi Hij Hj. assert (e - s + 1 < 2). { destruct (Z_lt_le_dec (e - s + 1) 2); [assumption|]. assert (1 <= (e - s + 1)/2) by (apply Z.div_le_lower_bound; lia). lia. }
      replace j with i by lia. apply R_refl.
    - cbn [snd]. pose proof (Z.div_le_upper_bound (e - s + 1) 2 (Z.max 0 (e - s + 1))). lia.
  Qed.
End Order.
