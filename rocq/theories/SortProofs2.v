(** Proofs: cocktail_shaker_sort, quick_sort, intro_sort's partition, brick_sort. *)
From Verif Require Import Base SortModel SortSpec SortProofs.

Section Order2.
  Context {A : Type} (comp : A -> A -> bool) (leA : A -> A -> Prop) (D : decides comp leA).
  Notation cmp := (pcomp comp).
  Notation arr := (list (option A)).
  Notation "a $ i" := (zn None a i) (at level 9, format "a $ i").
  Notation R := (R leA).
  Notation R_t := (R_t comp leA D).
  Notation R_f := (R_f comp leA D).
  Notation R_trans := (R_trans comp leA D).
  Notation R_refl := (R_refl comp leA D).
  Notation sorted_adj := (sorted_adj comp leA D).

  Ltac zsw := rewrite ?zn_swapz by (rewrite ?len_swapz; lia);
     repeat match goal with |- context [Z.eqb ?x ?y] => destruct (Z.eqb_spec x y); try lia end.

  (** *** cocktail_shaker_sort *)
  Lemma eqb_false_negb b : Bool.eqb b false = negb b. Proof. destruct b; reflexivity. Qed.

  Lemma cocktail_up (c : arr) lo up : 0 <= lo -> lo < up -> up < len c ->
    wp (forM (zrange lo up) (fun j '(array, swapping) =>
            x <- aget array j ;; y <- aget array (j + 1) ;;
            if Bool.eqb (cmp x y) false then array' <- swap array (j + 1) j ;; Ret (array', false)
            else Ret (array, swapping)) (c, true))
       (fun '(b, f) => rearranged None c lo up b /\ (forall q, lo <= q <= up -> R (b$q) (b$up)) /\
          (f = true -> b = c /\ forall i, lo <= i < up -> R (c$i) (c$(i+1)))).
  Proof.
    intros Hl Hlu Hu.
    apply (wp_for_range _ _ _ _ (fun j p => rearranged None c lo up (fst p) /\ (forall q, lo <= q <= j -> R ((fst p)$q) ((fst p)$j)) /\
          (snd p = true -> fst p = c /\ forall i, lo <= i < j -> R (c$i) (c$(i+1))))).
    - cbn [fst snd]. split; [apply rearr_refl|]. split; [intros q Hq; replace q with lo by lia; apply R_refl|]. intros _. split; [reflexivity|intros; lia].
    - intros j [b f] Hj (RA & H1 & H2). cbn [fst snd] in *. pose proof (rearr_len _ _ _ _ _ RA) as Hlen.
      apply wp_bind, (wp_aget _ None); [lia|]. apply wp_bind, (wp_aget _ None); [lia|]. rewrite eqb_false_negb.
      destruct (cmp (b$j) (b$(j+1))) eqn:E; simpl.
      + apply R_t in E. split; [exact RA|]. split.
        * intros q Hq. destruct (Z.eq_dec q (j+1)) as [->|]; [apply R_refl|]. eapply R_trans; [apply H1; lia|exact E].
        * intros Hf. destruct (H2 Hf) as [-> H3]. split; [reflexivity|]. intros i Hi. destruct (Z.eq_dec i j) as [->|]; [exact E|apply H3; lia].
      + apply R_f in E. apply wp_bind, (wp_swap None); [lia|lia|]. simpl. split; [eapply rearr_trans; [exact RA|apply rearr_swap; lia]|].
        split; [|discriminate]. intros q Hq. zsw; subst; first [exact E | apply R_refl | apply H1; lia].
    - intros [b f]. rewrite Z.max_r by lia. cbn [fst snd]. auto.
  Qed.

  Lemma cocktail_down (c : arr) lo up f0 : 0 <= lo -> lo <= up -> up < len c ->
    wp (forM (zrange_down up lo) (fun j '(array, swapping) =>
            x <- aget array (j - 1) ;; y <- aget array j ;;
            if Bool.eqb (cmp x y) false then array' <- swap array j (j - 1) ;; Ret (array', false)
            else Ret (array, swapping)) (c, f0))
       (fun '(b, f) => rearranged None c lo up b /\ (forall q, lo <= q <= up -> R (b$lo) (b$q)) /\
          (f = true -> b = c /\ f0 = true)).
  Proof.
    intros Hl Hlu Hu.
    apply (wp_for_down _ _ _ _ (fun j p => rearranged None c lo up (fst p) /\ (forall q, j <= q <= up -> R ((fst p)$j) ((fst p)$q)) /\
          (snd p = true -> fst p = c /\ f0 = true))).
    - cbn [fst snd]. split; [apply rearr_refl|]. split; [intros q Hq; replace q with up by lia; apply R_refl|auto].
    - intros j [b f] Hj (RA & H1 & H2). cbn [fst snd] in *. pose proof (rearr_len _ _ _ _ _ RA) as Hlen.
      apply wp_bind, (wp_aget _ None); [lia|]. apply wp_bind, (wp_aget _ None); [lia|]. rewrite eqb_false_negb.
      destruct (cmp (b$(j-1)) (b$j)) eqn:E; simpl.
      + apply R_t in E. split; [exact RA|]. split; [|exact H2].
        intros q Hq. destruct (Z.eq_dec q (j-1)) as [->|]; [apply R_refl|]. eapply R_trans; [exact E|apply H1; lia].
      + apply R_f in E. apply wp_bind, (wp_swap None); [lia|lia|]. simpl. split; [eapply rearr_trans; [exact RA|apply rearr_swap; lia]|].
        split; [|discriminate]. intros q Hq. zsw; subst; first [exact E | apply R_refl | apply H1; lia].
    - intros [b f]. rewrite Z.min_l by lia. cbn [fst snd]. auto.
  Qed.

  Lemma cocktail_ok (a : arr) s e : 0 <= s -> e < len a -> wp (cocktail_sort comp a s e) (sorts leA a s e).
  Proof.
    intros Hs He. unfold cocktail_sort.
    eapply wp_while with (m := fun '(b, lower, upper, f) => Z.to_nat (upper - lower))
      (I := fun '(b, lower, upper, f) => rearranged None a s e b /\ s <= lower /\ upper <= e /\
         (forall p q, s <= p < lower -> p <= q <= e -> R (b$p) (b$q)) /\
         (forall p q, upper < p <= e -> s <= q <= p -> R (b$q) (b$p)) /\
         (f = true -> sorted_range leA b s e)).
    - intros [[[b lower] upper] f] (RA & H1 & H2 & HL & HR & HF). pose proof (rearr_len _ _ _ _ _ RA) as Hlen.
      destruct f; simpl.
      { split; [exact RA|apply HF; reflexivity]. }
      destruct (Z.leb_spec 1 (upper - lower)) as [Hge|Hlt].
      + apply wp_bind. eapply wp_mono; [apply (cocktail_up b lower upper); lia|].
        intros [c f1] (RA1 & Hmax & Hf1). pose proof (rearr_len _ _ _ _ _ RA1) as Hlen1.
        apply wp_bind. eapply wp_mono; [apply (cocktail_down c lower (upper - 1) f1); lia|].
        intros [c2 f2] (RA2 & Hmin & Hf2). pose proof (rearr_len _ _ _ _ _ RA2) as Hlen2. simpl.
        assert (RA12 : rearranged None b lower upper c2) by (eapply rearr_trans; [exact RA1|eapply rearr_weaken; [exact RA2|lia|lia]]).
        assert (HL' : forall p q, s <= p < lower -> p <= q <= e -> R (c2$p) (c2$q)).
        { intros p q Hp Hq. rewrite (proj2 RA12 p) by lia.
          destruct (Z_lt_le_dec q lower); [rewrite (proj2 RA12 q) by lia; apply HL; lia|].
          apply (rearr_all None (fun v => R (b$p) v) b c2 lower upper lower e); try lia; [exact RA12|]. intros; apply HL; lia. }
        assert (HR' : forall p q, upper < p <= e -> s <= q <= p -> R (c2$q) (c2$p)).
        { intros p q Hp Hq. rewrite (proj2 RA12 p) by lia.
          destruct (Z_lt_le_dec upper q); [rewrite (proj2 RA12 q) by lia; apply HR; lia|].
          apply (rearr_all None (fun v => R v (b$p)) b c2 lower upper s upper); try lia; [exact RA12|]. intros; apply HR; lia. }
        assert (Hu : forall q, lower <= q <= upper -> R (c2$q) (c2$upper)).
        { rewrite (proj2 RA2 upper) by lia.
          apply (rearr_all None (fun v => R v (c$upper)) c c2 lower (upper-1) lower upper); try lia; assumption. }
        split; [|lia]. split; [eapply rearr_trans; [exact RA|eapply rearr_weaken; [exact RA12|lia|lia]]|].
        split; [lia|]. split; [lia|].
        assert (HL2 : forall p q, s <= p < lower + 1 -> p <= q <= e -> R (c2$p) (c2$q)).
        { intros p q Hp Hq. destruct (Z.eq_dec p lower) as [->|]; [|apply HL'; lia].
          destruct (Z_le_gt_dec q (upper - 1)); [apply Hmin; lia|]. destruct (Z.eq_dec q upper) as [->|]; [apply Hu; lia|apply HR'; lia]. }
        assert (HR2 : forall p q, upper - 1 < p <= e -> s <= q <= p -> R (c2$q) (c2$p)).
        { intros p q Hp Hq. destruct (Z.eq_dec p upper) as [->|]; [|apply HR'; lia].
          destruct (Z_lt_le_dec q lower); [apply HL'; lia|apply Hu; lia]. }
        split; [exact HL2|]. split; [exact HR2|].
        intros ->. destruct (Hf2 eq_refl) as [-> ->]. destruct (Hf1 eq_refl) as [-> Hadj].
        apply sorted_adj. intros i Hi. destruct (Z_lt_le_dec i lower); [apply HL'; lia|].
        destruct (Z_lt_le_dec i upper); [apply Hadj; lia|apply HR'; lia].
      + simpl. split; [exact RA|]. intros i j Hi Hij Hj. fold (SortProofs.R leA).
        destruct (Z.eq_dec i j) as [->|]; [apply R_refl|].
        destruct (Z_lt_le_dec i lower); [apply HL; lia|]. apply HR; lia.
    - repeat split; auto; try lia; try discriminate. 
    - lia.
  Qed.

  (** *** quick_sort *)
  Lemma qs_partition_ok pick (a : arr) lo hi x : 0 <= lo -> lo <= hi -> hi < len a -> pick lo hi a = Ret x ->
    wp (qs_partition comp pick a lo hi) (fun '(b, p) => lo <= p <= hi /\ rearranged None a lo hi b /\
       (x = a$hi -> (forall i, lo <= i <= p -> R (b$i) (b$p)) /\ (forall i, p <= i <= hi -> R (b$p) (b$i)))).
  Proof.
    intros Hl Hlh Hh Hx. unfold qs_partition. rewrite Hx. cbn [bind]. apply wp_bind.
    apply (wp_for_range _ _ _ _ (fun j p => let b := fst p in let i := snd p in lo - 1 <= i < j /\ rearranged None a lo hi b /\ b$hi = a$hi /\
       (forall q, lo <= q <= i -> R (b$q) x) /\ (forall q, i < q < j -> R x (b$q)))).
    - cbn [fst snd]. split; [lia|]. split; [apply rearr_refl|]. split; [reflexivity|]. split; intros; lia.
    - intros j [b i] Hj (Hi & RA & Hhi & H1 & H2). cbn [fst snd] in *. pose proof (rearr_len _ _ _ _ _ RA) as Hlen.
      apply wp_bind, (wp_aget _ None); [lia|]. destruct (cmp (b$j) x) eqn:E.
      + apply R_t in E. apply wp_bind, (wp_swap None); [lia|lia|]. simpl. split; [lia|]. split; [eapply rearr_trans; [exact RA|apply rearr_swap; lia]|].
        split; [zsw; exact Hhi|]. split; intros q Hq; zsw; subst; first [exact E|apply H1; lia|apply H2; lia|replace (i + 1) with j by lia; exact E].
      + apply R_f in E. simpl. split; [lia|]. split; [exact RA|]. split; [exact Hhi|]. split; [exact H1|].
        intros q Hq. destruct (Z.eq_dec q j) as [->|]; [exact E|apply H2; lia].
    - rewrite Z.max_r by lia. intros [b i] (Hi & RA & Hhi & H1 & H2). cbn [fst snd] in *. pose proof (rearr_len _ _ _ _ _ RA) as Hlen.
      apply wp_bind, (wp_swap None); [lia|lia|]. simpl. split; [lia|]. split; [eapply rearr_trans; [exact RA|apply rearr_swap; lia]|].
      intros Ex. rewrite <- Hhi in Ex. 
      assert (Ep : (swapz None b (i+1) hi)$(i+1) = x) by (zsw; subst; congruence).
      rewrite Ep. split; intros q Hq; zsw; subst; try apply R_refl; try (apply H1; lia); try (apply H2; lia).
      + replace (i + 1) with hi by lia. apply R_refl.
      + destruct (Z.eq_dec (i + 1) hi) as [->|]; [apply R_refl|apply H2; lia].
  Qed.

  Definition enc (l : list (Z * Z)) : list Z := flat_map (fun p => [snd p; fst p]) l.
  Definition disj (p q : Z * Z) : Prop := snd p < fst q \/ snd q < fst p.
  Definition total_size (l : list (Z * Z)) : Z := fold_right (fun p acc => snd p - fst p + 1 + acc) 0 l.
  Definition covers (p : Z * Z) i j := fst p <= i /\ j <= snd p.

  (** the loop with an explicit list of pending ranges *)
  Lemma quick_loop pick s e (dflt : bool) (a0 : arr) : 0 <= s -> e < len a0 ->
    (forall lo hi b, s <= lo -> lo <= hi -> hi <= e -> len b = len a0 -> exists x, pick lo hi b = Ret x /\ (dflt = true -> x = b$hi)) ->
    forall fuel (a : arr) pend, len a = len a0 ->
    Forall (fun p => s <= fst p /\ fst p <= snd p /\ snd p <= e) pend -> ForallOrdPairs disj pend ->
    (dflt = true -> forall i j, s <= i -> i < j -> j <= e -> R (a$i) (a$j) \/ Exists (fun p => covers p i j) pend) ->
    (Z.to_nat (total_size pend) < fuel)%nat ->
    wp (while_loop fuel (fun '(array, stack) =>
      match stack with
      | [] => Ret (Break array)
      | high :: low :: stack =>
        ' (array, p) <- qs_partition comp pick array low high ;;
        let stack := if low <? p - 1 then p - 1 :: low :: stack else stack in
        let stack := if p + 1 <? high then high :: p + 1 :: stack else stack in
        Ret (Next (array, stack))
      | _ :: [] => Raise IndexError
      end) (a, enc pend)) (fun b => rearranged None a s e b /\ (dflt = true -> sorted_range leA b s e)).
  Proof.
    intros Hs He Hpick fuel. induction fuel as [|fuel IH]; intros a pend Hla HF HD HO Hm; [lia|].
    cbn [while_loop]. destruct pend as [|[lo hi] pend].
    { simpl. split; [apply rearr_refl|]. intros Hd i j Hi Hij Hj. fold (SortProofs.R leA).
      destruct (Z.eq_dec i j) as [->|]; [apply R_refl|]. destruct (HO Hd i j) as [H|H]; try lia; [exact H|inversion H]. }
    cbn [enc flat_map app fst snd]. fold (enc pend).
    inversion HF as [|? ? (F1 & F2 & F3) HF']; subst. inversion HD as [|? ? HD1 HD2]; subst. cbn [fst snd] in *.
    destruct (Hpick lo hi a F1 F2 F3 Hla) as (x & Ex & Hx).
    pose proof (qs_partition_ok pick a lo hi x ltac:(lia) F2 ltac:(lia) Ex) as HP.
    destruct (qs_partition comp pick a lo hi) as [[b p]| |]; simpl in HP; try contradiction.
    destruct HP as (Hp & RA & Hsort). cbn [bind]. pose proof (rearr_len _ _ _ _ _ RA) as Hlen.
    set (pend1 := if lo <? p - 1 then (lo, p - 1) :: pend else pend).
    set (pend2 := if p + 1 <? hi then (p + 1, hi) :: pend1 else pend1).
    assert (Eenc : (let stack := if lo <? p - 1 then p - 1 :: lo :: enc pend else enc pend in
                    if p + 1 <? hi then hi :: p + 1 :: stack else stack) = enc pend2).
    { unfold pend2, pend1. destruct (lo <? p - 1), (p + 1 <? hi); reflexivity. }
    cbv zeta in *. rewrite Eenc.
    assert (RAe : rearranged None a s e b) by (eapply rearr_weaken; [exact RA|lia|lia]).
    assert (Hts : total_size pend2 < total_size ((lo, hi) :: pend)).
    { unfold pend2, pend1. destruct (Z.ltb_spec lo (p - 1)), (Z.ltb_spec (p + 1) hi); simpl; lia. }
    assert (HF2 : Forall (fun q => s <= fst q /\ fst q <= snd q /\ snd q <= e) pend2).
    { unfold pend2, pend1. destruct (Z.ltb_spec lo (p - 1)), (Z.ltb_spec (p + 1) hi); repeat constructor; simpl; auto; lia. }
    assert (Hpos : 0 <= total_size pend2).
    { clear -HF2. induction HF2 as [|q l Hq _ IHl]; simpl; lia. }
    assert (Hsub : forall q, disj (lo, hi) q -> (disj (lo, p - 1) q) /\ disj (p + 1, hi) q).
    { intros q [H|H]; unfold disj; cbn [fst snd] in *; lia. }
    assert (HD2' : ForallOrdPairs disj pend2).
    { assert (Hs1 : Forall (disj (lo, p - 1)) pend) by (eapply Forall_impl; [|exact HD1]; intros; apply Hsub; assumption).
      assert (Hs2 : Forall (disj (p + 1, hi)) pend) by (eapply Forall_impl; [|exact HD1]; intros; apply Hsub; assumption).
      unfold pend2, pend1. destruct (Z.ltb_spec lo (p - 1)), (Z.ltb_spec (p + 1) hi);
        repeat match goal with |- ForallOrdPairs _ (_ :: _) => constructor | |- Forall _ (_ :: _) => constructor end; auto; unfold disj; simpl; lia. }
    eapply wp_mono; [apply (IH b pend2)|].
    - lia.
    - exact HF2.
    - exact HD2'.
    - intros Hd. destruct (Hsort (Hx Hd)) as [S1 S2]. specialize (HO Hd).
      assert (Hother : forall i j q, s <= i -> i < j -> In q pend -> covers q i j -> (i < lo \/ hi < i) /\ (j < lo \/ hi < j)).
      { intros i j q Hi Hij Hin (C1 & C2). rewrite Forall_forall in HD1. specialize (HD1 q Hin). unfold disj in HD1. cbn [fst snd] in *.
        lia. }
      assert (Hcross1 : forall i j, lo <= i <= hi -> hi < j <= e -> R (a$i) (a$j)).
      { intros i j Hi Hj. destruct (HO i j ltac:(lia) ltac:(lia) ltac:(lia)) as [H|H]; [exact H|].
        inversion H as [? ? Hc|? ? Hex]; subst; [destruct Hc; simpl in *; lia|]. apply Exists_exists in Hex. destruct Hex as (q & Hin & Hc).
        destruct (Hother i j q ltac:(lia) ltac:(lia) Hin Hc). lia. }
      assert (Hcross2 : forall i j, s <= i < lo -> lo <= j <= hi -> R (a$i) (a$j)).
      { intros i j Hi Hj. destruct (HO i j ltac:(lia) ltac:(lia) ltac:(lia)) as [H|H]; [exact H|].
        inversion H as [? ? Hc|? ? Hex]; subst; [destruct Hc; simpl in *; lia|]. apply Exists_exists in Hex. destruct Hex as (q & Hin & Hc).
        destruct (Hother i j q ltac:(lia) ltac:(lia) Hin Hc). lia. }
      assert (Hin12 : forall q, In q pend -> In q pend2).
      { intros q Hq. unfold pend2, pend1. destruct (Z.ltb_spec lo (p - 1)), (Z.ltb_spec (p + 1) hi); simpl; auto. }
      intros i j Hi Hij Hj.
      destruct (Z_lt_le_dec j lo) as [Hjl|Hjl].
      { rewrite (proj2 RA i), (proj2 RA j) by lia. destruct (HO i j) as [H|H]; try lia; [left; exact H|right].
        inversion H as [? ? Hc|? ? Hex]; subst; [destruct Hc; simpl in *; lia|]. apply Exists_exists in Hex. destruct Hex as (q & Hq & Hc).
        apply Exists_exists. eauto. }
      destruct (Z_lt_le_dec hi i) as [Hih|Hih].
      { rewrite (proj2 RA i), (proj2 RA j) by lia. destruct (HO i j) as [H|H]; try lia; [left; exact H|right].
        inversion H as [? ? Hc|? ? Hex]; subst; [destruct Hc; simpl in *; lia|]. apply Exists_exists in Hex. destruct Hex as (q & Hq & Hc).
        apply Exists_exists. eauto. }
      destruct (Z_lt_le_dec i lo) as [Hil|Hil].
      { destruct (Z_lt_le_dec hi j) as [Hjh|Hjh].
        - rewrite (proj2 RA i), (proj2 RA j) by lia. destruct (HO i j) as [H|H]; try lia; [left; exact H|].
          inversion H as [? ? Hc|? ? Hex]; subst; [destruct Hc; simpl in *; lia|]. right. apply Exists_exists in Hex. destruct Hex as (q & Hq & Hc).
          apply Exists_exists. eauto.
        - left. rewrite (proj2 RA i) by lia. apply (rearr_all None (fun v => R (a$i) v) a b lo hi lo hi); try lia; [exact RA|]. intros; apply Hcross2; lia. }
      destruct (Z_lt_le_dec hi j) as [Hjh|Hjh].
      { left. rewrite (proj2 RA j) by lia. apply (rearr_all None (fun v => R v (a$j)) a b lo hi lo hi); try lia; [exact RA|]. intros; apply Hcross1; lia. }
      (* both inside *)
      destruct (Z_le_gt_dec i p) as [Hip|Hip].
      + destruct (Z_le_gt_dec p j) as [Hpj|Hpj].
        * left. eapply R_trans; [apply S1; lia|apply S2; lia].
        * right. apply Exists_exists. exists (lo, p - 1). split; [|split; simpl; lia].
          unfold pend2, pend1. destruct (Z.ltb_spec lo (p - 1)); [|lia]. destruct (Z.ltb_spec (p + 1) hi); simpl; auto.
      + right. apply Exists_exists. exists (p + 1, hi). split; [|split; simpl; lia].
        unfold pend2. destruct (Z.ltb_spec (p + 1) hi); [|lia]. simpl; auto.
    - lia.
    - intros c [RAc Hc]. split; [eapply rearr_trans; eauto|exact Hc].
  Qed.

  Lemma quick_gen pick (a : arr) s e (dflt : bool) : 0 <= s -> s <= e -> e < len a ->
    (forall lo hi b, s <= lo -> lo <= hi -> hi <= e -> len b = len a -> exists x, pick lo hi b = Ret x /\ (dflt = true -> x = b$hi)) ->
    wp (quick_sort comp pick a s e) (fun b => rearranged None a s e b /\ (dflt = true -> sorted_range leA b s e)).
  Proof.
    intros Hs Hse He Hp. unfold quick_sort. apply (quick_loop pick s e dflt a Hs He Hp _ a [(s, e)]).
    - reflexivity.
    - repeat constructor; simpl; lia.
    - repeat constructor.
    - intros _ i j Hi Hij Hj. right. constructor. split; simpl; lia.
    - simpl. lia.
  Qed.
  Lemma quick_ok (a : arr) s e : 0 <= s -> s <= e -> e < len a -> wp (quick_sort comp default_pivot a s e) (sorts leA a s e).
  Proof.
    intros Hs Hse He. eapply wp_mono; [apply (quick_gen default_pivot a s e true); auto|].
    - intros lo hi b H1 H2 H3 H4. exists (b$hi). split; [|auto]. unfold default_pivot. apply aget_ok. lia.
    - intros b [RA H]. split; auto.
  Qed.

  (** *** intro_sort's partition *)
  Lemma scan_left (b : arr) pv lo l r : 0 <= lo -> lo < l -> r < len b -> (forall q, lo < q < l -> R (b$q) pv) ->
    wp (while_loop (S (Z.to_nat (r - l + 1))) (fun lft =>
                  if lft <=? r then
                    x <- aget b lft ;; Ret (if cmp x pv then Next (lft + 1) else Break lft)
                  else Ret (Break lft)) l)
       (fun l' => l <= l' <= Z.max l (r + 1) /\ (forall q, lo < q < l' -> R (b$q) pv) /\ (l' <= r -> R pv (b$l'))).
  Proof.
    intros H0 H1 H3 HL.
    eapply wp_while with (m := fun l' => Z.to_nat (r - l' + 1)) (I := fun l' => l <= l' <= Z.max l (r + 1) /\ forall q, lo < q < l' -> R (b$q) pv); [|split; auto; lia|lia].
    intros l' (G1 & G3). destruct (Z.leb_spec l' r) as [Hle|Hgt]; [|simpl; split; [lia|]; split; [exact G3|lia]].
    apply wp_bind, (wp_aget _ None); [lia|]. simpl. destruct (cmp (b$l') pv) eqn:E.
    - apply R_t in E. split; [|lia]. split; [lia|]. intros q Hq. destruct (Z.eq_dec q l') as [->|]; [exact E|apply G3; lia].
    - apply R_f in E. split; [lia|]. split; [exact G3|auto].
  Qed.
  Lemma scan_right (b : arr) pv hi l r : 0 < l -> 0 <= r -> r <= hi -> hi < len b -> (forall q, r < q <= hi -> R pv (b$q)) ->
    wp (while_loop (S (Z.to_nat (r - l + 1))) (fun rgt =>
                  x <- aget b rgt ;;
                  Ret (if cmp pv x && (l <=? rgt) then Next (rgt - 1) else Break rgt)) r)
       (fun r' => Z.min r (l - 1) <= r' <= r /\ (forall q, r' < q <= hi -> R pv (b$q)) /\ (l <= r' -> R (b$r') pv)).
  Proof.
    intros H0 H2 H3 H4 HR.
    eapply wp_while with (m := fun r' => Z.to_nat (r' - l + 1)) (I := fun r' => Z.min r (l - 1) <= r' <= r /\ forall q, r' < q <= hi -> R pv (b$q)); [|split; auto; lia|lia].
    intros r' (G1 & G3). apply wp_bind, (wp_aget _ None); [lia|]. simpl. destruct (cmp pv (b$r')) eqn:E; simpl.
    - apply R_t in E. destruct (Z.leb_spec l r').
      + split; [|lia]. split; [lia|]. intros q Hq. destruct (Z.eq_dec q r') as [->|]; [exact E|apply G3; lia].
      + split; [lia|]. split; [exact G3|lia].
    - apply R_f in E. split; [lia|]. split; [exact G3|auto].
  Qed.

  Lemma is_partition_ok (a : arr) lo hi : 0 <= lo -> lo <= hi -> hi < len a ->
    wp (is_partition comp a lo hi) (fun '(b, p) => lo <= p <= hi /\ rearranged None a lo hi b /\
       (forall i, lo <= i <= p -> R (b$i) (b$p)) /\ (forall i, p <= i <= hi -> R (b$p) (b$i))).
  Proof.
    intros Hl Hlh Hh. unfold is_partition. apply wp_bind, (wp_aget _ None); [lia|]. apply wp_bind.
    set (pv := a$lo).
    eapply wp_while with (m := fun '(b, l, r) => Z.to_nat (r - l + 1))
      (I := fun '(b, l, r) => lo < l /\ l <= r + 2 /\ lo <= r <= hi /\ rearranged None a (lo + 1) hi b /\
         (forall q, lo < q < l -> R (b$q) pv) /\ (forall q, r < q <= hi -> R pv (b$q))).
    - intros [[b l] r] (H1 & H2 & H3 & RA & HL & HR). pose proof (rearr_len _ _ _ _ _ RA) as Hlen.
      apply wp_bind. eapply wp_mono; [apply (scan_left b pv lo l r); auto; lia|]. intros l' (G1 & GL & G3).
      apply wp_bind. eapply wp_mono; [apply (scan_right b pv hi l' r); auto; lia|]. intros r' (K1 & KR & K3).
      destruct (Z.ltb_spec r' l').
      + simpl. apply wp_bind. apply (wp_swap None); [lia|lia|]. simpl. split; [lia|].
        assert (Eb : b$lo = pv) by (rewrite (proj2 RA) by lia; reflexivity).
        split; [eapply rearr_trans; [eapply rearr_weaken; [exact RA|lia|lia]|apply rearr_swap; lia]|].
        assert (Ep : (swapz None b lo r')$r' = pv) by (zsw; congruence). rewrite Ep.
        split; intros i Hi; zsw; subst; rewrite ?Eb; try apply R_refl; try (apply GL; lia); try (apply KR; lia).
      + apply wp_bind, (wp_swap None); [lia|lia|]. simpl. split; [|lia]. split; [lia|]. split; [lia|]. split; [lia|].
        split; [eapply rearr_trans; [exact RA|apply rearr_swap; lia]|].
        split; intros q Hq; zsw; subst; first [apply GL; lia|apply KR; lia|apply K3; lia|apply G3; lia|replace l' with r' by lia; apply K3; lia|replace r' with l' by lia; apply G3; lia].
    - split; [lia|]. split; [lia|]. split; [lia|]. split; [apply rearr_refl|]. split; intros; lia.
    - lia.
  Qed.
End Order2.
