(** Proofs about the C++ quick_sort. *)
From Verif Require Import Base SortModel SortSpec SortProofs SortProofs2 SearchModel CppModel CppProofs.

Lemma while_more S R (f : S -> res (ctl S R)) r : forall n m s, (n <= m)%nat -> while_loop n f s = Ret r -> while_loop m f s = Ret r.
Proof.
  induction n as [|n IH]; intros m s Hm E; [discriminate|]. destruct m as [|m]; [lia|]. cbn [while_loop] in *.
  destruct (f s) as [[s'|r']| |]; try discriminate; [apply IH; [lia|exact E]|exact E].
Qed.

Section Q.
  Context {A : Type} (le : A -> A -> bool) (tc : option (A -> A -> pyobj)) (leA : A -> A -> Prop).
  Notation arr := (list (option A)).
  Notation "a $ i" := (zn None a i) (at level 9, format "a $ i").
  Notation eff := (eff le tc).
  Notation cmp := (pcomp eff).
  Context (D : decides eff leA).

  Lemma partition_same (a : arr) lo hi : 0 <= lo -> lo <= hi -> hi < len a -> len a < 2 ^ 63 ->
    cpp_partition le a lo hi tc = qs_partition eff default_pivot a lo hi.
  Proof.
    intros Hl Hlh Hh Hn. unfold cpp_partition, qs_partition, default_pivot.
    rewrite (cget_ok _ None a hi), (aget_ok _ None a hi) by lia. cbn [bind]. set (x := a$hi). clearbody x.
    rewrite s64_low by lia.
    set (g := fun j '(array, i) => y <- aget array j ;; if cmp y x then array' <- swap array (i + 1) j ;; Ret (array', i + 1) else Ret (array, i)).
    assert (Inv : wp (forM (zrange lo hi) g (a, lo - 1)) (fun '(b, i) => len b = len a /\ lo - 1 <= i < hi)).
    { apply (wp_for_range _ _ _ _ (fun j p => len (fst p) = len a /\ lo - 1 <= snd p < j)).
      - cbn. lia.
      - intros j [b i] Hj [Hb Hi]. cbn [fst snd] in *. unfold g. rewrite (aget_ok _ None) by lia. cbn [bind]. destruct (cmp _ x).
        + rewrite (swap_ok _ None) by lia. cbn. rewrite len_swapz. lia.
        + cbn. lia.
      - intros [b i] [Hb Hi]. cbn [fst snd] in *. lia. }
    assert (Hnw : len a < word) by (rewrite word_val; lia).
    assert (G : forall k l b i, zrange k hi = l -> lo <= k -> len b = len a -> lo - 1 <= i < k ->
       forM l (fun j '(array, i) => y <- cget array j ;; if ccomp le tc y x then array' <- cswap array (i + 1) j ;; Ret (array', i + 1) else Ret (array, i)) (b, i)
       = forM l g (b, i)).
    { intros k l. revert k. induction l as [|j l IH]; intros k b i El Hk Hb Hi; [reflexivity|].
      destruct (Z_lt_le_dec k hi) as [Hkh|]; [|rewrite zrange_nil in El by lia; discriminate].
      rewrite zrange_cons in El by lia. injection El as <- El. cbn [forM]. unfold g at 1.
      rewrite (cget_ok _ None), (aget_ok _ None) by lia. cbn [bind]. rewrite ccomp_eff. destruct (cmp _ x).
      - rewrite cswap_ok, (swap_ok _ None) by lia. cbn [bind]. apply (IH (k + 1)); [exact El|lia|rewrite len_swapz; exact Hb|lia].
      - cbn [bind]. apply (IH (k + 1)); [exact El|lia|exact Hb|lia]. }
    rewrite (G lo _ a (lo - 1) eq_refl) by lia. clear G. destruct (forM _ g _) as [[b i]| |]; try reflexivity.
    cbn [wp bind] in *. rewrite cswap_ok, (swap_ok _ None) by lia. cbn [bind]. rewrite u64_id by lia. reflexivity.
  Qed.

  (** a first cell that is [comp]-related to the pivot stays in place, and the pivot does not end up in front of it *)
  Lemma partition_first (a : arr) hi b p : 1 <= hi -> hi < len a -> cmp (a$0) (a$hi) = true ->
    qs_partition eff default_pivot a 0 hi = Ret (b, p) -> 1 <= p /\ b$0 = a$0.
  Proof.
    intros Hh Hn Hc E. 
    assert (W : wp (qs_partition eff default_pivot a 0 hi) (fun '(b, p) => 1 <= p /\ b$0 = a$0)); [|rewrite E in W; exact W].
    clear E. unfold qs_partition, default_pivot. rewrite (aget_ok _ None a hi) by lia. cbn [bind].
    rewrite zrange_cons by lia. cbn [forM]. rewrite (aget_ok _ None a 0) by lia. cbn [bind]. rewrite Hc.
    rewrite (swap_ok _ None) by lia. cbn [bind]. change (0 - 1 + 1) with 0. rewrite swapz_self. apply wp_bind.
    apply (wp_for_range _ _ _ _ (fun j p => let c := fst p in len c = len a /\ 0 <= snd p < j /\ c$0 = a$0)).
    - cbn [fst snd]. split; [reflexivity|]. split; [lia|reflexivity].
    - intros j [c i] Hj (Hb & Hi & H0). cbn [fst snd] in *. rewrite (aget_ok _ None) by lia. cbn [bind]. destruct (cmp (c$j) (a$hi)).
      + rewrite (swap_ok _ None) by lia. cbn [bind wp fst snd].
        split; [rewrite len_swapz; exact Hb|]. split; [lia|].
        unfold swapz. rewrite !zn_zupd_ne by (rewrite ?len_zupd; lia). exact H0.
      + cbn [wp fst snd]. split; [exact Hb|]. split; [lia|exact H0].
    - intros [c i] (Hb & Hi & H0). cbn [fst snd] in *. rewrite (swap_ok _ None) by lia. cbn [bind wp]. split; [lia|].
      unfold swapz. rewrite !zn_zupd_ne by (rewrite ?len_zupd; lia). exact H0.
  Qed.

  (** ranges that start at index 0 only when cell 0 is a minimum of the whole range *)
  Definition safe (a : arr) (s e : Z) : Prop := 1 <= s \/ (s = 0 /\ 1 <= e /\ forall i, 1 <= i <= e -> cmp (a$0) (a$i) = true).

  Definition qinv (a0 : arr) (s e : Z) (st : arr * list Z) : Prop :=
    let b := fst st in len b = len a0 /\ (s = 0 -> b$0 = a0$0 /\ forall i, 1 <= i <= e -> cmp (a0$0) (b$i) = true) /\
    exists pend, snd st = enc pend /\ Forall (fun p => s <= fst p /\ fst p <= snd p /\ snd p <= e /\ (fst p = 0 -> 1 <= snd p)) pend.

  Lemma quick_same (a : arr) s e fuel : 0 <= s -> s <= e -> e < len a -> len a < 2 ^ 63 -> safe a s e ->
    cpp_quick_impl le fuel a s e tc =
    while_loop fuel (fun '(array, stack) =>
      match stack with
      | [] => Ret (Break array)
      | high :: low :: stack =>
        ' (array, p) <- qs_partition eff default_pivot array low high ;;
        let stack := if low <? p - 1 then p - 1 :: low :: stack else stack in
        let stack := if p + 1 <? high then high :: p + 1 :: stack else stack in
        Ret (Next (array, stack))
      | _ :: [] => Raise IndexError
      end) (a, [e; s]).
  Proof.
    intros Hs Hse He Hn HS. unfold cpp_quick_impl. assert (Hnw : len a < word) by (rewrite word_val; lia).
    assert (Step : forall b lo hi b' p, qinv a s e (b, hi :: lo :: []) -> 
              qs_partition eff default_pivot b lo hi = Ret (b', p) -> lo <= p <= hi /\ 1 <= p /\ len b' = len a /\
              (s = 0 -> b'$0 = a$0 /\ forall i, 1 <= i <= e -> cmp (a$0) (b'$i) = true)).
    { intros b lo hi b' p (Hb & H0 & pend & Ep & HF) E. destruct pend as [|[l h] [|]]; try discriminate. cbn in Ep. injection Ep as -> ->.
      inversion HF as [|? ? (F1 & F2 & F3 & F4) _]; subst. cbn [fst snd] in *.
      pose proof (qs_partition_ok eff leA D default_pivot b l h (b$h) ltac:(lia) ltac:(lia) ltac:(cbn in Hb; lia)) as W.
      unfold default_pivot in W at 1. rewrite (aget_ok _ None) in W by (cbn in Hb; lia). specialize (W eq_refl). rewrite E in W. cbn [wp] in W.
      destruct W as (Hp & RA & _). cbn [fst] in *. pose proof (rearr_len _ _ _ _ _ RA) as Hlen.
      split; [exact Hp|].
      assert (HP1 : 1 <= p /\ (l = 0 -> b'$0 = b$0)).
      { destruct (Z.eq_dec l 0) as [->|]; [|split; [lia|intros; lia]]. assert (s = 0) by lia.
        destruct (H0 ltac:(lia)) as [H01 H02].
        destruct (partition_first b h b' p) as [P1 P2]; auto; [lia|rewrite H01; apply H02; lia]. }
      destruct HP1 as [HP1 HP2]. split; [exact HP1|]. split; [lia|].
      intros Es. destruct (H0 Es) as [H01 H02].
      assert (Eb0 : b'$0 = a$0).
      { destruct (Z.eq_dec l 0) as [El|]; [rewrite (HP2 El); exact H01|]. rewrite (proj2 RA 0) by lia. exact H01. }
      split; [exact Eb0|]. intros i Hi.
      (* b' is a rearrangement of b on max(l,1)..h *)
      destruct (Z.eq_dec l 0) as [El|Nl].
      - subst l. assert (RA1 : rearranged None b 1 h b').
        { destruct RA as [RA1 RA2]. split; [exact RA1|]. intros k Hk Hor.
          destruct (Z.eq_dec k 0) as [->|]; [apply HP2; reflexivity|apply RA2; lia]. }
        apply (rearr_all None (fun v => cmp (a$0) v = true) b b' 1 h 1 e); try lia; auto.
      - apply (rearr_all None (fun v => cmp (a$0) v = true) b b' l h 1 e); try lia; auto. }
    apply while_same with (P := qinv a s e).
    - intros [b st] HI. assert (HI' := HI). destruct HI' as (Hb & H0 & pend & Ep & HF). cbn [fst snd] in *.
      destruct pend as [|[l h] pend]; cbn in Ep; subst st; [reflexivity|].
      inversion HF as [|? ? (F1 & F2 & F3 & F4) HF']; subst. cbn [fst snd] in *. fold (enc pend).
      rewrite partition_same by lia. destruct (qs_partition _ _ b l h) as [[b' p]| |] eqn:E; try reflexivity. cbn [bind].
      destruct (Step b l h b' p) as (Hp & HP1 & _); auto.
      { split; [exact Hb|]. split; [exact H0|]. exists [(l, h)]. split; [reflexivity|]. repeat constructor; cbn; auto. }
      rewrite (u64_id (p - 1)), (u64_id (p + 1)) by lia. reflexivity.
    - intros [b st] [b2 st2] HI E. assert (HI' := HI). destruct HI' as (Hb & H0 & pend & Ep & HF). cbn [fst snd] in *.
      destruct pend as [|[l h] pend]; cbn in Ep; subst st; [discriminate|].
      inversion HF as [|? ? (F1 & F2 & F3 & F4) HF']; subst. cbn [fst snd] in *. fold (enc pend) in E.
      destruct (qs_partition _ _ b l h) as [[b' p]| |] eqn:E1; try discriminate. cbn [bind] in E. injection E as <- <-.
      destruct (Step b l h b' p) as (Hp & HP1 & Hl & H0'); auto.
      { split; [exact Hb|]. split; [exact H0|]. exists [(l, h)]. split; [reflexivity|]. repeat constructor; cbn; auto. }
      split; [exact Hl|]. split; [exact H0'|].
      exists ((if p + 1 <? h then [(p + 1, h)] else []) ++ (if l <? p - 1 then [(l, p - 1)] else []) ++ pend). split.
      + cbn [snd]. destruct (p + 1 <? h), (l <? p - 1); reflexivity.
      + destruct (Z.ltb_spec (p + 1) h), (Z.ltb_spec l (p - 1)); cbn [app]; repeat constructor; cbn [fst snd]; auto; lia.
    - split; [reflexivity|]. split.
      + intros ->. destruct HS as [|(_ & _ & HS)]; [lia|]. split; [reflexivity|exact HS].
      + exists [(s, e)]. split; [reflexivity|]. repeat constructor; cbn; try lia. intros ->. destruct HS; lia.
  Qed.

  Lemma cpp_quick_sorts (a : arr) s e fuel : 0 <= s -> s <= e -> e < len a -> len a < 2 ^ 63 -> safe a s e ->
    (2 * (Z.to_nat (e - s + 1)) < fuel)%nat -> wp (cpp_quick_impl le fuel a s e tc) (sorts leA a s e).
  Proof.
    intros Hs Hse He Hn HS Hf. rewrite quick_same by assumption.
    pose proof (quick_ok eff leA D a s e Hs Hse He) as W. apply wp_ex in W. destruct W as (b & E & Hb).
    apply wp_ex. exists b. split; [|exact Hb]. unfold quick_sort in E. revert E. apply while_more. lia.
  Qed.
  Lemma cpp_quick_python (a : arr) s e fuel : 0 <= s -> s <= e -> e < len a -> len a < 2 ^ 63 -> safe a s e ->
    (2 * (Z.to_nat (e - s + 1)) < fuel)%nat -> cpp_quick_impl le fuel a s e tc = quick_sort eff default_pivot a s e.
  Proof.
    intros Hs Hse He Hn HS Hf. rewrite quick_same by assumption.
    pose proof (quick_ok eff leA D a s e Hs Hse He) as W. apply wp_ex in W. destruct W as (b & E & Hb). rewrite E.
    unfold quick_sort in E. revert E. apply while_more. lia.
  Qed.
End Q.
