(** quick_sort with a pick_pivot_element that may reorder the array (it is given the array itself): model and proof. *)
From Verif Require Import Base SortModel SortSpec SortProofs SortProofs2.

Section PickModel.
  Context {A : Type} (comp : A -> A -> bool).
  Notation arr := (list (option A)).
  (** quick_sort's partition (algorithms.py 762-770) for a picker that may also change the array it is given: the array it leaves is the one partitioned *)
  Definition qs_partition_mut (pick : Z -> Z -> arr -> res (arr * option A)) (array : arr) (low high : Z) : res (arr * Z) :=
    ' (array, x) <- pick low high array ;;
    qs_partition comp (fun _ _ _ => Ret x) array low high.
  (** quick_sort (algorithms.py 772-788), otherwise as SortModel.quick_sort *)
  Definition quick_sort_mut (pick : Z -> Z -> arr -> res (arr * option A)) (array : arr) (start end_ : Z) : res arr :=
    while_loop (S (Z.to_nat (2 * (end_ - start + 1)))) (fun '(array, stack) =>
      match stack with
      | [] => Ret (Break array)
      | high :: low :: stack =>
        ' (array, p) <- qs_partition_mut pick array low high ;;
        let stack := if low <? p - 1 then p - 1 :: low :: stack else stack in
        let stack := if p + 1 <? high then high :: p + 1 :: stack else stack in
        Ret (Next (array, stack))
      | _ :: [] => Raise IndexError
      end) (array, [end_; start]).
End PickModel.

Section Pick.
  Context {A : Type} (comp : A -> A -> bool) (leA : A -> A -> Prop) (D : decides comp leA).
  Notation cmp := (pcomp comp).
  Notation arr := (list (option A)).
  Notation "a $ i" := (zn None a i) (at level 9, format "a $ i").
  Notation R := (R leA).
  Notation R_t := (R_t comp leA D).
  Notation R_f := (R_f comp leA D).
  Notation R_trans := (R_trans comp leA D).
  Notation R_refl := (R_refl comp leA D).
  Notation sorted_adj := (sorted_adj comp leA D).

  Ltac zsw := rewrite ?zn_swapz by (rewrite ?len_swapz; lia);
     repeat match goal with |- context [Z.eqb ?x ?y] => destruct (Z.eqb_spec x y); try lia end.
  Lemma qs_partition_tie pick (a : arr) lo hi x : 0 <= lo -> lo <= hi -> hi < len a -> pick lo hi a = Ret x ->
    wp (qs_partition comp pick a lo hi) (fun '(b, p) => lo <= p <= hi /\ rearranged None a lo hi b /\
       (R x (a$hi) -> R (a$hi) x -> (forall i, lo <= i <= p -> R (b$i) (b$p)) /\ (forall i, p <= i <= hi -> R (b$p) (b$i)))).
  Proof.
    intros Hl Hlh Hh Hx. unfold qs_partition. rewrite Hx. cbn [bind]. apply wp_bind.
    apply (wp_for_range _ _ _ _ (fun j p => let b := fst p in let i := snd p in lo - 1 <= i < j /\ rearranged None a lo hi b /\ b$hi = a$hi /\
       (forall q, lo <= q <= i -> R (b$q) x) /\ (forall q, i < q < j -> R x (b$q)))).
    - cbn [fst snd]. split; [lia|]. split; [apply rearr_refl|]. split; [reflexivity|]. split; intros; lia.
    - intros j [b i] Hj (Hi & RA & Hhi & H1 & H2). cbn [fst snd] in *. pose proof (rearr_len _ _ _ _ _ RA) as Hlen.
      apply wp_bind, (wp_aget _ None); [lia|]. destruct (cmp (b$j) x) eqn:E.
      + apply R_t in E. apply wp_bind, (wp_swap None); [lia|lia|]. simpl. split; [lia|]. split; [eapply rearr_trans; [exact RA|apply rearr_swap; lia]|].
        split; [zsw; exact Hhi|]. split; intros q Hq; zsw; subst; first [exact E|apply H1; lia|apply H2; lia|replace (i + 1) with j by lia; exact E].
      + apply R_f in E. simpl. split; [lia|]. split; [exact RA|]. split; [exact Hhi|]. split; [exact H1|].
        intros q Hq. destruct (Z.eq_dec q j) as [->|]; [exact E|apply H2; lia].
    - rewrite Z.max_r by lia. intros [b i] (Hi & RA & Hhi & H1 & H2). cbn [fst snd] in *. pose proof (rearr_len _ _ _ _ _ RA) as Hlen.
      apply wp_bind, (wp_swap None); [lia|lia|]. simpl. split; [lia|]. split; [eapply rearr_trans; [exact RA|apply rearr_swap; lia]|].
      intros X1 X2. rewrite <- Hhi in X1, X2.
      assert (Ep : (swapz None b (i+1) hi)$(i+1) = b$hi) by (zsw; subst; congruence).
      rewrite Ep. split; intros q Hq; zsw; subst; try apply R_refl; try (eapply R_trans; [apply H1; lia|exact X1]); try (eapply R_trans; [exact X2|apply H2; lia]).
      + replace (i + 1) with hi by lia. apply R_refl.
      + destruct (Z.eq_dec (i + 1) hi) as [->|]; [apply R_refl|eapply R_trans; [exact X2|apply H2; lia]].
  Qed.

  (** the loop with an explicit list of pending ranges *)
  Lemma quick_mut_loop pick s e (a0 : arr) : 0 <= s -> e < len a0 ->
    (forall lo hi b, s <= lo -> lo <= hi -> hi <= e -> len b = len a0 -> exists b' x, pick lo hi b = Ret (b', x) /\ rearranged None b lo hi b' /\ R x (b'$hi) /\ R (b'$hi) x) ->
    forall fuel (a : arr) pend, len a = len a0 ->
    Forall (fun p => s <= fst p /\ fst p <= snd p /\ snd p <= e) pend -> ForallOrdPairs disj pend ->
    (forall i j, s <= i -> i < j -> j <= e -> R (a$i) (a$j) \/ Exists (fun p => covers p i j) pend) ->
    (Z.to_nat (total_size pend) < fuel)%nat ->
    wp (while_loop fuel (fun '(array, stack) =>
      match stack with
      | [] => Ret (Break array)
      | high :: low :: stack =>
        ' (array, p) <- qs_partition_mut comp pick array low high ;;
        let stack := if low <? p - 1 then p - 1 :: low :: stack else stack in
        let stack := if p + 1 <? high then high :: p + 1 :: stack else stack in
        Ret (Next (array, stack))
      | _ :: [] => Raise IndexError
      end) (a, enc pend)) (fun b => rearranged None a s e b /\ sorted_range leA b s e).
  Proof.
    intros Hs He Hpick fuel. induction fuel as [|fuel IH]; intros a pend Hla HF HD HO Hm; [lia|].
    cbn [while_loop]. destruct pend as [|[lo hi] pend].
    { simpl. split; [apply rearr_refl|]. intros i j Hi Hij Hj. fold (SortProofs.R leA).
      destruct (Z.eq_dec i j) as [->|]; [apply R_refl|]. destruct (HO i j) as [H|H]; try lia; [exact H|inversion H]. }
    cbn [enc flat_map app fst snd]. fold (enc pend).
    inversion HF as [|? ? (F1 & F2 & F3) HF']; subst. inversion HD as [|? ? HD1 HD2]; subst. cbn [fst snd] in *.
    destruct (Hpick lo hi a F1 F2 F3 Hla) as (a' & x & Ex & RA1 & Hx1 & Hx2). pose proof (rearr_len _ _ _ _ _ RA1) as Hlen1.
    pose proof (qs_partition_tie (fun _ _ _ => Ret x) a' lo hi x ltac:(lia) F2 ltac:(lia) eq_refl) as HP.
    unfold qs_partition_mut at 1. rewrite Ex. cbn [bind].
    destruct (qs_partition comp (fun _ _ _ => Ret x) a' lo hi) as [[b p]| |]; simpl in HP; try contradiction.
    destruct HP as (Hp & RA2 & Hsort). cbn [bind]. pose proof (rearr_trans _ _ _ _ _ _ RA1 RA2) as RA. pose proof (rearr_len _ _ _ _ _ RA) as Hlen.
    set (pend1 := if lo <? p - 1 then (lo, p - 1) :: pend else pend).
    set (pend2 := if p + 1 <? hi then (p + 1, hi) :: pend1 else pend1).
    assert (Eenc : (let stack := if lo <? p - 1 then p - 1 :: lo :: enc pend else enc pend in
                    if p + 1 <? hi then hi :: p + 1 :: stack else stack) = enc pend2).
    { unfold pend2, pend1. destruct (lo <? p - 1), (p + 1 <? hi); reflexivity. }
    cbv zeta in *. rewrite Eenc.
    assert (RAe : rearranged None a s e b) by (eapply rearr_weaken; [exact RA|lia|lia]).
    assert (Hts : total_size pend2 < total_size ((lo, hi) :: pend)).
    { unfold pend2, pend1. destruct (Z.ltb_spec lo (p - 1)), (Z.ltb_spec (p + 1) hi); simpl; lia. }
    assert (HF2 : Forall (fun q => s <= fst q /\ fst q <= snd q /\ snd q <= e) pend2).
    { unfold pend2, pend1. destruct (Z.ltb_spec lo (p - 1)), (Z.ltb_spec (p + 1) hi); repeat constructor; simpl; auto; lia. }
    assert (Hpos : 0 <= total_size pend2).
    { clear -HF2. induction HF2 as [|q l Hq _ IHl]; simpl; lia. }
    assert (Hsub : forall q, disj (lo, hi) q -> (disj (lo, p - 1) q) /\ disj (p + 1, hi) q).
    { intros q [H|H]; unfold disj; cbn [fst snd] in *; lia. }
    assert (HD2' : ForallOrdPairs disj pend2).
    { assert (Hs1 : Forall (disj (lo, p - 1)) pend) by (eapply Forall_impl; [|exact HD1]; intros; apply Hsub; assumption).
      assert (Hs2 : Forall (disj (p + 1, hi)) pend) by (eapply Forall_impl; [|exact HD1]; intros; apply Hsub; assumption).
      unfold pend2, pend1. destruct (Z.ltb_spec lo (p - 1)), (Z.ltb_spec (p + 1) hi);
        repeat match goal with |- ForallOrdPairs _ (_ :: _) => constructor | |- Forall _ (_ :: _) => constructor end; auto; unfold disj; simpl; lia. }
    eapply wp_mono; [apply (IH b pend2)|].
    - lia.
    - exact HF2.
    - exact HD2'.
    - destruct (Hsort Hx1 Hx2) as [S1 S2].
      assert (Hother : forall i j q, s <= i -> i < j -> In q pend -> covers q i j -> (i < lo \/ hi < i) /\ (j < lo \/ hi < j)).
      { intros i j q Hi Hij Hin (C1 & C2). rewrite Forall_forall in HD1. specialize (HD1 q Hin). unfold disj in HD1. cbn [fst snd] in *.
        lia. }
      assert (Hcross1 : forall i j, lo <= i <= hi -> hi < j <= e -> R (a$i) (a$j)).
      { intros i j Hi Hj. destruct (HO i j ltac:(lia) ltac:(lia) ltac:(lia)) as [H|H]; [exact H|].
        inversion H as [? ? Hc|? ? Hex]; subst; [destruct Hc; simpl in *; lia|]. apply Exists_exists in Hex. destruct Hex as (q & Hin & Hc).
        destruct (Hother i j q ltac:(lia) ltac:(lia) Hin Hc). lia. }
      assert (Hcross2 : forall i j, s <= i < lo -> lo <= j <= hi -> R (a$i) (a$j)).
      { intros i j Hi Hj. destruct (HO i j ltac:(lia) ltac:(lia) ltac:(lia)) as [H|H]; [exact H|].
        inversion H as [? ? Hc|? ? Hex]; subst; [destruct Hc; simpl in *; lia|]. apply Exists_exists in Hex. destruct Hex as (q & Hin & Hc).
        destruct (Hother i j q ltac:(lia) ltac:(lia) Hin Hc). lia. }
      assert (Hin12 : forall q, In q pend -> In q pend2).
      { intros q Hq. unfold pend2, pend1. destruct (Z.ltb_spec lo (p - 1)), (Z.ltb_spec (p + 1) hi); simpl; auto. }
      intros i j Hi Hij Hj.
      destruct (Z_lt_le_dec j lo) as [Hjl|Hjl].
      { rewrite (proj2 RA i), (proj2 RA j) by lia. destruct (HO i j) as [H|H]; try lia; [left; exact H|right].
        inversion H as [? ? Hc|? ? Hex]; subst; [destruct Hc; simpl in *; lia|]. apply Exists_exists in Hex. destruct Hex as (q & Hq & Hc).
        apply Exists_exists. eauto. }
      destruct (Z_lt_le_dec hi i) as [Hih|Hih].
      { rewrite (proj2 RA i), (proj2 RA j) by lia. destruct (HO i j) as [H|H]; try lia; [left; exact H|right].
        inversion H as [? ? Hc|? ? Hex]; subst; [destruct Hc; simpl in *; lia|]. apply Exists_exists in Hex. destruct Hex as (q & Hq & Hc).
        apply Exists_exists. eauto. }
      destruct (Z_lt_le_dec i lo) as [Hil|Hil].
      { destruct (Z_lt_le_dec hi j) as [Hjh|Hjh].
        - rewrite (proj2 RA i), (proj2 RA j) by lia. destruct (HO i j) as [H|H]; try lia; [left; exact H|].
          inversion H as [? ? Hc|? ? Hex]; subst; [destruct Hc; simpl in *; lia|]. right. apply Exists_exists in Hex. destruct Hex as (q & Hq & Hc).
          apply Exists_exists. eauto.
        - left. rewrite (proj2 RA i) by lia. apply (rearr_all None (fun v => R (a$i) v) a b lo hi lo hi); try lia; [exact RA|]. intros; apply Hcross2; lia. }
      destruct (Z_lt_le_dec hi j) as [Hjh|Hjh].
      { left. rewrite (proj2 RA j) by lia. apply (rearr_all None (fun v => R v (a$j)) a b lo hi lo hi); try lia; [exact RA|]. intros; apply Hcross1; lia. }
      (* both inside *)
      destruct (Z_le_gt_dec i p) as [Hip|Hip].
      + destruct (Z_le_gt_dec p j) as [Hpj|Hpj].
        * left. eapply R_trans; [apply S1; lia|apply S2; lia].
        * right. apply Exists_exists. exists (lo, p - 1). split; [|split; simpl; lia].
          unfold pend2, pend1. destruct (Z.ltb_spec lo (p - 1)); [|lia]. destruct (Z.ltb_spec (p + 1) hi); simpl; auto.
      + right. apply Exists_exists. exists (p + 1, hi). split; [|split; simpl; lia].
        unfold pend2. destruct (Z.ltb_spec (p + 1) hi); [|lia]. simpl; auto.
    - lia.
    - intros c [RAc Hc]. split; [eapply rearr_trans; eauto|exact Hc].
  Qed.

  Lemma quick_mut_ok pick (a : arr) s e : 0 <= s -> s <= e -> e < len a ->
    (forall lo hi b, s <= lo -> lo <= hi -> hi <= e -> len b = len a -> exists b' x, pick lo hi b = Ret (b', x) /\ rearranged None b lo hi b' /\ R x (b'$hi) /\ R (b'$hi) x) ->
    wp (quick_sort_mut comp pick a s e) (sorts leA a s e).
  Proof.
    intros Hs Hse He Hp. unfold quick_sort_mut. apply (quick_mut_loop pick s e a Hs He Hp _ a [(s, e)]).
    - reflexivity.
    - repeat constructor; simpl; lia.
    - repeat constructor.
    - intros i j Hi Hij Hj. right. constructor. split; simpl; lia.
    - simpl. lia.
  Qed.
End Pick.

(** a picker that leaves the array alone: the model of SortModel *)
Lemma qs_partition_pure (A : Type) (comp : A -> A -> bool) pick (a : list (option A)) lo hi :
  qs_partition_mut comp (fun lo hi b => x <- pick lo hi b ;; Ret (b, x)) a lo hi = qs_partition comp pick a lo hi.
Proof. unfold qs_partition_mut, qs_partition. destruct (pick lo hi a) as [x|er|]; reflexivity. Qed.
Lemma quick_mut_pure (A : Type) (comp : A -> A -> bool) pick (a : list (option A)) s e :
  quick_sort_mut comp (fun lo hi b => x <- pick lo hi b ;; Ret (b, x)) a s e = quick_sort comp pick a s e.
Proof.
  unfold quick_sort_mut, quick_sort. generalize (S (Z.to_nat (2 * (e - s + 1)))) as f. generalize [e; s] as st. intros st f. revert a st.
  induction f as [|f IH]; intros a st; [reflexivity|]. cbn [while_loop]. destruct st as [|hi [|lo st]]; try reflexivity.
  rewrite qs_partition_pure. destruct (qs_partition comp pick a lo hi) as [[b p]|er|]; cbn [bind]; [|reflexivity|reflexivity]. apply IH.
Qed.
