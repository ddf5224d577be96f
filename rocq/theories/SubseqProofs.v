(** Proofs about longest_common_subsequence, longest_increasing_subsequence and matrix_multiply_parallel. *)
From Verif Require Import Base SortModel SearchModel SearchSpec SearchProofs.
From Coq Require Import Sorted.

Lemma subseq_refl A (l : list A) : subseq l l.
Proof. induction l; constructor; assumption. Qed.
Lemma subseq_length A (s l : list A) : subseq s l -> (length s <= length l)%nat.
Proof. induction 1; simpl; lia. Qed.
Lemma subseq_nil_r A (s : list A) : subseq s [] -> s = [].
Proof. inversion 1; reflexivity. Qed.
Lemma subseq_snoc_take A (s l : list A) x : subseq s l -> subseq (s ++ [x]) (l ++ [x]).
Proof. induction 1; simpl; [|constructor; assumption|constructor 3; assumption].
  induction l; simpl; [constructor; constructor|constructor 3; assumption]. Qed.
Lemma subseq_snoc_skip A (s l : list A) x : subseq s l -> subseq s (l ++ [x]).
Proof. induction 1; simpl; constructor; assumption. Qed.
Lemma subseq_snoc_inv A (t l : list A) x : subseq t (l ++ [x]) ->
  subseq t l \/ exists t', t = t' ++ [x] /\ subseq t' l.
Proof.
  revert t; induction l as [|y l IH]; simpl; intros t H.
  - inversion H; subst.
    + left; constructor.
    + match goal with H : subseq _ [] |- _ => apply subseq_nil_r in H; subst end. right. exists []. split; [reflexivity|constructor].
    + match goal with H : subseq _ [] |- _ => apply subseq_nil_r in H; subst end. left; constructor.
  - inversion H; subst.
    + left; constructor.
    + match goal with K : subseq _ (l ++ [x]) |- _ => destruct (IH _ K) as [K'|(t' & -> & K')] end; [left; constructor; assumption|].
      right. exists (y :: t'). split; [reflexivity|constructor; assumption].
    + match goal with K : subseq _ (l ++ [x]) |- _ => destruct (IH _ K) as [K'|(t' & -> & K')] end; [left; constructor 3; assumption|].
      right. exists t'. split; [reflexivity|constructor 3; assumption].
Qed.

Lemma firstn_snoc V (d : V) (a : list V) i : 0 <= i < len a ->
  firstn (Z.to_nat (i + 1)) a = firstn (Z.to_nat i) a ++ [zn d a i].
Proof.
  intros H. unfold len in H. replace (Z.to_nat (i + 1)) with (S (Z.to_nat i)) by lia. unfold zn.
  remember (Z.to_nat i) as n eqn:En. assert (Hn : (n < length a)%nat) by lia. clear - Hn. revert n Hn.
  induction a as [|x a IH]; intros [|n] Hn; simpl in *; try lia; [reflexivity|]. f_equal. apply IH. lia.
Qed.
Lemma zn_app_l V (d : V) (a b : list V) i : 0 <= i < len a -> zn d (a ++ b) i = zn d a i.
Proof. unfold zn, len; intros H. apply app_nth1. lia. Qed.
Lemma zn_app_at V (d : V) (a b : list V) x : zn d (a ++ x :: b) (len a) = x.
Proof. unfold zn, len; rewrite Nat2Z.id, app_nth2, Nat.sub_diag by lia. reflexivity. Qed.
Lemma zn_repeat V (d x : V) n i : 0 <= i < Z.of_nat n -> zn d (repeat x n) i = x.
Proof. intros H; unfold zn. apply nth_repeat_lt || (rewrite nth_indep with (d' := x); [apply nth_repeat|rewrite repeat_length; lia]). Qed.
Lemma len_repeat V (x : V) n : len (repeat x n) = Z.of_nat n.
Proof. unfold len; rewrite repeat_length; reflexivity. Qed.
Lemma len_app V (a b : list V) : len (a ++ b) = len a + len b.
Proof. unfold len; rewrite app_length; lia. Qed.
Lemma wp_lget V (d : V) a i (Q : V -> Prop) : 0 <= i < len a -> Q (zn d a i) -> wp (lget a i) Q.
Proof. intros H HQ; rewrite (lget_ok V d) by exact H; exact HQ. Qed.

Section LCS.
  Context {A : Type} (d : A) (eqb : A -> A -> bool) (Heq : forall x y, eqb x y = true <-> x = y).

  Definition opt (p1 p2 : list A) (c : Z * list A) : Prop :=
    fst c = len (snd c) /\ subseq (snd c) p1 /\ subseq (snd c) p2 /\
    forall t, subseq t p1 -> subseq t p2 -> len t <= len (snd c).

  Lemma opt_nil_l p2 : opt [] p2 (0, []).
  Proof. repeat split; simpl; try constructor. intros t H _. apply subseq_nil_r in H; subst; simpl; lia. Qed.
  Lemma opt_nil_r p1 : opt p1 [] (0, []).
  Proof. repeat split; simpl; try constructor. intros t _ H. apply subseq_nil_r in H; subst; simpl; lia. Qed.
  Lemma subseq_prefix (u v p : list A) : subseq (u ++ v) p -> subseq u p.
  Proof.
    intros H. remember (u ++ v) as w eqn:E. revert u E. induction H; intros u E.
    - destruct u; [constructor|discriminate].
    - destruct u; [constructor|]. simpl in E. injection E as -> ->. constructor. apply IHsubseq. reflexivity.
    - constructor 3. apply IHsubseq. exact E.
  Qed.
  Lemma opt_take p1 p2 x c : opt p1 p2 c -> opt (p1 ++ [x]) (p2 ++ [x]) (fst c + 1, snd c ++ [x]).
  Proof.
    intros (E & S1 & S2 & M). repeat split; simpl.
    - rewrite len_app, E. reflexivity.
    - apply subseq_snoc_take, S1.
    - apply subseq_snoc_take, S2.
    - intros t T1 T2. rewrite len_app. change (len [x]) with 1.
      destruct t as [|z t' _] using rev_ind; [unfold len; simpl; lia|].
      assert (K : forall p, subseq (t' ++ [z]) (p ++ [x]) -> subseq t' p).
      { intros p H. apply subseq_snoc_inv in H. destruct H as [H|(t1 & E1 & H)]; [eapply subseq_prefix; exact H|].
        apply app_inj_tail in E1. destruct E1 as [-> _]. exact H. }
      specialize (M t' (K _ T1) (K _ T2)). rewrite len_app. change (len [z]) with 1. lia.
  Qed.

  Lemma opt_up p1 p2 x y c : x <> y -> (forall t, subseq t (p1 ++ [x]) -> subseq t p2 -> len t <= len (snd c)) ->
    opt p1 (p2 ++ [y]) c -> opt (p1 ++ [x]) (p2 ++ [y]) c.
  Proof.
    intros Hne M' (E & S1 & S2 & M). repeat split; auto; [apply subseq_snoc_skip, S1|].
    intros t T1 T2. apply subseq_snoc_inv in T1 as [T1|(t1 & -> & T1)]; [apply M; assumption|].
    apply subseq_snoc_inv in T2 as [T2|(t2 & E2 & T2)].
    - apply M'; [|exact T2]. apply subseq_snoc_take, T1.
    - apply app_inj_tail in E2. destruct E2; congruence.
  Qed.
  Lemma opt_left p1 p2 x y c : x <> y -> (forall t, subseq t p1 -> subseq t (p2 ++ [y]) -> len t <= len (snd c)) ->
    opt (p1 ++ [x]) p2 c -> opt (p1 ++ [x]) (p2 ++ [y]) c.
  Proof.
    intros Hne M' (E & S1 & S2 & M). repeat split; auto; [apply subseq_snoc_skip, S2|].
    intros t T1 T2. apply subseq_snoc_inv in T1 as [T1|(t1 & -> & T1)]; [apply M'; assumption|].
    apply subseq_snoc_inv in T2 as [T2|(t2 & E2 & T2)].
    - apply M; [|exact T2]. apply subseq_snoc_take, T1.
    - apply app_inj_tail in E2. destruct E2; congruence.
  Qed.

  Context (s1 s2 : list A).
  Notation cell M r c := (zn (0, []) (zn [] M r) c).
  Definition lcs_inv (i j : Z) (M : list (list (Z * list A))) : Prop :=
    len M = i + 1 /\ (forall r, 0 <= r <= i -> len (zn [] M r) = len s2 + 1) /\
    (forall r c, 0 <= r <= i -> 0 <= c <= len s2 -> (r < i \/ c < j) ->
       opt (firstn (Z.to_nat r) s1) (firstn (Z.to_nat c) s2) (cell M r c)).

  Lemma lcs_ok : wp (longest_common_subsequence eqb s1 s2) (fun s => subseq s s1 /\ subseq s s2 /\
    forall t, subseq t s1 -> subseq t s2 -> len t <= len s).
  Proof.
    unfold longest_common_subsequence. cbv zeta. pose proof (len_nonneg _ s1) as N1. pose proof (len_nonneg _ s2) as N2.
    apply wp_bind.
    apply (wp_for_range _ _ _ _ (fun i M => lcs_inv (i - 1) (len s2 + 1) M)).
    - assert (Z0 : forall r, r = 0 -> zn [] [repeat (0 : Z, [] : list A) (Z.to_nat (len s2 + 1))] r = repeat (0, []) (Z.to_nat (len s2 + 1))) by (intros r ->; reflexivity).
      split; [reflexivity|]. split.
      + intros r Hr. rewrite Z0, len_repeat by lia. lia.
      + intros r c Hr Hc _. rewrite Z0, zn_repeat by lia. replace r with 0 by lia. apply opt_nil_l.
    - intros i M Hi (L & LR & OK).
      eapply wp_mono.
      + apply (wp_for_range _ _ _ _ (fun j M => lcs_inv i j M)) with (Q := lcs_inv i (len s2 + 1)).
        * split; [rewrite len_app; unfold len at 2; simpl; lia|]. split.
          -- intros r Hr. destruct (Z.eq_dec r i) as [->|].
             ++ replace i with (len M) by lia. rewrite zn_app_at, len_repeat. lia.
             ++ rewrite zn_app_l by lia. apply LR; lia.
          -- intros r c Hr Hc Hcell. destruct (Z.eq_dec r i) as [->|].
             ++ assert (c = 0) by lia. subst c. replace (zn [] (M ++ [repeat (0, []) (Z.to_nat (len s2 + 1))]) i) with (repeat (0 : Z, [] : list A) (Z.to_nat (len s2 + 1)))
                  by (replace i with (len M) by lia; rewrite zn_app_at; reflexivity).
                rewrite zn_repeat by lia. simpl. apply opt_nil_r.
             ++ rewrite zn_app_l by lia. apply OK; lia.
        * intros j M' Hj (L' & LR' & OK').
          apply wp_bind. apply (wp_aget _ d); [lia|]. apply wp_bind. apply (wp_aget _ d); [lia|].
          apply wp_bind. apply (wp_lget _ []); [lia|]. apply wp_bind. apply (wp_lget _ []); [lia|].
          set (x := zn d s1 (i - 1)). set (y := zn d s2 (j - 1)).
          assert (F1 : firstn (Z.to_nat i) s1 = firstn (Z.to_nat (i - 1)) s1 ++ [x]).
          { replace i with ((i - 1) + 1) at 1 by lia. apply firstn_snoc. lia. }
          assert (F2 : firstn (Z.to_nat j) s2 = firstn (Z.to_nat (j - 1)) s2 ++ [y]).
          { replace j with ((j - 1) + 1) at 1 by lia. apply firstn_snoc. lia. }
          pose proof (LR' (i - 1) ltac:(lia)) as La. pose proof (LR' i ltac:(lia)) as Lb.
          apply wp_bind.
          apply wp_mono with (P := opt (firstn (Z.to_nat i) s1) (firstn (Z.to_nat j) s2)).
          -- destruct (eqb x y) eqn:E.
             ++ apply Heq in E. apply wp_bind. apply (wp_lget _ (0, [])); [lia|]. apply wp_ret.
                rewrite F1, F2, <- E. apply opt_take. apply OK'; lia.
             ++ assert (Hne : x <> y) by (intros Q; apply Heq in Q; congruence).
                apply wp_bind. apply (wp_lget _ (0, [])); [lia|]. apply wp_bind. apply (wp_lget _ (0, [])); [lia|]. apply wp_ret.
                pose proof (OK' (i - 1) j ltac:(lia) ltac:(lia) ltac:(lia)) as U.
                pose proof (OK' i (j - 1) ltac:(lia) ltac:(lia) ltac:(lia)) as V.
                rewrite F1, F2 in *. destruct (Z.ltb_spec (fst (cell M' i (j - 1))) (fst (cell M' (i - 1) j))) as [K|K].
                ** apply opt_up; [exact Hne| |exact U]. intros t T1 T2. destruct V as (Ev & _ & _ & Mv). destruct U as (Eu & _).
                   specialize (Mv t T1 T2). lia.
                ** apply opt_left; [exact Hne| |exact V]. intros t T1 T2. destruct U as (Eu & _ & _ & Mu). destruct V as (Ev & _).
                   specialize (Mu t T1 T2). lia.
          -- intros c Hc. apply wp_bind. apply wp_aset; [lia|]. apply wp_aset; [lia|].
             split; [rewrite len_zupd; lia|]. split.
             ++ intros r Hr. rewrite zn_zupd by lia. destruct (Z.eqb_spec i r); [rewrite len_zupd; lia|apply LR'; lia].
             ++ intros r k Hr Hk Hcell. rewrite zn_zupd by lia. destruct (Z.eqb_spec i r) as [<-|].
                ** rewrite zn_zupd by lia. destruct (Z.eqb_spec j k) as [<-|]; [exact Hc|]. apply OK'; lia.
                ** apply OK'; lia.
        * intros M' H. replace (Z.max 1 (len s2 + 1)) with (len s2 + 1) in H by lia. exact H.
      + intros M' H. replace (i + 1 - 1) with i by lia. exact H.
    - intros M H. replace (Z.max 1 (len s1 + 1) - 1) with (len s1) in H by lia. destruct H as (L & LR & OK).
      apply wp_bind. apply (wp_lget _ []); [lia|]. apply wp_bind. apply (wp_lget _ (0, [])); [rewrite LR; lia|]. apply wp_ret.
      specialize (OK (len s1) (len s2) ltac:(lia) ltac:(lia) ltac:(lia)). unfold len in OK at 1 2. rewrite !Nat2Z.id, !firstn_all in OK.
      destruct OK as (_ & P1 & P2 & P3). auto.
  Qed.
End LCS.
