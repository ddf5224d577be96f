(** KMP and Boyer-Moore. *)
From Verif Require Import Base StringModel StringSpec.

Lemma iget_ok a i v : 0 <= i < len a -> zn None a i = Some v -> iget a i = Ret v.
Proof. intros H E. unfold iget. rewrite (aget_ok _ None) by exact H. cbn [bind]. rewrite E. reflexivity. Qed.
Lemma len_repeat' {V} (x : V) n : len (repeat x n) = Z.of_nat n.
Proof. unfold len. rewrite repeat_length. reflexivity. Qed.
Lemma SS_snoc ps b : StronglySorted Z.lt ps -> (forall i, In i ps -> i < b) -> StronglySorted Z.lt (ps ++ [b]).
Proof.
  induction ps as [|x ps IH]; intros H F; [constructor; constructor|]. inversion H as [|? ? H1 H2]; subst. cbn [app]. constructor.
  - apply IH; [exact H1|]. intros i Hi. apply F. right. exact Hi.
  - apply Forall_app. split; [exact H2|]. constructor; [apply F; left; reflexivity|constructor].
Qed.

Section S.
  Context {A : Type} (eqb : A -> A -> bool) (DE : decides_eq eqb) (d : A).
  Lemma eqb_spec x y : reflect (x = y) (eqb x y).
  Proof. pose proof (DE x y) as H. destruct (eqb x y); constructor; intuition congruence. Qed.

  (** q[0..k) matches t at i *)
  Definition mat (t q : list A) (i k : Z) : Prop := forall x, 0 <= x < k -> zn d t (i + x) = zn d q x.
  Definition occ (t q : list A) (i : Z) : Prop := 0 <= i /\ i + len q <= len t /\ mat t q i (len q).
  Lemma len_app' {V} (a b : list V) : len (a ++ b) = len a + len b.
  Proof. unfold len. rewrite app_length. lia. Qed.
  Lemma zn_app1 (a b : list A) i : 0 <= i < len a -> zn d (a ++ b) i = zn d a i.
  Proof. intros H. unfold zn. apply app_nth1. unfold len in H. lia. Qed.
  Lemma zn_app2 (a b : list A) i : len a <= i -> zn d (a ++ b) i = zn d b (i - len a).
  Proof. intros H. unfold zn, len in *. rewrite app_nth2 by lia. f_equal. lia. Qed.
  Lemma occ_occurs t q i : occ t q i <-> occurs_at t q i.
  Proof.
    split.
    - intros (H1 & H2 & H3). exists (firstn (Z.to_nat i) t), (skipn (Z.to_nat (i + len q)) t).
      assert (E : firstn (Z.to_nat (len q)) (skipn (Z.to_nat i) t) = q).
      { apply (nth_ext _ _ d d).
        - rewrite firstn_length, skipn_length. unfold len in *. lia.
        - intros n Hn. rewrite firstn_length, skipn_length in Hn.
          assert (Hn' : 0 <= Z.of_nat n < len q) by (unfold len in *; lia). specialize (H3 _ Hn'). unfold zn in H3.
          rewrite Nat2Z.id in H3. rewrite <- H3. rewrite <- (firstn_skipn (Z.to_nat i) t) at 2.
          assert (L : length (firstn (Z.to_nat i) t) = Z.to_nat i) by (rewrite firstn_length; unfold len in *; lia).
          rewrite app_nth2 by lia. rewrite L. replace (Z.to_nat (i + Z.of_nat n) - Z.to_nat i)%nat with n by lia.
          rewrite <- (firstn_skipn (Z.to_nat (len q)) (skipn (Z.to_nat i) t)) at 2. rewrite app_nth1; [reflexivity|].
          rewrite firstn_length, skipn_length. lia. }
      split; [|unfold len; rewrite firstn_length; unfold len in *; lia].
      rewrite <- (firstn_skipn (Z.to_nat i) t) at 1. f_equal. rewrite <- (firstn_skipn (Z.to_nat (len q)) (skipn (Z.to_nat i) t)). rewrite E. f_equal.
      replace (Z.to_nat (i + len q)) with (Z.to_nat (len q) + Z.to_nat i)%nat by (unfold len; lia).
      generalize (Z.to_nat (len q)) as b. generalize (Z.to_nat i) as a. clear. intros a b. revert t. induction a as [|a IH]; intros t.
      + rewrite Nat.add_0_r. reflexivity.
      + destruct t as [|x t]; [rewrite !skipn_nil; reflexivity|]. rewrite Nat.add_succ_r. cbn [skipn]. apply IH.
    - intros (pre & post & -> & <-). repeat split.
      + apply len_nonneg.
      + rewrite !len_app'. pose proof (len_nonneg _ post). lia.
      + intros x Hx. rewrite zn_app2 by lia. rewrite zn_app1 by lia. f_equal. lia.
  Qed.
  Lemma len0 (t : list A) : len t = 0 <-> t = [].
  Proof. split; [destruct t; [reflexivity|unfold len; cbn [length]; lia]|intros ->; reflexivity]. Qed.
  Lemma empty_answer (t q : list A) : len t = 0 \/ len q = 0 -> all_occurrences t q [].
  Proof. intros H. split; [constructor|]. intros i. split; [intros []|]. intros (H1 & H2 & _). rewrite !len0 in H. tauto. Qed.

  (** exactly the occurrences below [b], ascending *)
  Definition upto (t q : list A) (ps : list Z) (b : Z) : Prop :=
    StronglySorted Z.lt ps /\ forall i, In i ps <-> occ t q i /\ i < b.
  Lemma upto_0 (t q : list A) : upto t q [] 0.
  Proof. split; [constructor|]. intros i. split; [intros []|]. intros [[H _] H']. lia. Qed.
  Lemma upto_skip t q ps b b' : upto t q ps b -> b <= b' -> (forall i, b <= i < b' -> ~ occ t q i) -> upto t q ps b'.
  Proof.
    intros [H1 H2] Hb HN. split; [exact H1|]. intros i. rewrite H2. split; intros [Ho Hi]; split; auto; try lia.
    destruct (Z_lt_dec i b); [assumption|]. exfalso. apply (HN i); [lia|exact Ho].
  Qed.
  Lemma upto_add t q ps b : upto t q ps b -> occ t q b -> upto t q (ps ++ [b]) (b + 1).
  Proof.
    intros [H1 H2] Ho. split; [apply SS_snoc; [exact H1|intros i Hi; apply H2 in Hi; lia]|]. intros i. rewrite in_app_iff, H2. cbn [In]. split.
    - intros [[H3 H4]|[<- | []]]; [split; [exact H3|lia]|split; [exact Ho|lia]].
    - intros [H3 H4]. destruct (Z.eq_dec i b) as [->|]; [tauto|]. left. split; [exact H3|lia].
  Qed.
  Lemma upto_all t q ps b : 0 < len t -> 0 < len q -> upto t q ps b -> len t - len q < b -> all_occurrences t q ps.
  Proof.
    intros Ht Hq [H1 H2] Hb. split; [exact H1|]. intros i. rewrite H2, occ_occurs. split.
    - intros [H _]. repeat split; [intros ->; cbn in Ht; lia|intros ->; cbn in Hq; lia|exact H].
    - intros (_ & _ & H). split; [exact H|]. apply occ_occurs in H. destruct H as (_ & H & _). lia.
  Qed.

  (** ** KMP *)
  Context (q : list A).
  Notation n := (len q).
  (** q[0..k) is a proper suffix of q[0..p) *)
  Definition bord (p k : Z) : Prop := 0 <= k < p /\ mat q q (p - k) k.
  Lemma bord_trans p k j : bord p k -> bord k j -> bord p j.
  Proof.
    intros [H1 H2] [H3 H4]. split; [lia|]. intros x Hx. specialize (H2 (k - j + x) ltac:(lia)). specialize (H4 x Hx).
    rewrite <- H4, <- H2. f_equal. lia.
  Qed.
  Lemma bord_sub p k j : bord p k -> bord p j -> j < k -> bord k j.
  Proof.
    intros [H1 H2] [H3 H4] H5. split; [lia|]. intros x Hx. specialize (H2 (k - j + x) ltac:(lia)). specialize (H4 x Hx).
    rewrite <- H4, <- H2. f_equal. lia.
  Qed.
  Lemma bord_S p k : 0 <= k -> (bord (p + 1) (k + 1) <-> bord p k /\ zn d q p = zn d q k).
  Proof.
    intros Hk. split.
    - intros [H1 H2]. split; [split; [lia|]|].
      + intros x Hx. rewrite <- (H2 x) by lia. f_equal. lia.
      + rewrite <- (H2 k) by lia. f_equal. lia.
    - intros [[H1 H2] H3]. split; [lia|]. intros x Hx. destruct (Z.eq_dec x k) as [->|]; [rewrite <- H3; f_equal; lia|].
      rewrite <- (H2 x) by lia. f_equal. lia.
  Qed.
  (** [k] is the longest border of q[0..p) *)
  Definition longest (p k : Z) : Prop := bord p k /\ forall j, bord p j -> j <= k.
  (** the entry the table holds at p < n *)
  Definition entry (p v : Z) : Prop :=
    (v = -1 \/ bord p v /\ zn d q v <> zn d q p) /\ forall j, bord p j -> v < j -> zn d q j = zn d q p.
  Lemma entry_lt p v : 0 <= p -> entry p v -> -1 <= v < p.
  Proof. intros Hp [[-> | [[H _] _]] _]; lia. Qed.

  Lemma fall_ok tab pos cnd : 1 <= pos < n -> len tab = n + 1 ->
    (forall p, 0 <= p < pos -> exists v, zn None tab p = Some v /\ entry p v) ->
    bord pos cnd -> (forall j, bord pos j -> cnd < j -> zn d q j <> zn d q pos) ->
    wp (kmp_fall eqb q tab pos cnd) (fun c => -1 <= c < pos /\ (c = -1 \/ bord pos c /\ zn d q c = zn d q pos) /\
                                           forall j, bord pos j -> c < j -> zn d q j <> zn d q pos).
  Proof.
    intros Hp Hl HT HB HM. unfold kmp_fall.
    apply (wp_while _ _ (fun c => -1 <= c < pos /\ (c = -1 \/ bord pos c) /\ forall j, bord pos j -> c < j -> zn d q j <> zn d q pos) (fun c => Z.to_nat (c + 1))).
    - intros c (H1 & H2 & H3). destruct (Z.leb_spec 0 c) as [Hc|Hc].
      + destruct H2 as [-> | H2]; [lia|]. rewrite (lget_ok _ d) by lia. cbn [bind]. rewrite (lget_ok _ d) by lia. cbn [bind].
        destruct (eqb_spec (zn d q pos) (zn d q c)) as [E|E]; cbn [negb].
        * cbn. repeat split; auto; lia.
        * destruct (HT c ltac:(lia)) as (v & Ev & He). rewrite (iget_ok _ _ v) by (auto; lia). cbn [bind wp].
          pose proof (entry_lt c v ltac:(lia) He). destruct He as [He1 He2]. repeat split; try lia.
          -- destruct He1 as [-> | [He1 _]]; [tauto|]. right. eapply bord_trans; eauto.
          -- intros j Hj Hv. destruct (Z_lt_dec c j); [apply H3; auto|]. destruct (Z.eq_dec j c) as [->|]; [congruence|].
             rewrite (He2 j); [congruence| |lia]. apply (bord_sub pos); auto. lia.
      + cbn. split; [lia|]. split; [left; lia|exact H3].
    - split; [destruct HB; lia|]. split; [right; exact HB|exact HM].
    - destruct HB as [HB1 HB2]. unfold len in *. lia.
  Qed.

  Definition table_ok (tab : list (option Z)) : Prop :=
    len tab = n + 1 /\ (forall p, 0 <= p < n -> exists v, zn None tab p = Some v /\ entry p v) /\
    exists v, zn None tab n = Some v /\ longest n v.

  Lemma build_ok : 0 < n -> wp (build_kmp_table eqb q) table_ok.
  Proof.
    intros Hn. unfold build_kmp_table.
    assert (L0 : len (repeat (@None Z) (S (length q))) = n + 1) by (rewrite len_repeat'; unfold len; lia).
    rewrite aset_ok by lia. cbn [bind]. apply wp_bind.
    apply (wp_while _ _ (fun '(tab, pos, cnd) => 1 <= pos <= n /\ len tab = n + 1 /\ (forall p, 0 <= p < pos -> exists v, zn None tab p = Some v /\ entry p v) /\ longest pos cnd)
      (fun '(tab, pos, cnd) => Z.to_nat (n - pos))).
    - intros [[tab pos] cnd] (H1 & H2 & H3 & [H4 H5]). destruct (Z.ltb_spec pos n) as [Hp|Hp].
      + assert (Hc : 0 <= cnd < pos) by (destruct H4; assumption).
        rewrite (lget_ok _ d) by lia. cbn [bind]. rewrite (lget_ok _ d) by lia. cbn [bind]. destruct (eqb_spec (zn d q pos) (zn d q cnd)) as [E|E].
        * destruct (H3 cnd ltac:(lia)) as (v & Ev & He). rewrite (iget_ok _ _ v) by (auto; lia). cbn [bind]. rewrite aset_ok by lia. cbn [bind wp].
          split; [|lia]. rewrite len_zupd. split; [lia|]. split; [lia|]. split; [|split].
          -- intros p Hp'. destruct (Z.eq_dec p pos) as [->|].
             ++ exists v. split; [apply zn_zupd_eq; lia|]. destruct He as [He1 He2]. split.
                ** destruct He1 as [-> | [He1 He3]]; [tauto|]. right. split; [eapply bord_trans; eauto|congruence].
                ** intros j Hj Hv. destruct (Z.eq_dec j cnd) as [->|]; [congruence|]. rewrite (He2 j); [congruence| |exact Hv]. apply (bord_sub pos); auto. specialize (H5 j Hj). lia.
             ++ destruct (H3 p ltac:(lia)) as (w & Ew & Hw). exists w. split; [rewrite zn_zupd_ne by lia; exact Ew|exact Hw].
          -- apply bord_S; [lia|]. split; [exact H4|congruence].
          -- intros j Hj. destruct (Z_le_dec j 0); [lia|]. replace j with (j - 1 + 1) in Hj by lia. apply bord_S in Hj; [|lia]. destruct Hj as [Hj _]. specialize (H5 _ Hj). lia.
        * rewrite aset_ok by lia. cbn [bind]. apply wp_bind. apply wp_bind.
          assert (He : entry pos cnd). { split; [right; split; [exact H4|congruence]|]. intros j Hj Hc'. specialize (H5 j Hj). lia. }
          eapply wp_mono; [apply (fall_ok (zupd tab pos (Some cnd)) pos cnd); auto|].
          -- lia.
          -- rewrite len_zupd. exact H2.
          -- intros p Hp'. destruct (H3 p ltac:(lia)) as (w & Ew & Hw). exists w. split; [rewrite zn_zupd_ne by lia; exact Ew|exact Hw].
          -- intros j Hj Hc'. specialize (H5 j Hj). lia.
          -- intros c (C1 & C2 & C3). cbn [wp bind]. split; [|lia]. rewrite len_zupd. split; [lia|]. split; [lia|]. split; [|split].
             ++ intros p Hp'. destruct (Z.eq_dec p pos) as [->|]; [exists cnd; split; [apply zn_zupd_eq; lia|exact He]|].
                destruct (H3 p ltac:(lia)) as (w & Ew & Hw). exists w. split; [rewrite zn_zupd_ne by lia; exact Ew|exact Hw].
             ++ destruct C2 as [-> | [C2 C4]]; [split; [lia|intros x Hx; lia]|]. apply bord_S; [destruct C2; lia|]. split; [exact C2|congruence].
             ++ intros j Hj. destruct (Z_le_dec j 0); [lia|]. replace j with (j - 1 + 1) in Hj by lia. apply bord_S in Hj; [|lia]. destruct Hj as [Hj Ej].
                destruct (Z_lt_dec c (j - 1)); [|lia]. exfalso. apply (C3 _ Hj); [assumption|congruence].
      + cbn [wp]. assert (pos = n) by lia. subst pos. rewrite aset_ok by lia. cbn [wp]. split; [rewrite len_zupd; exact H2|]. split.
        * intros p Hp'. destruct (H3 p ltac:(lia)) as (w & Ew & Hw). exists w. split; [rewrite zn_zupd_ne by lia; exact Ew|exact Hw].
        * exists cnd. split; [apply zn_zupd_eq; lia|split; auto].
    - split; [lia|]. rewrite len_zupd. split; [lia|]. split.
      + intros p Hp. assert (p = 0) by lia. subst p. exists (-1). split; [apply zn_zupd_eq; lia|]. split; [tauto|]. intros j [Hj _]. lia.
      + split; [split; [lia|intros x Hx; lia]|]. intros j [Hj _]. lia.
    - unfold len in *. lia.
  Qed.

  Lemma match_ok t tab : 0 < n -> 0 < len t -> table_ok tab -> wp (do_match eqb t q tab) (fun ps => all_occurrences t q ps).
  Proof.
    intros Hn Ht (T1 & T2 & (vn & T3 & T4 & T5)). unfold do_match.
    apply (wp_while _ _ (fun '(j, k, ps) => 0 <= k < n /\ k <= j <= len t /\ mat t q (j - k) k /\ upto t q ps (j - k)) (fun '(j, k, ps) => Z.to_nat (2 * len t - (2 * j - k)))).
    - intros [[j k] ps] (H1 & H2 & H3 & H4). destruct (Z.ltb_spec j (len t)) as [Hj|Hj].
      + rewrite (lget_ok _ d) by lia. cbn [bind]. rewrite (lget_ok _ d) by lia. cbn [bind].
        assert (PM : forall i x, j - k <= i -> 0 <= x -> i + x < j -> zn d t (i + x) = zn d q (i + x - (j - k))).
        { intros i x Hi Hx Hix. rewrite <- H3 by lia. f_equal. lia. }
        (* an occurrence starting at j - k' with k' < k gives a border of q[0..k) *)
        assert (BR : forall k', 0 <= k' < k -> occ t q (j - k') -> bord k k').
        { intros k' Hk' (_ & _ & Ho). split; [lia|]. intros x Hx. rewrite <- (Ho x) by lia. rewrite PM by lia. f_equal. lia. }
        destruct (eqb_spec (zn d q k) (zn d t j)) as [E|E].
        * assert (M : mat t q (j + 1 - (k + 1)) (k + 1)).
          { intros x Hx. replace (j + 1 - (k + 1) + x) with (j - k + x) by lia. destruct (Z.eq_dec x k) as [->|]; [rewrite E; f_equal; lia|apply H3; lia]. }
          destruct (Z.eqb_spec (k + 1) n) as [Ek|Ek].
          -- rewrite Ek. rewrite (iget_ok _ _ vn) by (auto; lia). cbn [bind wp]. rewrite Ek in M.
             assert (O : occ t q (j + 1 - n)) by (repeat split; auto; lia).
             destruct T4 as [V1 V2]. split; [|lia]. split; [lia|]. split; [lia|]. split.
             ++ intros x Hx. rewrite <- (V2 x) by lia. replace (j + 1 - vn + x) with (j + 1 - n + (n - vn + x)) by lia. apply M. lia.
             ++ apply (upto_skip t q _ (j + 1 - n + 1)); [apply upto_add; [replace (j + 1 - n) with (j - k) by lia; exact H4|exact O]|lia|].
                intros i Hi (O1 & O2 & O3). set (k' := j + 1 - i). assert (B : bord n k').
                { split; [unfold k'; lia|]. intros x Hx. rewrite <- (O3 x) by (unfold k' in Hx; lia). rewrite <- (M (n - k' + x)) by (unfold k' in *; lia). f_equal. unfold k'. lia. }
                specialize (T5 _ B). unfold k' in T5. lia.
          -- cbn [wp]. split; [|lia]. split; [lia|]. split; [lia|]. split; [exact M|]. replace (j + 1 - (k + 1)) with (j - k) by lia. exact H4.
        * destruct (T2 k ltac:(lia)) as (v & Ev & He). rewrite (iget_ok _ _ v) by (auto; lia). cbn [bind].
          pose proof (entry_lt k v ltac:(lia) He) as Hv. destruct He as [He1 He2].
          assert (NO : forall i, j - k <= i -> i < j - v -> i <= j -> ~ occ t q i).
          { intros i Hi1 Hi2 Hi3 O. destruct (Z.eq_dec i (j - k)) as [->|].
            - destruct O as (_ & _ & O). apply E. rewrite <- O by lia. f_equal. lia.
            - assert (B : bord k (j - i)) by (apply BR; [lia|replace (j - (j - i)) with i by lia; exact O]).
              pose proof (He2 _ B ltac:(lia)) as EE. apply E. rewrite <- EE. destruct O as (_ & _ & O). rewrite <- O by lia. f_equal. lia. }
          destruct (Z.ltb_spec v 0) as [Hv0|Hv0]; cbn [wp].
          -- assert (v = -1) by lia. subst v. split; [|lia]. split; [lia|]. split; [lia|]. split; [intros x Hx; lia|].
             apply (upto_skip t q _ (j - k)); [exact H4|lia|]. intros i Hi. apply NO; lia.
          -- destruct He1 as [-> | [He1 _]]; [lia|]. split; [|lia]. split; [lia|]. split; [lia|]. split.
             ++ destruct He1 as [_ He1]. intros x Hx. rewrite <- He1 by lia. replace (j - v + x) with (j - k + (k - v + x)) by lia. apply H3. lia.
             ++ apply (upto_skip t q _ (j - k)); [exact H4|lia|]. intros i Hi. apply NO; lia.
      + cbn [wp]. apply (upto_all t q ps (j - k)); auto. lia.
    - split; [lia|]. split; [lia|]. split; [intros x Hx; lia|]. apply upto_0.
    - unfold len in *. lia.
  Qed.
End S.

Lemma kmp_ok {A} (eqb : A -> A -> bool) (DE : decides_eq eqb) t q : exists ps, find_kmp eqb t q = Ret ps /\ all_occurrences t q ps.
Proof.
  apply wp_ex. unfold find_kmp. pose proof (len_nonneg _ t). pose proof (len_nonneg _ q).
  destruct (Z.eqb_spec (len t) 0) as [E|E]; [cbn; apply empty_answer; auto|].
  destruct (Z.eqb_spec (len q) 0) as [E'|E']; [cbn; apply empty_answer; auto|]. cbn [orb].
  destruct q as [|d q']; [cbn in E'; lia|]. apply wp_bind. eapply wp_mono; [apply (build_ok eqb DE d); lia|].
  intros tab HT. apply (match_ok eqb DE d); auto; lia.
Qed.
