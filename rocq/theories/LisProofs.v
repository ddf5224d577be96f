(** Proofs about longest_increasing_subsequence and matrix_multiply_parallel. *)
From Verif Require Import Base SortModel SearchModel SearchSpec SearchProofs SubseqProofs DistProofs DistProofs3.
From Coq Require Import Sorted.

Section LIS.
  Context (a : list Z).
  Notation "'at_' i" := (zn 0 a i) (at level 10).

  (** the values met when following [parent] from [j] *)
  Inductive chain (parent : list Z) : Z -> list Z -> Prop :=
  | ch_end : forall j, 0 <= j < len a -> zn 0 parent j = -1 -> chain parent j [at_ j]
  | ch_step : forall j vs, j < len a -> 0 <= zn 0 parent j < j -> at_ (zn 0 parent j) < at_ j ->
              chain parent (zn 0 parent j) vs -> chain parent j (at_ j :: vs).

  Lemma chain_range parent j vs : chain parent j vs -> 0 <= j < len a.
  Proof. destruct 1; lia. Qed.
  Lemma chain_len parent j vs : chain parent j vs -> len vs <= j + 1.
  Proof. induction 1; unfold len in *; simpl length in *; lia. Qed.
  Lemma chain_upd parent j vs i p : chain parent j vs -> j < i -> i < len parent -> chain (zupd parent i p) j vs.
  Proof.
    intros H; induction H; intros Hi Hp.
    - constructor; [assumption|]. rewrite zn_zupd_ne by lia. assumption.
    - assert (E : zn 0 (zupd parent i p) j = zn 0 parent j) by (apply zn_zupd_ne; lia).
      constructor; rewrite ?E; try assumption. apply IHchain; lia.
  Qed.

  Lemma subseq_firstn_mono (s : list Z) m n : (m <= n)%nat -> subseq s (firstn m a) -> subseq s (firstn n a).
  Proof.
    intros Hmn. revert s n Hmn. generalize a as l. clear. induction m as [|m IH]; intros l s n Hmn H.
    - simpl in H. apply subseq_nil_r in H. subst. constructor.
    - destruct n as [|n]; [lia|]. destruct l as [|x l]; simpl in *; [assumption|].
      inversion H; subst; [constructor|constructor; apply IH; [lia|assumption]|constructor 3; apply IH; [lia|assumption]].
  Qed.

  Lemma chain_sub parent j vs : chain parent j vs ->
    exists w, rev vs = w ++ [at_ j] /\ subseq (rev vs) (firstn (Z.to_nat (j + 1)) a) /\ StronglySorted Z.lt (rev vs) /\ (forall y, In y w -> y < at_ j).
  Proof.
    induction 1 as [j Hj E|j vs Hj Hp Hlt Hc (w & Ew & Hs & Hss & Hw)].
    - exists []. simpl. rewrite (firstn_snoc _ 0) by lia. split; [reflexivity|].
      split; [change [at_ j] with ([] ++ [at_ j]) at 1; apply subseq_snoc_take; constructor|]. split; [repeat constructor|intros y []].
    - exists (rev vs). simpl. split; [reflexivity|].
      assert (Hall : forall y, In y (rev vs) -> y < at_ j).
      { intros y Hy. rewrite Ew in Hy. apply in_app_or in Hy. destruct Hy as [Hy|[<-|[]]]; [specialize (Hw _ Hy); lia|lia]. }
      split.
      + rewrite (firstn_snoc _ 0) by (apply chain_range in Hc; lia). apply subseq_snoc_take.
        eapply subseq_firstn_mono; [|exact Hs]. lia.
      + split; [|exact Hall]. apply SS_app; [exact Hss|repeat constructor|]. intros x y Hx [<-|[]]. apply Hall, Hx.
  Qed.

  Definition lis_inv (i : Z) (st : list Z * list Z * Z) : Prop :=
    let '(dp, parent, L) := st in
    len dp = len a /\ len parent = len a /\ 0 <= L < i /\
    (forall k, 0 <= k <= L -> 0 <= zn 0 dp k < i) /\
    (forall k k', 0 <= k < k' -> k' <= L -> at_ (zn 0 dp k) < at_ (zn 0 dp k')) /\
    (forall k, 0 <= k <= L -> exists vs, chain parent (zn 0 dp k) vs /\ len vs = k + 1) /\
    (forall j, i <= j < len a -> zn 0 parent j = -1) /\
    (forall s v, StronglySorted Z.lt (s ++ [v]) -> subseq (s ++ [v]) (firstn (Z.to_nat i) a) ->
        len s <= L /\ at_ (zn 0 dp (len s)) <= v).

  Lemma SS_snoc_lt (s : list Z) v : StronglySorted Z.lt (s ++ [v]) -> StronglySorted Z.lt s /\ forall y, In y s -> y < v.
  Proof. intros H. apply SS_inv_app in H. destruct H as (H1 & _ & H2). split; [exact H1|]. intros y Hy. apply H2; [exact Hy|left; reflexivity]. Qed.

  Lemma lis_ok : 1 <= len a -> wp (longest_increasing_subsequence a) (fun r =>
     subseq r a /\ StronglySorted Z.lt r /\ forall s, subseq s a -> StronglySorted Z.lt s -> len s <= len r).
  Proof.
    intros Hn. unfold longest_increasing_subsequence. cbv zeta. apply wp_bind.
    apply (wp_for_range _ _ _ _ lis_inv).
    - (* initially *)
      unfold lis_inv. rewrite !len_repeat. repeat split; try lia.
      + rewrite zn_repeat by lia. lia.
      + rewrite zn_repeat by lia. lia.
      + intros k Hk. assert (k = 0) by lia. subst k. rewrite zn_repeat by lia. exists [at_ 0]. split; [|reflexivity].
        constructor; [lia|]. apply zn_repeat; lia.
      + intros j Hj. apply zn_repeat; lia.
      + destruct s as [|z s]; [unfold len; simpl; lia|]. change (Z.to_nat 1) with 1%nat in H0. apply subseq_length in H0.
        rewrite firstn_length in H0. rewrite app_length in H0. cbn [length] in H0. lia.
      + change (Z.to_nat 1) with 1%nat in H0. pose proof (subseq_length _ _ _ H0) as Hl. rewrite firstn_length in Hl. rewrite app_length in Hl. cbn [length] in Hl.
        destruct s as [|z s]; [|cbn [length] in Hl; lia]. simpl in H0. unfold len; simpl length. simpl Z.of_nat. rewrite zn_repeat by lia.
        destruct a as [|x l]; [unfold len in Hn; simpl in Hn; lia|]. simpl in H0. unfold zn; simpl.
        inversion H0; subst; [lia|]. match goal with K : subseq _ [] |- _ => apply subseq_nil_r in K; discriminate end.
    - (* one step *)
      intros i [[dp parent] L] Hi (Ldp & Lpar & HL & Hdp & Hinc & Hch & Hpar & Hopt).
      assert (Efn : firstn (Z.to_nat (i + 1)) a = firstn (Z.to_nat i) a ++ [at_ i]) by (apply firstn_snoc; lia).
      apply wp_bind. apply (wp_aget _ 0); [lia|]. apply wp_bind. apply (wp_aget _ 0); [lia|].
      apply wp_bind. apply (wp_aget _ 0); [pose proof (Hdp 0); lia|].
      (* the shape of an increasing subsequence that ends with the new element *)
      assert (New : forall s v, StronglySorted Z.lt (s ++ [v]) -> subseq (s ++ [v]) (firstn (Z.to_nat (i + 1)) a) ->
        subseq (s ++ [v]) (firstn (Z.to_nat i) a) \/
        (v = at_ i /\ (s = [] \/ exists s' w, s = s' ++ [w] /\ w < at_ i /\ len s' <= L /\ at_ (zn 0 dp (len s')) <= w))).
      { intros s v Hss Hs. rewrite Efn in Hs. apply subseq_snoc_inv in Hs. destruct Hs as [Hs|(t & Et & Hs)]; [left; exact Hs|right].
        apply app_inj_tail in Et. destruct Et as [<- ->]. split; [reflexivity|].
        apply SS_snoc_lt in Hss. destruct Hss as [Hss Hlt].
        destruct s as [|w s' _] using rev_ind; [left; reflexivity|right]. exists s', w. split; [reflexivity|].
        split; [apply Hlt, in_or_app; right; left; reflexivity|]. apply Hopt; assumption. }
      assert (Hmono : forall k k', 0 <= k <= k' -> k' <= L -> at_ (zn 0 dp k) <= at_ (zn 0 dp k')).
      { intros k k' H1 H2. destruct (Z.eq_dec k k') as [->|]; [lia|]. specialize (Hinc k k'). lia. }
      (* storing i at position c of dp, with [parent[i]] set to [p'] *)
      assert (Store : forall c L' parent', 0 <= c <= L' -> L' <= L + 1 -> L <= L' -> (L' = L + 1 -> c = L') ->
         (forall k, 0 <= k < c -> at_ (zn 0 dp k) < at_ i) -> (c <= L -> at_ i <= at_ (zn 0 dp c)) ->
         len parent' = len a -> (forall j vs, j < i -> chain parent j vs -> chain parent' j vs) ->
         (exists vs, chain parent' i vs /\ len vs = c + 1) ->
         (forall j, i + 1 <= j < len a -> zn 0 parent' j = -1) ->
         lis_inv (i + 1) (zupd dp c i, parent', L')).
      { intros c L' parent' Hc HL1 HL2 HL3 Hlow Hhigh Lp Hkeep Hnew Hp'. unfold lis_inv.
        assert (Zd : forall k, 0 <= k -> zn 0 (zupd dp c i) k = if c =? k then i else zn 0 dp k) by (intros; apply zn_zupd; lia).
        split; [rewrite len_zupd; exact Ldp|]. split; [exact Lp|]. split; [lia|]. split; [|split; [|split; [|split]]].
        - intros k Hk. rewrite Zd by lia. destruct (Z.eqb_spec c k); [lia|]. specialize (Hdp k). lia.
        - intros k k' Hk Hk'. rewrite !Zd by lia. destruct (Z.eqb_spec c k), (Z.eqb_spec c k'); try lia.
          + subst k. specialize (Hhigh ltac:(lia)). specialize (Hinc c k'). lia.
          + subst k'. apply Hlow; lia.
          + apply Hinc; lia.
        - intros k Hk. rewrite Zd by lia. destruct (Z.eqb_spec c k) as [<-|]; [exact Hnew|].
          destruct (Hch k ltac:(lia)) as (vs & Hv & Hl). exists vs. split; [|exact Hl]. apply Hkeep; [|exact Hv]. apply Hdp. lia.
        - exact Hp'.
        - intros s v Hss Hs. destruct (New s v Hss Hs) as [Ho|[-> [->|(s' & w & -> & Hw & Hl' & Hle)]]].
          + destruct (Hopt s v Hss Ho) as [H1 H2]. split; [lia|]. rewrite Zd by apply len_nonneg.
            destruct (Z.eqb_spec c (len s)) as [Ec|]; [|exact H2]. rewrite <- Ec in H2. specialize (Hhigh ltac:(lia)). lia.
          + change (len []) with 0. split; [lia|]. rewrite Zd by lia. destruct (Z.eqb_spec c 0); [lia|]. specialize (Hlow 0). lia.
          + pose proof (len_nonneg _ s') as Hn0. rewrite len_app. change (len [w]) with 1.
            assert (Hsc : len s' < c).
            { destruct (Z_lt_le_dec (len s') c); [assumption|]. specialize (Hhigh ltac:(lia)). specialize (Hmono c (len s') ltac:(lia) Hl'). lia. }
            split; [lia|]. rewrite Zd by lia. destruct (Z.eqb_spec c (len s' + 1)); [lia|]. specialize (Hlow (len s' + 1)). lia. }
      destruct (Z.leb_spec (at_ i) (at_ (zn 0 dp 0))) as [K|K].
      + apply wp_bind. apply wp_aset; [lia|]. apply wp_ret. apply Store; try lia.
        * auto.
        * exists [at_ i]. split; [|reflexivity]. constructor; [lia|apply Hpar; lia].
        * intros; apply Hpar; lia.
      + apply wp_bind. apply (wp_aget _ 0); [lia|]. apply wp_bind. apply (wp_aget _ 0); [specialize (Hdp L); lia|].
        assert (Chain : forall c, 1 <= c <= L + 1 -> at_ (zn 0 dp (c - 1)) < at_ i ->
          len (zupd parent i (zn 0 dp (c - 1))) = len a /\
          (forall j vs, j < i -> chain parent j vs -> chain (zupd parent i (zn 0 dp (c - 1))) j vs) /\
          (exists vs, chain (zupd parent i (zn 0 dp (c - 1))) i vs /\ len vs = c + 1) /\
          (forall j, i + 1 <= j < len a -> zn 0 (zupd parent i (zn 0 dp (c - 1))) j = -1)).
        { intros c Hc Hlt. split; [rewrite len_zupd; exact Lpar|]. split; [intros; apply chain_upd; [assumption|lia|lia]|]. split.
          - destruct (Hch (c - 1) ltac:(lia)) as (vs & Hv & Hl). exists (at_ i :: vs).
            assert (E : zn 0 (zupd parent i (zn 0 dp (c - 1))) i = zn 0 dp (c - 1)) by (apply zn_zupd_eq; lia).
            split; [|unfold len in *; simpl length; lia]. specialize (Hdp (c - 1) ltac:(lia)).
            constructor; rewrite ?E; try lia. apply chain_upd; [exact Hv|lia|lia].
          - intros j Hj. rewrite zn_zupd_ne by lia. apply Hpar; lia. }
        destruct (Z.ltb_spec (at_ (zn 0 dp L)) (at_ i)) as [K2|K2].
        * apply wp_bind. apply wp_aset; [lia|]. apply wp_bind. apply (wp_aget _ 0); [rewrite len_zupd; lia|].
          apply wp_bind. rewrite zn_zupd_ne by lia. apply wp_aset; [lia|]. apply wp_ret.
          destruct (Chain (L + 1) ltac:(lia)) as (C1 & C2 & C3 & C4); [replace (L + 1 - 1) with L by lia; lia|].
          replace (L + 1 - 1) with L in * by lia.
          apply Store; try lia; try assumption.
          intros k Hk. specialize (Hmono k L). lia.
        * apply wp_bind.
          apply wp_mono with (P := fun cur => len cur = L /\ forall k, 0 <= k < L -> zn 0 cur k = at_ (zn 0 dp k)).
          { apply (wp_for_range _ _ _ _ (fun i cur => len cur = i /\ forall k, 0 <= k < i -> zn 0 cur k = at_ (zn 0 dp k))).
            - split; [reflexivity|intros; lia].
            - intros k cur Hk (E1 & E2). apply wp_bind. apply (wp_aget _ 0); [lia|]. apply wp_bind.
              apply (wp_aget _ 0); [specialize (Hdp k); lia|]. apply wp_ret. split; [rewrite len_app; change (len [at_ (zn 0 dp k)]) with 1; lia|].
              intros k0 Hk0. destruct (Z.eq_dec k0 k) as [->|]; [subst k; apply zn_app_at|].
              rewrite zn_app_l by lia. apply E2; lia.
            - intros cur. replace (Z.max 0 L) with L by lia. auto. }
          intros cur (Lc & Hc). assert (HL1 : 1 <= L).
          { destruct (Z.eq_dec L 0) as [->|]; lia. }
          apply wp_bind. eapply wp_mono; [apply (lower_bound_ok 0 Z.ltb)|].
          -- intros x y z. rewrite !Z.ltb_ge. lia.
          -- lia.
          -- lia.
          -- lia.
          -- lia.
          -- intros k k' H1 H2 H3. rewrite !Hc by lia. apply Z.ltb_ge. apply Hmono; lia.
          -- intros c (Hc1 & Hlow & Hhigh). rewrite Lc in *.
             assert (Hc0 : 1 <= c).
             { destruct (Z_le_gt_dec 1 c); [assumption|]. specialize (Hhigh 0 ltac:(lia)). rewrite Hc in Hhigh by lia. apply Z.ltb_ge in Hhigh. lia. }
             assert (Hl : forall k, 0 <= k < c -> at_ (zn 0 dp k) < at_ i).
             { intros k Hk. specialize (Hlow k ltac:(lia)). rewrite Hc in Hlow by lia. apply Z.ltb_lt in Hlow. exact Hlow. }
             apply wp_bind. apply wp_aset; [lia|]. apply wp_bind. apply (wp_aget _ 0); [rewrite len_zupd; lia|].
             rewrite zn_zupd_ne by lia. apply wp_bind. apply wp_aset; [lia|]. apply wp_ret.
             destruct (Chain c ltac:(lia)) as (C1 & C2 & C3 & C4); [apply Hl; lia|].
             apply Store; try lia; try assumption.
             intros _. destruct (Z.eq_dec c L) as [->|]; [exact K2|]. specialize (Hhigh c ltac:(lia)). rewrite Hc in Hhigh by lia. apply Z.ltb_ge in Hhigh. exact Hhigh.
    - (* reading the answer back *)
      intros [[dp parent] L] H. replace (Z.max 1 (len a)) with (len a) in H by lia.
      destruct H as (Ldp & Lpar & HL & Hdp & Hinc & Hch & Hpar & Hopt).
      apply wp_bind. apply (wp_aget _ 0); [lia|]. destruct (Hch L ltac:(lia)) as (vs & Hv & Hl).
      apply wp_bind.
      apply wp_mono with (P := fun ans => ans = vs).
      { apply (wp_while _ _ (fun '(ans, j) => exists rest, ans ++ rest = vs /\ ((j = -1 /\ rest = []) \/ chain parent j rest))
                 (fun '(ans, j) => (length vs - length ans)%nat)).
        - intros [ans j] (rest & E & D). destruct (Z.eqb_spec j (-1)) as [->|Hj]; cbn [negb].
          + apply wp_ret. destruct D as [[_ ->]|D]; [rewrite app_nil_r in E; exact E|apply chain_range in D; lia].
          + destruct D as [[? _]|D]; [lia|]. pose proof (chain_range _ _ _ D).
            apply wp_bind. apply (wp_aget _ 0); [lia|]. apply wp_bind. apply (wp_aget _ 0); [lia|]. apply wp_ret.
            assert (Hlt : (length vs - length (ans ++ [at_ j]) < length vs - length ans)%nat).
            { rewrite <- E, !app_length. destruct D; simpl; lia. }
            split; [|exact Hlt]. inversion D; subst.
            * exists []. split; [rewrite app_nil_r; reflexivity|]. left; auto.
            * match goal with K : chain parent (zn 0 parent j) ?t |- _ => exists t; split; [rewrite <- app_assoc; reflexivity|right; exact K] end.
        - exists vs. split; [reflexivity|]. right; exact Hv.
        - pose proof (chain_len _ _ _ Hv). specialize (Hdp L ltac:(lia)). unfold len in *. simpl length. lia. }
      intros ans ->.
      assert (Hrev : rev vs = rev vs /\ len (rev vs) = L + 1) by (split; [reflexivity|unfold len in *; rewrite rev_length; exact Hl]).
      destruct (chain_sub _ _ _ Hv) as (w & Ew & Hs & Hss & _).
      apply wp_mono with (P := fun r => r = rev vs).
      { apply (wp_for_range _ _ _ _ (fun i oda => len oda = len vs /\ forall k, 0 <= k < i -> zn 0 oda (len vs - 1 - k) = zn 0 vs k)).
        - rewrite len_repeat. split; [lia|intros; lia].
        - intros k oda Hk (E1 & E2). apply wp_bind. apply (wp_aget _ 0); [lia|]. apply wp_aset; [lia|].
          split; [rewrite len_zupd; exact E1|]. intros k0 Hk0. rewrite zn_zupd by lia.
          destruct (Z.eqb_spec (len vs - 1 - k) (len vs - 1 - k0)); [f_equal; lia|]. apply E2; lia.
        - intros oda (E1 & E2). replace (Z.max 0 (len vs)) with (len vs) in E2 by (pose proof (len_nonneg _ vs); lia).
          apply (zn_ext _ 0); [unfold len in *; rewrite rev_length; lia|]. intros i Hi. specialize (E2 (len vs - 1 - i) ltac:(lia)).
          replace (len vs - 1 - (len vs - 1 - i)) with i in E2 by lia. rewrite E2. unfold zn. rewrite rev_nth by (unfold len in *; lia).
          f_equal. unfold len in *. lia. }
      intros r ->. split; [|split; [exact Hss|]].
      + rewrite <- (firstn_all a). eapply subseq_firstn_mono; [|exact Hs]. specialize (Hdp L ltac:(lia)). unfold len in *. lia.
      + intros s Hs2 Hss2. destruct Hrev as [_ Hr]. rewrite Hr. destruct s as [|v s _] using rev_ind; [unfold len; simpl; lia|].
        destruct (Hopt s v Hss2) as [H1 _]; [unfold len; rewrite Nat2Z.id, firstn_all; exact Hs2|].
        rewrite len_app. change (len [v]) with 1. lia.
  Qed.
End LIS.

(** ** matrix product *)
Definition mget (m : list (list Z)) (i j : Z) : Z := zn 0 (zn [] m i) j.

Lemma square_row n m i : square n m -> 0 <= i < n -> len (zn [] m i) = n.
Proof. intros [H1 H2] Hi. apply H2. unfold zn. apply nth_In. unfold len in H1. lia. Qed.

Lemma mm_helper_ok n m1 m2 i j : square n m1 -> square n m2 -> 0 <= i < n -> 0 <= j < n ->
  wp (matrix_multiply_helper m1 m2 i j) (fun v => v = sum_below (Z.to_nat n) (fun k => mget m1 i k * mget m2 k j)).
Proof.
  intros S1 S2 Hi Hj. unfold matrix_multiply_helper.
  apply (wp_for_range _ _ _ _ (fun k s => s = sum_below (Z.to_nat k) (fun k => mget m1 i k * mget m2 k j))).
  - reflexivity.
  - intros k s Hk ->. pose proof (square_row _ _ i S1 Hi) as R1. destruct S1 as [L1 _]. assert (Hk' : 0 <= k < n) by lia. pose proof (square_row _ _ k S2 Hk') as R2. destruct S2 as [L2 _].
    apply wp_bind. apply (wp_lget _ []); [lia|]. apply wp_bind. apply (wp_lget _ 0); [lia|].
    apply wp_bind. apply (wp_lget _ []); [lia|]. apply wp_bind. apply (wp_lget _ 0); [lia|]. apply wp_ret.
    replace (Z.to_nat (k + 1)) with (S (Z.to_nat k)) by lia. cbn [sum_below]. rewrite Z2Nat.id by lia. reflexivity.
  - intros s ->. destruct S1 as [L1 _]. f_equal. lia.
Qed.

Lemma matmul_ok n m1 m2 nt : 1 <= n -> square n m1 -> square n m2 ->
  wp (matrix_multiply_parallel m1 m2 nt) (fun C => len C = n /\ (forall i, 0 <= i < n -> len (zn [] C i) = n) /\
    forall i j, 0 <= i < n -> 0 <= j < n -> zn None (zn [] C i) j = Some (sum_below (Z.to_nat n) (fun k => mget m1 i k * mget m2 k j))).
Proof.
  intros Hn S1 S2. unfold matrix_multiply_parallel. pose proof S1 as [L1 _]. pose proof S2 as [L2 _].
  assert (H0 : 0 <= 0 < n) by lia. pose proof (square_row _ _ 0 S1 H0) as R1. pose proof (square_row _ _ 0 S2 H0) as R2.
  apply wp_bind. apply (wp_lget _ []); [lia|]. cbv zeta. apply wp_bind. apply (wp_lget _ []); [lia|].
  rewrite R1, R2, L1, L2, Z.eqb_refl. cbn [negb].
  set (val := fun i j => sum_below (Z.to_nat n) (fun k => mget m1 i k * mget m2 k j)).
  set (inv := fun (i j : Z) (C : list (list (option Z))) => len C = n /\ (forall i, 0 <= i < n -> len (zn [] C i) = n) /\
     forall r c, 0 <= r < n -> 0 <= c < n -> r < i \/ (r = i /\ c < j) -> zn None (zn [] C r) c = Some (val r c)).
  apply (wp_for_range _ _ _ _ (fun i C => inv i 0 C)).
  - split; [rewrite len_repeat; lia|]. split.
    + intros i Hi. rewrite zn_repeat by lia. rewrite len_repeat. lia.
    + intros; lia.
  - intros i C Hi HC. eapply wp_mono.
    + apply (wp_for_range _ _ _ _ (fun j C => inv i j C)) with (Q := inv i n); [exact HC| |].
      * intros j C' Hj (E1 & E2 & E3). apply wp_bind. eapply wp_mono; [apply (mm_helper_ok n); auto; lia|].
        intros v ->. apply wp_bind. apply (wp_lget _ []); [lia|]. apply wp_bind. apply wp_aset; [rewrite E2; lia|]. apply wp_aset; [lia|].
        split; [rewrite len_zupd; exact E1|]. split.
        -- intros r Hr. rewrite zn_zupd by lia. destruct (Z.eqb_spec i r); [rewrite len_zupd|]; apply E2; lia.
        -- intros r c Hr Hc Hrc. rewrite zn_zupd by lia. destruct (Z.eqb_spec i r) as [<-|].
           ++ rewrite zn_zupd by (rewrite ?E2; lia). destruct (Z.eqb_spec j c) as [<-|]; [reflexivity|]. apply E3; lia.
           ++ apply E3; lia.
      * intros C'. replace (Z.max 0 n) with n by lia. auto.
    + intros C' (E1 & E2 & E3). split; [exact E1|]. split; [exact E2|]. intros r c Hr Hc Hrc. apply E3; lia.
  - intros C. replace (Z.max 0 n) with n by lia. intros (E1 & E2 & E3). split; [exact E1|]. split; [exact E2|]. intros; apply E3; lia.
Qed.
