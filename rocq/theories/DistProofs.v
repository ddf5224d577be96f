(** Distribution sorts: counting_sort, radix_sort, bucket_sort. *)
From Verif Require Import Base ArraysProofs SortModel SortSpec SortProofs SortProofs3 SortProofs4 SortModel2.
From Coq Require Import Sorted.

Section Lists.
  Context {V : Type}.
  Lemma SS_app (R : V -> V -> Prop) l1 l2 : StronglySorted R l1 -> StronglySorted R l2 -> (forall x y, In x l1 -> In y l2 -> R x y) -> StronglySorted R (l1 ++ l2).
  Proof.
    induction 1 as [|x l S IH F]; intros S2 H; [exact S2|]. simpl. constructor; [apply IH; [exact S2|intros; apply H; [right; assumption|assumption]]|].
    apply Forall_app. split; [exact F|]. apply Forall_forall. intros y Hy. apply H; [left; reflexivity|exact Hy].
  Qed.
  Lemma SS_filter (R : V -> V -> Prop) f l : StronglySorted R l -> StronglySorted R (filter f l).
  Proof.
    induction 1 as [|x l S IH F]; [constructor|]. simpl. destruct (f x); [|exact IH]. constructor; [exact IH|].
    rewrite Forall_forall in *. intros y Hy. apply filter_In in Hy. apply F, Hy.
  Qed.
  Lemma SS_impl_in (R R' : V -> V -> Prop) l : (forall x y, In x l -> In y l -> R x y -> R' x y) -> StronglySorted R l -> StronglySorted R' l.
  Proof.
    induction l as [|x l IH]; intros H S; [constructor|]. inversion S; subst. constructor.
    - apply IH; [intros; apply H; try right; assumption|assumption].
    - rewrite Forall_forall in *. intros y Hy. apply H; [left; reflexivity|right; exact Hy|auto].
  Qed.

  Context (key : V -> Z).
  Definition bkt (vals : list V) (k : Z) : list V := filter (fun v => key v =? k) vals.
  Definition dist (lo hi : Z) (vals : list V) : list V := flat_map (bkt vals) (zrange lo hi).
  Lemma dist_nil lo hi vals : hi <= lo -> dist lo hi vals = [].
  Proof. intros H. unfold dist. rewrite zrange_nil by lia. reflexivity. Qed.
  Lemma dist_snoc lo hi vals : lo <= hi -> dist lo (hi + 1) vals = dist lo hi vals ++ bkt vals hi.
  Proof.
    intros H. unfold dist. rewrite zrange_snoc by lia. replace (hi + 1 - 1) with hi by lia. rewrite flat_map_app. simpl.
    rewrite app_nil_r. reflexivity.
  Qed.
  Lemma range_ind (P : Z -> Prop) lo : P lo -> (forall k, lo <= k -> P k -> P (k + 1)) -> forall hi, lo <= hi -> P hi.
  Proof.
    intros H0 Hs hi Hh. replace hi with (lo + Z.of_nat (Z.to_nat (hi - lo))) by lia. induction (Z.to_nat (hi - lo)) as [|n IH].
    - replace (lo + Z.of_nat 0) with lo by lia. exact H0.
    - replace (lo + Z.of_nat (S n)) with (lo + Z.of_nat n + 1) by lia. apply Hs; [lia|exact IH].
  Qed.
  Lemma dist_perm_gen lo hi vals : lo <= hi -> Permutation (filter (fun v => (lo <=? key v) && (key v <? hi)) vals) (dist lo hi vals).
  Proof.
    intros H. revert hi H. apply range_ind.
    - rewrite dist_nil by lia. induction vals as [|v vals IH]; simpl; [constructor|].
      destruct (Z.leb_spec lo (key v)), (Z.ltb_spec (key v) lo); try lia; exact IH.
    - intros k Hk IH. rewrite dist_snoc by lia. rewrite <- IH. clear IH. unfold bkt. induction vals as [|v vals IH]; [reflexivity|]. simpl.
      destruct (Z.leb_spec lo (key v)), (Z.ltb_spec (key v) k), (Z.ltb_spec (key v) (k + 1)), (Z.eqb_spec (key v) k); simpl; try lia; try exact IH.
      + constructor. exact IH.
      + rewrite <- Permutation_middle. constructor. exact IH.
  Qed.
  Lemma dist_perm lo hi vals : lo <= hi -> (forall v, In v vals -> lo <= key v < hi) -> Permutation vals (dist lo hi vals).
  Proof.
    intros H Hk. rewrite <- dist_perm_gen by exact H. induction vals as [|v vals IH]; [reflexivity|]. simpl.
    pose proof (Hk v (or_introl eq_refl)). destruct (Z.leb_spec lo (key v)), (Z.ltb_spec (key v) hi); try lia. simpl. constructor.
    apply IH. intros; apply Hk; right; assumption.
  Qed.
  Lemma dist_in lo hi vals v : In v (dist lo hi vals) -> In v vals /\ lo <= key v < hi.
  Proof.
    unfold dist, bkt. rewrite in_flat_map. intros (k & Hk & Hv). apply zrange_in in Hk. apply filter_In in Hv. destruct Hv as [Hv E].
    apply Z.eqb_eq in E. split; [exact Hv|lia].
  Qed.
  Lemma dist_sorted (R : V -> V -> Prop) lo hi vals : lo <= hi -> StronglySorted R vals ->
    StronglySorted (fun x y => key x < key y \/ (key x = key y /\ R x y)) (dist lo hi vals).
  Proof.
    intros H S. revert hi H. apply range_ind; [rewrite dist_nil by lia; constructor|]. intros k Hk IH. rewrite dist_snoc by lia.
    apply SS_app; [exact IH| |].
    - apply SS_impl_in with (R := R); [|apply SS_filter, S]. intros x y Hx Hy HR. right.
      apply filter_In in Hx. apply filter_In in Hy. destruct Hx as [_ Hx], Hy as [_ Hy]. apply Z.eqb_eq in Hx, Hy. split; [congruence|exact HR].
    - intros x y Hx Hy. left. apply dist_in in Hx. apply filter_In in Hy. destruct Hy as [_ Hy]. apply Z.eqb_eq in Hy. lia.
  Qed.
  Lemma lt_mono lo j k vals : lo <= j -> j <= k -> len (dist lo j vals) <= len (dist lo k vals).
  Proof.
    intros Hj. revert k. apply range_ind; [lia|]. intros k Hk IH. rewrite dist_snoc, len_app by lia. pose proof (len_nonneg _ (bkt vals k)). lia.
  Qed.
  Lemma lt_step lo k vals : lo <= k -> len (dist lo (k + 1) vals) = len (dist lo k vals) + len (bkt vals k).
  Proof. intros H. rewrite dist_snoc, len_app by lia. reflexivity. Qed.
  Lemma bkt_app l1 l2 k : bkt (l1 ++ l2) k = bkt l1 k ++ bkt l2 k.
  Proof. apply filter_app. Qed.
  Lemma bkt_one v k : bkt [v] k = if key v =? k then [v] else [].
  Proof. reflexivity. Qed.
  Lemma zn_app_l {W} (dd : W) (a b : list W) t : 0 <= t < len a -> zn dd (a ++ b) t = zn dd a t.
  Proof. intros H. unfold zn. unfold len in H. apply app_nth1. lia. Qed.
  Lemma zn_app_r {W} (dd : W) (a b : list W) t : len a <= t -> zn dd (a ++ b) t = zn dd b (t - len a).
  Proof. intros H. unfold zn. unfold len in *. rewrite app_nth2 by lia. f_equal. lia. Qed.

  Lemma assemble (out : list (option V)) lo vals hi : lo <= hi ->
    (forall k t, lo <= k < hi -> 0 <= t < len (bkt vals k) -> zn None out (len (dist lo k vals) + t) = zn None (map Some (bkt vals k)) t) ->
    forall t, 0 <= t < len (dist lo hi vals) -> zn None out t = zn None (map Some (dist lo hi vals)) t.
  Proof.
    intros H. revert hi H. 
    apply (range_ind (fun hi => (forall k t, lo <= k < hi -> 0 <= t < len (bkt vals k) -> zn None out (len (dist lo k vals) + t) = zn None (map Some (bkt vals k)) t) ->
      forall t, 0 <= t < len (dist lo hi vals) -> zn None out t = zn None (map Some (dist lo hi vals)) t)).
    - intros _ t Ht. rewrite dist_nil in Ht by lia. unfold len in Ht; simpl in Ht. lia.
    - intros k Hk IH Hseg t Ht. rewrite dist_snoc, len_app in Ht by lia. rewrite dist_snoc, map_app by lia.
      destruct (Z_lt_le_dec t (len (dist lo k vals))).
      + rewrite zn_app_l by (rewrite len_map; lia). apply IH; [|lia]. intros; apply Hseg; lia.
      + rewrite zn_app_r by (rewrite len_map; lia). rewrite len_map. rewrite <- Hseg by lia. f_equal. lia.
  Qed.

  (** tallying *)
  Lemma count_loop R vals : (forall v, In v vals -> 0 <= key v < R) ->
    wp (forM vals (fun v count => c <- lget count (key v) ;; aset count (key v) (c + 1)) (repeat 0 (Z.to_nat R)))
       (fun count => len count = Z.max 0 R /\ forall k, 0 <= k < R -> zn 0 count k = len (bkt vals k)).
  Proof.
    intros HR. apply (wp_forM _ _ _ _ (fun pre count => len count = Z.max 0 R /\ forall k, 0 <= k < R -> zn 0 count k = len (bkt pre k))).
    - intros pre v post count E (L & H). assert (Hv : 0 <= key v < R) by (apply HR; rewrite E; apply in_or_app; right; left; reflexivity).
      rewrite (lget_ok _ 0) by lia. cbn [bind]. apply wp_aset; [lia|]. rewrite len_zupd. split; [exact L|]. intros k Hk.
      rewrite bkt_app, bkt_one, len_app. destruct (Z.eqb_spec (key v) k) as [<-|].
      + rewrite zn_zupd_eq by lia. rewrite H by lia. reflexivity.
      + rewrite zn_zupd_ne by lia. rewrite H by lia. change (len (@nil V)) with 0. lia.
    - split; [rewrite len_repeat; lia|]. intros k Hk. unfold zn. change (len (bkt [] k)) with 0. apply nth_repeat.
  Qed.

  (** placing, left to right with exclusive prefix sums *)
  Lemma place_forward R vals out0 count0 : 0 <= R -> (forall v, In v vals -> 0 <= key v < R) -> len out0 = len vals -> len count0 = R ->
    (forall k, 0 <= k < R -> zn 0 count0 k = len (dist 0 k vals)) ->
    wp (forM vals (fun v '(output, count) => c <- lget count (key v) ;; output' <- aset output c (Some v) ;;
           count' <- aset count (key v) (c + 1) ;; Ret (output', count')) (out0, count0))
       (fun '(out, _) => out = map Some (dist 0 R vals)).
  Proof.
    intros HR0 HR Lo Lc Hc.
    assert (LD : len (dist 0 R vals) = len vals) by (pose proof (dist_perm 0 R vals HR0 HR) as P; apply Permutation_length in P; unfold len; lia).
    eapply wp_mono.
    - apply (wp_forM _ _ _ _ (fun pre '(out, count) => len out = len vals /\ len count = R /\
         (forall k, 0 <= k < R -> zn 0 count k = len (dist 0 k vals) + len (bkt pre k)) /\
         (forall k t, 0 <= k < R -> 0 <= t < len (bkt pre k) -> zn None out (len (dist 0 k vals) + t) = zn None (map Some (bkt pre k)) t))).
      + intros pre v post [out count] E (L1 & L2 & H1 & H2).
        assert (Hv : 0 <= key v < R) by (apply HR; rewrite E; apply in_or_app; right; left; reflexivity).
        rewrite (lget_ok _ 0) by lia. cbn [bind]. rewrite H1 by lia.
        assert (Hb : len (bkt pre (key v)) + 1 + len (bkt post (key v)) = len (bkt vals (key v))).
        { rewrite E. change (v :: post) with ([v] ++ post). rewrite !bkt_app, bkt_one, Z.eqb_refl, !len_app. change (len [v]) with 1. lia. }
        pose proof (len_nonneg _ (bkt pre (key v))). pose proof (len_nonneg _ (bkt post (key v))).
        assert (Hpos : forall k, 0 <= k < R -> len (dist 0 k vals) + len (bkt vals k) <= len vals).
        { intros k Hk. rewrite <- lt_step by lia. rewrite <- LD. apply lt_mono; lia. }
        pose proof (Hpos (key v) Hv). pose proof (len_nonneg _ (dist 0 (key v) vals)).
        apply wp_bind, wp_aset; [lia|]. apply wp_bind, wp_aset; [lia|]. simpl. rewrite !len_zupd. split; [exact L1|]. split; [exact L2|].
        split.
        * intros k Hk. rewrite bkt_app, bkt_one, len_app. destruct (Z.eqb_spec (key v) k) as [<-|].
          -- rewrite zn_zupd_eq by lia. change (len [v]) with 1. lia.
          -- rewrite zn_zupd_ne by lia. rewrite H1 by lia. change (len (@nil V)) with 0. lia.
        * intros k t Hk Ht. rewrite bkt_app, bkt_one in *. pose proof (len_nonneg _ (dist 0 k vals)). destruct (Z.eqb_spec (key v) k) as [<-|Hne].
          -- rewrite len_app in Ht. change (len [v]) with 1 in Ht. rewrite map_app.
             destruct (Z.eq_dec t (len (bkt pre (key v)))) as [->|].
             ++ rewrite zn_zupd_eq by lia. rewrite zn_app_r by (rewrite len_map; lia). rewrite len_map, Z.sub_diag. reflexivity.
             ++ rewrite zn_zupd_ne by lia. rewrite zn_app_l by (rewrite len_map; lia). apply H2; lia.
          -- rewrite app_nil_r in *. rewrite zn_zupd_ne; [apply H2; assumption|lia|lia|].
             (* disjoint intervals *)
             assert (Hpk : len (bkt pre k) <= len (bkt vals k)).
             { rewrite E, bkt_app, len_app. pose proof (len_nonneg _ (bkt (v :: post) k)). lia. }
             destruct (Z_lt_le_dec k (key v)).
             ++ pose proof (lt_mono 0 (k + 1) (key v) vals ltac:(lia) ltac:(lia)) as M. rewrite lt_step in M by lia. lia.
             ++ pose proof (lt_mono 0 (key v + 1) k vals ltac:(lia) ltac:(lia)) as M. rewrite lt_step in M by lia. lia.
      + split; [exact Lo|]. split; [exact Lc|]. split; [intros k Hk; rewrite Hc by lia; change (len (bkt [] k)) with 0; lia|].
        intros k t Hk Ht. change (len (bkt [] k)) with 0 in Ht. lia.
    - intros [out count] (L1 & _ & _ & H2). apply (zn_ext _ None); [rewrite len_map; lia|]. intros t Ht. apply assemble; [lia| |lia].
      intros; apply H2; lia.
  Qed.

  (** placing, right to left with inclusive prefix sums *)
  Lemma place_backward R vals n count0 : 0 <= R -> (forall v, In v vals -> 0 <= key v < R) -> len vals <= n -> len count0 = R ->
    (forall k, 0 <= k < R -> zn 0 count0 k = len (dist 0 (k + 1) vals)) ->
    wp (forM (rev vals) (fun v '(output, count) => c <- lget count (key v) ;; count' <- aset count (key v) (c - 1) ;;
           c' <- lget count' (key v) ;; output' <- aset output c' (Some v) ;; Ret (output', count')) (repeat None (Z.to_nat n), count0))
       (fun '(out, _) => out = map Some (dist 0 R vals) ++ repeat None (Z.to_nat (n - len vals))).
  Proof.
    intros HR0 HR Lo Lc Hc.
    assert (LD : len (dist 0 R vals) = len vals) by (pose proof (dist_perm 0 R vals HR0 HR) as P; apply Permutation_length in P; unfold len; lia).
    pose proof (len_nonneg _ vals) as Lv.
    eapply wp_mono.
    - apply (wp_forM _ _ _ _ (fun pre '(out, count) => len out = n /\ len count = R /\
         (forall k, 0 <= k < R -> zn 0 count k = len (dist 0 (k + 1) vals) - len (bkt (rev pre) k)) /\
         (forall k t, 0 <= k < R -> 0 <= t < len (bkt (rev pre) k) ->
             zn None out (len (dist 0 (k + 1) vals) - len (bkt (rev pre) k) + t) = zn None (map Some (bkt (rev pre) k)) t) /\
         (forall t, len vals <= t -> zn None out t = None))).
      + intros pre v post [out count] E (L1 & L2 & H1 & H2 & H3).
        assert (Ev : vals = rev post ++ v :: rev pre).
        { rewrite <- (rev_involutive vals), E, rev_app_distr. simpl. rewrite <- app_assoc. reflexivity. }
        assert (Hv : 0 <= key v < R) by (apply HR; rewrite Ev; apply in_or_app; right; left; reflexivity).
        assert (Hb : len (bkt (rev post) (key v)) + 1 + len (bkt (rev pre) (key v)) = len (bkt vals (key v))).
        { replace (bkt vals (key v)) with (bkt (rev post ++ v :: rev pre) (key v)) by (rewrite <- Ev; reflexivity). change (v :: rev pre) with ([v] ++ rev pre). rewrite !bkt_app, bkt_one, Z.eqb_refl, !len_app. change (len [v]) with 1. lia. }
        pose proof (len_nonneg _ (bkt (rev pre) (key v))). pose proof (len_nonneg _ (bkt (rev post) (key v))).
        assert (Hpos : forall k, 0 <= k < R -> len (dist 0 k vals) + len (bkt vals k) <= len vals).
        { intros k Hk. rewrite <- lt_step by lia. rewrite <- LD. apply lt_mono; lia. }
        pose proof (Hpos (key v) Hv). pose proof (len_nonneg _ (dist 0 (key v) vals)). pose proof (lt_step 0 (key v) vals ltac:(lia)) as ST.
        rewrite (lget_ok _ 0) by lia. cbn [bind]. rewrite H1 by lia.
        apply wp_bind, wp_aset; [lia|]. rewrite (lget_ok _ 0) by (rewrite len_zupd; lia). cbn [bind]. rewrite zn_zupd_eq by lia.
        apply wp_bind, wp_aset; [lia|]. simpl. rewrite !len_zupd. split; [exact L1|]. split; [exact L2|].
        rewrite rev_app_distr. simpl. split; [|split].
        * intros k Hk. destruct (Z.eqb_spec (key v) k) as [<-|].
          -- rewrite zn_zupd_eq by lia. rewrite len_cons. unfold bkt at 1. fold (bkt (rev pre) (key v)). lia.
          -- rewrite zn_zupd_ne by lia. rewrite H1 by lia. reflexivity.
        * intros k t Hk Ht. pose proof (len_nonneg _ (dist 0 k vals)). pose proof (lt_step 0 k vals ltac:(lia)) as STk. 
          destruct (Z.eqb_spec (key v) k) as [<-|Hne].
          -- fold (bkt (rev pre) (key v)) in *. rewrite len_cons in *.
             destruct (Z.eq_dec t 0) as [->|].
             ++ replace (len (dist 0 (key v + 1) vals) - (len (bkt (rev pre) (key v)) + 1) + 0) with (len (dist 0 (key v + 1) vals) - len (bkt (rev pre) (key v)) - 1) by lia.
                rewrite zn_zupd_eq by lia. reflexivity.
             ++ rewrite zn_zupd_ne by lia. change (map Some (v :: bkt (rev pre) (key v))) with ([Some v] ++ map Some (bkt (rev pre) (key v))).
                rewrite zn_app_r by (change (len [Some v]) with 1; lia). change (len [Some v]) with 1. rewrite <- H2 by lia. f_equal. lia.
          -- fold (bkt (rev pre) k) in *.
             assert (Hpk : len (bkt (rev pre) k) <= len (bkt vals k)).
             { replace (bkt vals k) with (bkt (rev post ++ v :: rev pre) k) by (rewrite <- Ev; reflexivity). rewrite bkt_app, len_app. change (v :: rev pre) with ([v] ++ rev pre). rewrite bkt_app, len_app.
               pose proof (len_nonneg _ (bkt (rev post) k)). pose proof (len_nonneg _ (bkt [v] k)). lia. }
             rewrite zn_zupd_ne; [apply H2; assumption|lia|lia|].
             destruct (Z_lt_le_dec k (key v)).
             ++ pose proof (lt_mono 0 (k + 1) (key v) vals ltac:(lia) ltac:(lia)) as M. lia.
             ++ pose proof (lt_mono 0 (key v + 1) k vals ltac:(lia) ltac:(lia)) as M. lia.
        * intros t Ht. rewrite zn_zupd_ne by lia. apply H3. exact Ht.
      + split; [rewrite len_repeat; lia|]. split; [exact Lc|]. split; [intros k Hk; rewrite Hc by lia; change (len (bkt (rev []) k)) with 0; lia|].
        split; [intros k t Hk Ht; change (len (bkt (rev []) k)) with 0 in Ht; lia|]. intros t Ht. unfold zn. apply nth_repeat.
    - intros [out count] (L1 & _ & _ & H2 & H3). rewrite rev_involutive in H2.
      apply (zn_ext _ None); [rewrite len_app, len_map, len_repeat; lia|]. intros t Ht.
      destruct (Z_lt_le_dec t (len vals)).
      + rewrite zn_app_l by (rewrite len_map; lia). apply assemble; [lia| |lia].
        intros k q Hk Hq. rewrite <- H2 by lia. f_equal. rewrite lt_step by lia. lia.
      + rewrite H3 by lia. rewrite zn_app_r by (rewrite len_map; lia). unfold zn. symmetry. apply nth_repeat.
  Qed.
End Lists.
