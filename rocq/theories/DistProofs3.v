From Verif Require Import Base ArraysProofs SortModel SortSpec SortProofs SortProofs3 SortProofs4 SortModel2 DistProofs DistProofs2.
From Coq Require Import Sorted.

Lemma SS_inv_app (R : Z -> Z -> Prop) l1 l2 : StronglySorted R (l1 ++ l2) -> StronglySorted R l1 /\ StronglySorted R l2 /\ forall x y, In x l1 -> In y l2 -> R x y.
Proof.
  induction l1 as [|z l1 IH]; simpl; intros S.
  - split; [constructor|]. split; [exact S|]. intros ? ? [].
  - inversion S as [|? ? S' F]; subst. destruct (IH S') as (A & B & C). rewrite Forall_forall in F. split; [constructor; [exact A|apply Forall_forall; intros; apply F, in_or_app; auto]|].
    split; [exact B|]. intros x y [<-|Hx] Hy; [apply F, in_or_app; auto|auto].
Qed.

Lemma zn_mid V (d : V) l1 x l2 : zn d (l1 ++ x :: l2) (len l1) = x.
Proof. unfold zn, len. rewrite Nat2Z.id, app_nth2, Nat.sub_diag by lia. reflexivity. Qed.
Lemma zupd_mid V (l1 : list V) x y l2 : zupd (l1 ++ x :: l2) (len l1) y = l1 ++ y :: l2.
Proof. unfold zupd, len. rewrite Nat2Z.id, upd_app2, Nat.sub_diag by lia. reflexivity. Qed.

Lemma bucket_helper_ok (b : list Z) : wp (bucket_sort_helper b) (fun w => Permutation b w /\ StronglySorted Z.le w).
Proof.
  destruct b as [|b0 b']; [simpl; split; constructor|]. unfold bucket_sort_helper. set (b := b0 :: b').
  assert (Lb : 1 <= len b) by (unfold b; rewrite len_cons; pose proof (len_nonneg _ b'); lia).
  apply (wp_for_range _ _ _ _ (fun i c => exists w post, c = w ++ post /\ len w = i /\ len c = len b /\ Permutation b c /\ StronglySorted Z.le w)).
  - exists [b0], b'. split; [reflexivity|]. split; [reflexivity|]. split; [reflexivity|]. split; [reflexivity|]. repeat constructor.
  - intros i c Hi (w & post & Ec & Lw & Lc & P & S).
    destruct post as [|k post]; [rewrite app_nil_r in Ec; subst c; lia|].
    apply wp_bind. rewrite (lget_ok _ 0) by lia. cbn [wp]. rewrite Ec, <- Lw, zn_mid. subst c. apply wp_bind.
    eapply wp_while with (m := fun '(c, j) => Z.to_nat (j + 1))
      (I := fun '(c, j) => exists w1 w2 h, w = w1 ++ w2 /\ j = len w1 - 1 /\ c = w1 ++ h :: w2 ++ post /\ forall x, In x w2 -> k < x).
    + intros [c j] (w1 & w2 & h & Ew & -> & -> & Hgt).
      assert (Fin : w1 = [] \/ (exists w1' x, w1 = w1' ++ [x])) by (destruct w1 as [|? ? _] using rev_ind; [left; reflexivity|right; eauto]).
      destruct Fin as [->|(w1' & x & ->)].
      * destruct (Z.leb_spec 0 (len (@nil Z) - 1)) as [H|H]; [change (len (@nil Z)) with 0 in H; lia|]. cbn [wp app].
        rewrite aset_ok by (rewrite len_cons; change (len (@nil Z)) with 0; pose proof (len_nonneg _ (w2 ++ post)); lia).
        change (zupd (h :: w2 ++ post) (len (@nil Z) - 1 + 1) k) with (k :: w2 ++ post). simpl in Ew. subst w2.
        exists (k :: w), post. split; [reflexivity|]. split; [rewrite len_cons; lia|]. split; [rewrite <- Lc, len_cons, !len_app, len_cons; lia|].
        split; [rewrite P; symmetry; apply Permutation_middle|]. constructor; [exact S|]. apply Forall_forall. intros y Hy. specialize (Hgt y Hy). lia.
      * rewrite len_app. change (len [x]) with 1. pose proof (len_nonneg _ w1'). destruct (Z.leb_spec 0 (len w1' + 1 - 1)); [|lia].
        replace (len w1' + 1 - 1) with (len w1') by lia. rewrite <- !app_assoc. cbn [app].
        apply wp_bind. rewrite (lget_ok _ 0) by (rewrite len_app, len_cons; pose proof (len_nonneg _ (h :: w2 ++ post)); lia). cbn [wp]. rewrite zn_mid.
        destruct (Z.ltb_spec k x) as [Hkx|Hkx].
        -- apply wp_bind, wp_aset; [rewrite len_app, !len_cons; pose proof (len_nonneg _ (w2 ++ post)); lia|]. cbn [wp]. split; [|lia].
           exists w1', (x :: w2), x. split; [rewrite Ew, <- app_assoc; reflexivity|]. split; [reflexivity|]. split.
           ++ change (w1' ++ x :: h :: w2 ++ post) with (w1' ++ [x] ++ h :: w2 ++ post). rewrite app_assoc.
              replace (len w1' + 1) with (len (w1' ++ [x])) by (rewrite len_app; reflexivity). rewrite zupd_mid, <- app_assoc. reflexivity.
           ++ intros y [<-|Hy]; auto.
        -- cbn [wp]. change (w1' ++ x :: h :: w2 ++ post) with (w1' ++ [x] ++ h :: w2 ++ post). rewrite app_assoc.
           replace (len w1' + 1) with (len (w1' ++ [x])) by (rewrite len_app; reflexivity).
           rewrite aset_ok by (rewrite (len_app _ (w1' ++ [x])), len_cons; pose proof (len_nonneg _ (w2 ++ post)); pose proof (len_nonneg _ (w1' ++ [x])); lia).
           rewrite zupd_mid. exists ((w1' ++ [x]) ++ k :: w2), post. rewrite <- (app_assoc (w1' ++ [x])). split; [reflexivity|].
           split; [rewrite (len_app _ (w1' ++ [x])), len_cons, Ew, (len_app _ (w1' ++ [x])); lia|].
           split; [rewrite <- Lc, Ew; rewrite !len_app; rewrite !len_cons, ?len_app; cbn [app]; rewrite ?len_cons, ?len_app; lia|].
           split.
           ++ rewrite P, Ew. rewrite <- (app_assoc (w1' ++ [x])). apply Permutation_app_head. rewrite app_comm_cons. symmetry. cbn [app]. apply Permutation_middle.
           ++ rewrite Ew in S. destruct (SS_inv_app _ _ _ S) as (S1 & S2 & S3). apply SS_app; [exact S1| |].
              ** constructor; [exact S2|]. apply Forall_forall. intros y Hy. specialize (Hgt y Hy). lia.
              ** intros y z Hy [<-|Hz]; [|apply S3; assumption]. destruct (SS_inv_app _ _ _ S1) as (_ & _ & S5).
                 apply in_app_or in Hy. destruct Hy as [Hy|[<-|[]]]; [|exact Hkx]. specialize (S5 y x Hy (or_introl eq_refl)). lia.
    + exists w, [], k. rewrite app_nil_r. split; [reflexivity|]. split; [lia|]. split; [reflexivity|]. intros ? [].
    + lia.
  - intros c. rewrite Z.max_r by lia. intros (w & post & -> & Lw & Lc & P & S). rewrite len_app in Lc.
    destruct post; [rewrite app_nil_r in *; auto|rewrite len_cons in Lc; pose proof (len_nonneg _ post); lia].
Qed.

Section Bucket.
  Notation arr := (list (option Z)).
  Notation "a $ i" := (zn None a i) (at level 9, format "a $ i").

  Lemma bucket_ok (a : arr) s e mx : 0 <= s -> s <= e -> e < len a ->
    let vals := content (seg a s e) in
    In mx vals -> (forall v, In v vals -> 0 <= v <= mx) -> len vals <= mx -> mx / (mx / len vals) <= len vals ->
    (mx / (mx / len vals) < len vals \/ len vals <= 256) ->
    wp (bucket_sort a s e) (sorts Z.le a s e).
  Proof.
    intros Hs Hse He vals Hmx Hv Hcm Hd1 Hd2. unfold bucket_sort.
    assert (Lv : len vals <= e + 1 - s) by (pose proof (content_length_le (seg a s e)) as C; rewrite seg_len in C by lia; exact C).
    assert (L1 : 1 <= len vals) by (destruct vals; [destruct Hmx|rewrite len_cons; pose proof (len_nonneg _ vals); lia]).
    (* first loop: some value *)
    apply wp_bind.
    match goal with |- wp ?prog _ => assert (E1 : prog = forM vals (fun v _ => Ret (Some v)) None) end.
    { unfold vals. rewrite <- loop_content by assumption. generalize (@None Z). induction (zrange s (e + 1)) as [|i l IH]; intros o; [reflexivity|]. cbn [forM].
      destruct (aget a i) as [[v|]| |]; cbn [bind]; try reflexivity; apply IH. }
    rewrite E1. clear E1.
    eapply wp_mono; [apply (wp_forM _ _ _ _ (fun pre o => match pre with [] => o = None | _ => exists v, o = Some v /\ In v vals end))|].
    { intros pre v post o E _. simpl. destruct (pre ++ [v]) eqn:Ep; [destruct pre; discriminate|]. exists v. split; [reflexivity|]. rewrite E. apply in_or_app. right. left. reflexivity. }
    { reflexivity. }
    intros o Ho. assert (Hmv : exists v0, o = Some v0 /\ In v0 vals) by (destruct vals; [destruct Hmx|exact Ho]). clear Ho. destruct Hmv as (v0 & -> & Hv0).
    (* second loop: count and maximum *)
    apply wp_bind.
    match goal with |- wp ?prog _ => assert (E2 : prog = forM vals (fun v '(c, M) => match M with Some m => Ret (c + 1, if m <? v then Some v else Some m) | None => Raise TypeError end) (0, Some v0)) end.
    { unfold vals. rewrite <- loop_content by assumption. generalize (0, Some v0). induction (zrange s (e + 1)) as [|i l IH]; intros [c o]; [reflexivity|]. cbn [forM].
      destruct (aget a i) as [[v|]| |]; cbn [bind]; try reflexivity; [destruct o; cbn [bind]; try reflexivity|]; apply IH. }
    rewrite E2. clear E2.
    eapply wp_mono; [apply (wp_forM _ _ _ _ (fun pre '(c, M) => c = len pre /\ exists m, M = Some m /\ In m vals /\ forall x, In x pre -> x <= m))|].
    { intros pre v post [c M] E (-> & m & -> & Hm & Hle). simpl. rewrite len_app. change (len [v]) with 1. split; [reflexivity|].
      destruct (Z.ltb_spec m v).
      - exists v. split; [reflexivity|]. split; [rewrite E; apply in_or_app; right; left; reflexivity|]. intros x Hx. apply in_app_or in Hx. destruct Hx as [Hx|[<-|[]]]; [specialize (Hle x Hx); lia|lia].
      - exists m. split; [reflexivity|]. split; [exact Hm|]. intros x Hx. apply in_app_or in Hx. destruct Hx as [Hx|[<-|[]]]; [auto|lia]. }
    { split; [reflexivity|]. exists v0. split; [reflexivity|]. split; [exact Hv0|]. intros ? []. }
    intros [c M] (-> & m & -> & Hm & Hle). assert (m = mx) by (pose proof (Hle mx Hmx); pose proof (Hv m Hm); lia). subst m.
    set (count := len vals) in *. set (size := mx / count) in *.
    assert (Hsz : 1 <= size) by (unfold size; apply Z.div_le_lower_bound; lia).
    unfold py_floordiv at 1. destruct (Z.eqb_spec count 0); [lia|]. cbn [bind]. fold size.
    (* distribution *)
    set (key := fun v => Z.min (v / size) (count - 1)).
    assert (HK : forall v, In v vals -> 0 <= key v < count).
    { intros v Hv1. pose proof (Hv v Hv1). assert (0 <= v / size) by (apply Z.div_pos; lia). unfold key. lia. }
    apply wp_bind.
    match goal with |- wp ?prog _ => assert (E3 : prog = forM vals (fun v bl => b <- lget bl (key v) ;; aset bl (key v) (b ++ [v])) (repeat [] (Z.to_nat count))) end.
    { unfold vals. rewrite <- loop_content by assumption. fold vals. assert (Hall : forall i v, In i (zrange s (e + 1)) -> a$i = Some v -> In v vals).
      { intros i v Hi Ei. apply zrange_in in Hi. unfold vals. apply in_flat_map. exists (Some v). split; [|left; reflexivity]. rewrite <- Ei. replace i with (s + (i - s)) by lia.
        rewrite <- (zn_seg None a s e) by lia. unfold zn. apply nth_In. pose proof (seg_len a s e Hs ltac:(lia) He) as SL. unfold len in SL. lia. }
      generalize (repeat (@nil Z) (Z.to_nat count)). assert (Hr : forall i, In i (zrange s (e + 1)) -> 0 <= i < len a) by (intros i Hi; apply zrange_in in Hi; lia).
      induction (zrange s (e + 1)) as [|i l IH]; intros bl; [reflexivity|]. cbn [forM].
      rewrite (aget_ok _ None) by (apply Hr; left; reflexivity). cbn [bind]. destruct (a$i) as [v|] eqn:Ei.
      - assert (Hin : In v vals) by (apply (Hall i); [left; reflexivity|exact Ei]). pose proof (Hv v Hin) as Hv1.
        assert (Efd : py_floordiv v size = Ret (v / size)) by (unfold py_floordiv; destruct (Z.eqb_spec size 0); [lia|reflexivity]). rewrite Efd. cbn [bind].
        assert (Ek : (if py_is_not (v / size) count then v / size else count - 1) = key v).
        { assert (0 <= v / size) by (apply Z.div_pos; lia). assert (v / size <= mx / size) by (apply Z.div_le_mono; lia).
          unfold py_is_not, key. destruct (Z.eqb_spec (v / size) count), (Z.ltb_spec 256 (v / size)), (Z.ltb_spec (v / size) (-5)); simpl; lia. }
        cbv zeta. rewrite Ek. destruct (b <- lget bl (key v) ;; aset bl (key v) (b ++ [v])); cbn [bind]; try reflexivity.
        apply IH; [intros; eapply Hall; [right; eassumption|assumption]|intros; apply Hr; right; assumption].
      - cbn [bind]. apply IH; [intros; eapply Hall; [right; eassumption|assumption]|intros; apply Hr; right; assumption]. }
    rewrite E3. clear E3.
    eapply wp_mono; [apply (wp_forM _ _ _ _ (fun pre bl => len bl = count /\ forall k, 0 <= k < count -> zn [] bl k = bkt key pre k))|].
    { intros pre v post bl E (L & H). assert (Hin : In v vals) by (rewrite E; apply in_or_app; right; left; reflexivity). pose proof (HK v Hin).
      rewrite (lget_ok _ []) by lia. cbn [bind]. apply wp_aset; [lia|]. rewrite len_zupd. split; [exact L|]. intros k Hk. rewrite bkt_app, bkt_one.
      destruct (Z.eqb_spec (key v) k) as [<-|]; [rewrite zn_zupd_eq, H by lia; reflexivity|rewrite zn_zupd_ne, H, app_nil_r by lia; reflexivity]. }
    { split; [rewrite len_repeat; lia|]. intros k Hk. unfold zn. rewrite nth_repeat. reflexivity. }
    intros bl (Lbl & Hbl). apply wp_bind.
    (* sorting the buckets *)
    apply (wp_for_range _ _ _ _ (fun i cl => len cl = count /\ (forall k, 0 <= k < i -> Permutation (bkt key vals k) (zn [] cl k) /\ StronglySorted Z.le (zn [] cl k)) /\
       (forall k, i <= k < count -> zn [] cl k = bkt key vals k))).
    { split; [exact Lbl|]. split; [intros; lia|]. intros; apply Hbl; lia. }
    { intros i cl Hi (L & H1 & H2). rewrite (lget_ok _ []) by lia. cbn [bind]. apply wp_bind. eapply wp_mono; [apply bucket_helper_ok|].
      intros w (P & S). apply wp_aset; [lia|]. rewrite len_zupd. split; [exact L|]. split.
      - intros k Hk. destruct (Z.eq_dec i k) as [->|]; [rewrite zn_zupd_eq by lia; rewrite H2 in P by lia; auto|rewrite zn_zupd_ne by lia; apply H1; lia].
      - intros k Hk. rewrite zn_zupd_ne by lia. apply H2. lia. }
    rewrite Z.max_r by lia. intros cl (Lcl & Hcl & _). apply wp_bind.
    (* concatenation *)
    apply (wp_for_range _ _ _ _ (fun i w => Permutation (dist key 0 i vals) w /\ StronglySorted Z.le w)).
    { rewrite dist_nil by lia. split; constructor. }
    { intros i w Hi (P & S). rewrite (lget_ok _ []) by lia. cbn [bind wp]. destruct (Hcl i ltac:(lia)) as (P2 & S2). split.
      - rewrite dist_snoc by lia. apply Permutation_app; assumption.
      - apply SS_app; [exact S|exact S2|]. intros x y Hx Hy. apply (Permutation_in _ (Permutation_sym P)) in Hx. apply (Permutation_in _ (Permutation_sym P2)) in Hy.
        apply dist_in in Hx. destruct Hx as (_ & Hx). apply filter_In in Hy. destruct Hy as (_ & Hy). apply Z.eqb_eq in Hy.
        unfold key in Hx, Hy. assert (x / size < y / size) by lia. destruct (Z_lt_le_dec y x); [|lia].
        assert (y / size <= x / size) by (apply Z.div_le_mono; lia). lia. }
    rewrite Z.max_r by lia. intros w (Pw & Sw). rewrite <- (dist_perm key 0 count vals ltac:(lia) HK) in Pw.
    assert (Lw : len w = count) by (unfold count, len; rewrite (Permutation_length Pw); reflexivity).
    (* write back *)
    set (nulls := e - s + 1 - count). apply wp_bind.
    apply (wp_for_down _ _ _ _ (fun i b => len b = len a /\ (forall k, 0 <= k -> k < s \/ e < k -> b$k = a$k) /\ forall k, i < k <= e -> b$k = None)).
    { split; [reflexivity|]. split; [reflexivity|]. intros; lia. }
    { intros i b Hi (L & F & N). apply wp_aset; [lia|]. rewrite len_zupd. split; [exact L|]. split.
      - intros k Hk Ho. rewrite zn_zupd_ne by lia. apply F; assumption.
      - intros k Hk. destruct (Z.eq_dec i k) as [->|]; [rewrite zn_zupd_eq by lia; reflexivity|rewrite zn_zupd_ne by lia; apply N; lia]. }
    replace (Z.min (e - nulls) e) with (e - nulls) by lia. intros b (L & F & N).
    apply (wp_for_range _ _ _ _ (fun i c => len c = len a /\ (forall k, 0 <= k -> k < s \/ e < k -> c$k = a$k) /\ (forall k, e - nulls < k <= e -> c$k = None) /\
       forall k, 0 <= k < i - s -> c$(s + k) = Some (zn 0 w k))).
    { split; [exact L|]. split; [exact F|]. split; [exact N|]. intros; lia. }
    { intros i c Hi (L' & F' & N' & H). rewrite (lget_ok _ 0) by lia. cbn [bind]. apply wp_aset; [lia|]. rewrite len_zupd. split; [exact L'|]. split; [|split].
      - intros k Hk Ho. rewrite zn_zupd_ne by lia. apply F'; assumption.
      - intros k Hk. rewrite zn_zupd_ne by lia. apply N'. lia.
      - intros k Hk. destruct (Z.eq_dec i (s + k)) as [->|]; [rewrite zn_zupd_eq by lia; do 2 f_equal; lia|rewrite zn_zupd_ne by lia; apply H; lia]. }
    rewrite Z.max_r by lia. intros c (L' & F' & N' & H). apply (finish_sorts Z.le Z.le_refl a c s e w); auto; try lia.
    apply (zn_ext _ None); [rewrite seg_len, len_app, len_map, len_repeat by lia; lia|]. intros k Hk. rewrite seg_len in Hk by lia. rewrite (zn_seg None) by lia.
    destruct (Z_lt_le_dec k count).
    - rewrite H by lia. rewrite zn_app_l by (rewrite len_map; lia). unfold zn. rewrite (nth_indep _ None (Some 0)) by (rewrite map_length; unfold len in Lw; lia).
      rewrite map_nth. reflexivity.
    - rewrite N' by lia. rewrite zn_app_r by (rewrite len_map; lia). unfold zn. rewrite nth_repeat. reflexivity.
  Qed.
End Bucket.
