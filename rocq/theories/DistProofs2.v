From Verif Require Import Base ArraysProofs SortModel SortSpec SortProofs SortProofs3 SortProofs4 SortModel2 DistProofs.
From Coq Require Import Sorted.

Section Loops.
  Context {A S : Type}.
  Notation arr := (list (option A)).
  Notation "a $ i" := (zn None a i) (at level 9, format "a $ i").

  Lemma forM_app {B} (l1 l2 : list B) (f : B -> S -> res S) st : forM (l1 ++ l2) f st = (st' <- forM l1 f st ;; forM l2 f st').
  Proof. revert st. induction l1 as [|b l1 IH]; intros st; [reflexivity|]. simpl. destruct (f b st); simpl; auto. Qed.

  (** a loop over the cells that skips None is a loop over the values *)
  Lemma loop_content (a : arr) (f : A -> S -> res S) s e st : 0 <= s -> e < len a ->
    forM (zrange s (e + 1)) (fun i st => x <- aget a i ;; match x with None => Ret st | Some v => f v st end) st = forM (content (seg a s e)) f st.
  Proof.
    intros Hs He. destruct (Z_lt_le_dec e s) as [H|H]; [rewrite zrange_nil, seg_empty by lia; reflexivity|].
    assert (G : forall hi, s - 1 <= hi -> hi <= e -> forM (zrange s (hi + 1)) (fun i st => x <- aget a i ;; match x with None => Ret st | Some v => f v st end) st = forM (content (seg a s hi)) f st).
    { apply (range_ind (fun hi => hi <= e -> forM (zrange s (hi + 1)) (fun i st => x <- aget a i ;; match x with None => Ret st | Some v => f v st end) st = forM (content (seg a s hi)) f st)).
      - intros _. rewrite zrange_nil, seg_empty by lia. reflexivity.
      - intros hi Hhi IH Hle. rewrite zrange_snoc by lia. replace (hi + 1 + 1 - 1) with (hi + 1) by lia. rewrite forM_app.
        rewrite IH by lia. rewrite (seg_snoc_c a s (hi + 1)) by lia. replace (hi + 1 - 1) with hi by lia. rewrite forM_app.
        destruct (forM (content (seg a s hi)) f st); simpl; auto. rewrite (aget_ok _ None) by lia. simpl.
        destruct (a$(hi + 1)) as [v|]; simpl; [|reflexivity]. destruct (f v a0); reflexivity. }
    apply G; lia.
  Qed.
  Lemma loop_content_down (a : arr) (f : A -> S -> res S) s e st : 0 <= s -> s <= e + 1 -> e < len a ->
    forM (zrange_down e (s - 1)) (fun i st => x <- aget a i ;; match x with None => Ret st | Some v => f v st end) st = forM (rev (content (seg a s e))) f st.
  Proof.
    intros Hs Hse He. assert (G : forall n e st, e < len a -> e = s - 1 + Z.of_nat n ->
      forM (zrange_down e (s - 1)) (fun i st => x <- aget a i ;; match x with None => Ret st | Some v => f v st end) st = forM (rev (content (seg a s e))) f st).
    { clear e Hse He st. induction n as [|n IH]; intros e st He En.
      - rewrite zrange_down_nil, seg_empty by lia. reflexivity.
      - rewrite zrange_down_cons by lia. rewrite (seg_snoc_c a s e) by lia. rewrite rev_app_distr, forM_app. cbn [forM].
        rewrite (aget_ok _ None) by lia. cbn [bind]. destruct (a$e) as [v|]; simpl.
        + destruct (f v st); simpl; auto. apply IH; lia.
        + apply IH; lia. }
    apply (G (Z.to_nat (e + 1 - s))); lia.
  Qed.
  Lemma seg_all (a : arr) : seg a 0 (len a - 1) = a.
  Proof. unfold seg, len. simpl. rewrite firstn_all2; [reflexivity|lia]. Qed.
  Lemma filter_content (a : arr) : filter (fun x => match x with Some _ => true | None => false end) a = map Some (content a).
  Proof. induction a as [|[x|] a IH]; [reflexivity| |]; simpl; [f_equal|]; exact IH. Qed.
End Loops.

Definition maxmin_step (v : Z) (st : option Z * option Z) : res (option Z * option Z) :=
  let '(max_val, min_val) := st in
  Ret (match max_val with None => Some v | Some m => if m <? v then Some v else Some m end,
       match min_val with None => Some v | Some m => if v <? m then Some v else Some m end).

Lemma maxmin_ok vals : forall M m, (M = None <-> m = None) ->
  wp (forM vals maxmin_step (M, m)) (fun '(M', m') => 
    match M', m' with
    | Some mx, Some mn => (forall v, In v vals -> mn <= v <= mx) /\ match M, m with Some x, Some n => x <= mx /\ mn <= n | _, _ => True end
        /\ (In mx vals \/ M = Some mx) /\ (In mn vals \/ m = Some mn)
    | _, _ => vals = [] /\ M = None
    end).
Proof.
  induction vals as [|v vals IH]; intros M m Hiff.
  - simpl. destruct M, m; simpl; auto.
    + split; [intros ? []|]. split; [lia|]. auto.
    + destruct Hiff as [_ Hiff]. specialize (Hiff eq_refl). discriminate.
  - cbn [forM]. apply wp_bind. cbn [maxmin_step wp].
    set (M1 := match M with Some m0 => if m0 <? v then Some v else Some m0 | None => Some v end).
    set (m1 := match m with Some m0 => if v <? m0 then Some v else Some m0 | None => Some v end).
    assert (E1 : exists x, M1 = Some x /\ v <= x /\ (match M with Some y => y <= x | None => True end) /\ (x = v \/ M = Some x)).
    { unfold M1. destruct M as [y|]; [destruct (Z.ltb_spec y v)|]; eexists; (split; [reflexivity|]); repeat split; try lia; auto. }
    assert (E2 : exists x, m1 = Some x /\ x <= v /\ (match m with Some y => x <= y | None => True end) /\ (x = v \/ m = Some x)).
    { unfold m1. destruct m as [y|]; [destruct (Z.ltb_spec v y)|]; eexists; (split; [reflexivity|]); repeat split; try lia; auto. }
    destruct E1 as (x & -> & Hx1 & Hx2 & Hx3), E2 as (n & -> & Hn1 & Hn2 & Hn3).
    eapply wp_mono; [apply (IH (Some x) (Some n)); split; discriminate|]. intros [[mx|] [mn|]]; try (intros [_ H]; discriminate).
    intros (H1 & (H2 & H3) & H4 & H5). split; [intros w [<-|Hw]; [lia|apply H1; exact Hw]|]. split; [destruct M, m; auto; lia|]. split.
    + destruct H4 as [H4|H4]; [left; right; exact H4|]. injection H4 as <-. destruct Hx3 as [->|]; [left; left; reflexivity|right; assumption].
    + destruct H5 as [H5|H5]; [left; right; exact H5|]. injection H5 as <-. destruct Hn3 as [->|]; [left; left; reflexivity|right; assumption].
Qed.

(** counting_sort: the values in sorted order *)
Lemma counting_ok (a : list (option Z)) : a <> [] -> wp (counting_sort a) (fun out =>
   (content a = [] -> out = a) /\
   (content a <> [] -> exists w, out = map Some w /\ Permutation (content a) w /\ StronglySorted Z.le w)).
Proof.
  intros Hne. assert (La : 0 < len a) by (destruct a; [contradiction|unfold len; simpl; lia]).
  unfold counting_sort. apply wp_bind, (wp_aget _ None); [lia|]. apply wp_bind.
  assert (Eall : content (seg a 0 (len a - 1)) = content a) by (rewrite seg_all; reflexivity).
  assert (E : forall (S : Type) (f : Z -> S -> res S) st, forM (zrange 0 (len a)) (fun i st => x <- aget a i ;; match x with None => Ret st | Some v => f v st end) st = forM (content a) f st).
  { intros S f st. rewrite <- Eall. rewrite <- loop_content by lia. f_equal. f_equal. lia. }
  assert (Em : forM (zrange 0 (len a)) (fun i '(max_val, min_val) =>
      x <- aget a i ;;
      match x with
      | None => Ret (max_val, min_val)
      | Some v =>
        Ret (match max_val with None => Some v | Some m => if m <? v then Some v else Some m end,
             match min_val with None => Some v | Some m => if v <? m then Some v else Some m end)
      end) (zn None a 0, zn None a 0) = forM (content a) maxmin_step (zn None a 0, zn None a 0)).
  { rewrite <- E. clear. generalize (zn None a 0, zn None a 0). induction (zrange 0 (len a)) as [|i l IH]; intros [M m]; [reflexivity|]. cbn [forM].
    destruct (aget a i) as [[v|]| |]; simpl; try reflexivity; apply IH. }
  rewrite Em. eapply wp_mono; [apply maxmin_ok; reflexivity|].
  assert (H0 : match zn None a 0 with Some v => In v (content a) | None => True end).
  { destruct (zn None a 0) as [v|] eqn:E0; [|exact I]. apply in_flat_map. exists (Some v). split; [|left; reflexivity].
    rewrite <- E0. unfold zn. apply nth_In. unfold len in La. lia. }
  intros [[mx|] [mn|]]; cbv beta iota.
  2-4: intros [Hc _]; split; [reflexivity|intros Hn; contradiction].
  intros (H1 & H2 & H3 & H4).
  assert (I3 : In mx (content a)) by (destruct H3 as [|H3]; [assumption|rewrite H3 in H0; exact H0]).
  assert (I4 : In mn (content a)) by (destruct H4 as [|H4]; [assumption|rewrite H4 in H0; exact H0]).
  clear H2 H3 H4 Em. set (key := fun v => v - mn). set (R := mx - mn + 1).
  assert (HR : forall v, In v (content a) -> 0 <= key v < R) by (intros v Hv; specialize (H1 v Hv); unfold key, R; lia).
  assert (HR0 : 0 <= R) by (pose proof (HR mx I3); lia).
  apply wp_bind. rewrite (E _ (fun v count => c <- lget count (key v) ;; aset count (key v) (c + 1))).
  eapply wp_mono; [apply (count_loop key R); exact HR|]. intros count (Lc & Hc). apply wp_bind.
  apply (wp_for_range _ _ _ _ (fun i '(cnt, total) => len cnt = R /\ total = len (dist key 0 i (content a)) /\
      (forall k, 0 <= k < i -> zn 0 cnt k = len (dist key 0 k (content a))) /\ (forall k, i <= k < R -> zn 0 cnt k = len (bkt key (content a) k)))).
  - split; [lia|]. split; [rewrite dist_nil by lia; reflexivity|]. split; [intros; lia|]. intros k Hk. apply Hc. lia.
  - intros i [cnt total] Hi (L & -> & H2 & H3). rewrite (lget_ok _ 0) by lia. cbn [bind]. apply wp_bind, wp_aset; [lia|]. simpl.
    rewrite len_zupd. split; [exact L|]. split; [rewrite lt_step by lia; rewrite H3 by lia; lia|]. split.
    + intros k Hk. destruct (Z.eq_dec i k) as [->|]; [rewrite zn_zupd_eq by lia; reflexivity|rewrite zn_zupd_ne by lia; apply H2; lia].
    + intros k Hk. rewrite zn_zupd_ne by lia. apply H3. lia.
  - intros [cnt total]. fold R. rewrite Z.max_r by lia. intros (L & _ & H2 & _). apply wp_bind.
    rewrite filter_content.
    assert (Ep : forall st, forM (zrange 0 (len a)) (fun i '(output, count) =>
        x <- aget a i ;;
        match x with
        | None => Ret (output, count)
        | Some v =>
          c <- lget count (v - mn) ;;
          output' <- aset output c (Some v) ;;
          count' <- aset count (v - mn) (c + 1) ;;
          Ret (output', count')
        end) st = forM (content a) (fun v '(output, count) => c <- lget count (key v) ;; output' <- aset output c (Some v) ;;
           count' <- aset count (key v) (c + 1) ;; Ret (output', count')) st).
    { intros st. rewrite <- E. revert st. clear E. induction (zrange 0 (len a)) as [|i l IH]; intros [o c]; [reflexivity|]. cbn [forM].
      destruct (aget a i) as [[v|]| |]; cbn [bind]; try reflexivity; [|apply IH].
      unfold key. destruct (lget c (v - mn)) as [c0| |]; cbn [bind]; try reflexivity. destruct (aset o c0 (Some v)) as [o'| |]; cbn [bind]; try reflexivity.
      destruct (aset c (v - mn) (c0 + 1)); cbn [bind]; try reflexivity. apply IH. }
    rewrite Ep. eapply wp_mono; [apply (place_forward key R); [exact HR0|exact HR|apply len_map|exact L|exact H2]|].
    intros [out c] ->. simpl. split; [intros Hn; rewrite Hn in I3; destruct I3|]. intros _.
    exists (dist key 0 R (content a)). split; [reflexivity|]. split; [apply dist_perm; assumption|].
    apply SS_impl_in with (R := fun x y => key x < key y \/ (key x = key y /\ True)).
    + intros x y _ _ H. unfold key in H. lia.
    + apply (dist_sorted key (fun _ _ => True)); [exact HR0|]. clear. induction (content a); constructor; auto. apply Forall_forall. auto.
Qed.

(** *** radix_sort *)
Section Radix.
  Notation arr := (list (option Z)).
  Notation "a $ i" := (zn None a i) (at level 9, format "a $ i").

  Lemma copy_back (a out : arr) s e : 0 <= s -> s <= e + 1 -> e < len a -> len out = e + 1 - s ->
    wp (forM (zrange 0 (e - s + 1)) (fun i array => x <- lget out i ;; aset array (s + i) x) a)
       (fun b => len b = len a /\ (forall i, 0 <= i -> i < s \/ e < i -> b$i = a$i) /\ seg b s e = out).
  Proof.
    intros Hs Hse He Lo.
    apply (wp_for_range _ _ _ _ (fun i b => len b = len a /\ (forall k, 0 <= k -> k < s \/ e < k -> b$k = a$k) /\ forall k, 0 <= k < i -> b$(s + k) = out$k)).
    - split; [reflexivity|]. split; [reflexivity|]. intros; lia.
    - intros i b Hi (L & F & H). rewrite (lget_ok _ None) by lia. cbn [bind]. apply wp_aset; [lia|]. rewrite len_zupd. split; [exact L|]. split.
      + intros k Hk Ho. rewrite zn_zupd_ne by lia. apply F; assumption.
      + intros k Hk. destruct (Z.eq_dec i k) as [->|]; [rewrite zn_zupd_eq by lia; reflexivity|rewrite zn_zupd_ne by lia; apply H; lia].
    - rewrite Z.max_r by lia. intros b (L & F & H). split; [exact L|]. split; [exact F|].
      apply (zn_ext _ None); [rewrite seg_len by lia; lia|]. intros k Hk. rewrite seg_len in Hk by lia. rewrite (zn_seg None) by lia. apply H. lia.
  Qed.

  Lemma radix_pass_ok (a : arr) s e exp : 0 <= s -> s <= e + 1 -> e < len a -> 0 < exp ->
    let key := fun v => (v / exp) mod 10 in
    wp (radix_pass a s e exp) (fun b => len b = len a /\ (forall i, 0 <= i -> i < s \/ e < i -> b$i = a$i) /\
      seg b s e = map Some (dist key 0 10 (content (seg a s e))) ++ repeat None (Z.to_nat (e + 1 - s - len (content (seg a s e))))).
  Proof.
    intros Hs Hse He Hexp key. unfold radix_pass. cbv zeta. set (vals := content (seg a s e)).
    assert (HR : forall v, In v vals -> 0 <= key v < 10) by (intros v _; apply Z.mod_pos_bound; lia).
    assert (Lv : len vals <= e + 1 - s) by (pose proof (content_length_le (seg a s e)) as C; rewrite seg_len in C by lia; exact C).
    apply wp_bind. rewrite (loop_content a (fun v count => c <- lget count (key v) ;; aset count (key v) (c + 1))) by assumption. fold vals.
    eapply wp_mono; [apply (count_loop key 10 vals HR)|]. rewrite Z.max_r by lia. intros count (Lc & Hc). apply wp_bind.
    apply (wp_for_range _ _ _ _ (fun i cnt => len cnt = 10 /\ (forall k, 0 <= k < i -> zn 0 cnt k = len (dist key 0 (k + 1) vals)) /\
       (forall k, i <= k < 10 -> zn 0 cnt k = len (bkt key vals k)))).
    - split; [exact Lc|]. split; [|intros; apply Hc; lia]. intros k Hk. replace k with 0 by lia. rewrite lt_step, dist_nil by lia. rewrite Hc by lia. reflexivity.
    - intros i cnt Hi (L & H2 & H3). rewrite !(lget_ok _ 0) by lia. cbn [bind]. apply wp_aset; [lia|]. rewrite len_zupd. split; [exact L|]. split.
      + intros k Hk. destruct (Z.eq_dec i k) as [->|].
        * rewrite zn_zupd_eq by lia. rewrite H3, H2, (lt_step key 0 k) by lia. replace (k - 1 + 1) with k by lia. lia.
        * rewrite zn_zupd_ne by lia. apply H2. lia.
      + intros k Hk. rewrite zn_zupd_ne by lia. apply H3. lia.
    - rewrite Z.max_r by lia. intros cnt (L & H2 & _). apply wp_bind.
      match goal with |- wp ?m _ => assert (Ep : m = forM (rev vals) (fun v '(output, count) => c <- lget count (key v) ;; count' <- aset count (key v) (c - 1) ;;
           c' <- lget count' (key v) ;; output' <- aset output c' (Some v) ;; Ret (output', count')) (repeat None (Z.to_nat (e - s + 1)), cnt)) end.
      { unfold vals. rewrite <- loop_content_down by assumption. generalize (repeat (@None Z) (Z.to_nat (e - s + 1)), cnt). clear.
        induction (zrange_down e (s - 1)) as [|i l IH]; intros [o c]; [reflexivity|]. cbn [forM].
        destruct (aget a i) as [[v|]| |]; cbn [bind]; try reflexivity; [|apply IH]. unfold key.
        destruct (lget c ((v / exp) mod 10)) as [c0| |]; cbn [bind]; try reflexivity. destruct (aset c ((v / exp) mod 10) (c0 - 1)) as [c1| |]; cbn [bind]; try reflexivity.
        destruct (lget c1 ((v / exp) mod 10)) as [c2| |]; cbn [bind]; try reflexivity. destruct (aset o c2 (Some v)); cbn [bind]; try reflexivity. apply IH. }
      rewrite Ep. eapply wp_mono; [apply (place_backward key 10 vals (e - s + 1)); [lia|exact HR|lia|exact L|exact H2]|].
      intros [out c] ->. eapply wp_mono; [apply copy_back; try lia|].
      + rewrite len_app, len_map, len_repeat. pose proof (dist_perm key 0 10 vals ltac:(lia) HR) as P. apply Permutation_length in P. unfold len in *. lia.
      + intros b (L1 & L2 & L3). split; [exact L1|]. split; [exact L2|]. rewrite L3. do 2 f_equal. lia.
  Qed.

  Lemma content_map_app w n : content (map Some w ++ repeat (@None Z) n) = w.
  Proof. rewrite content_app, content_map_some, content_repeat, app_nil_r. reflexivity. Qed.

  Lemma radix_ok (a : arr) s e : 0 <= s -> s <= e -> e < len a -> a$s <> None ->
    (forall i v, s <= i <= e -> a$i = Some v -> 0 <= v) ->
    ((exists i v, s <= i <= e /\ a$i = Some v /\ 0 < v) \/ (forall i, s <= i <= e -> a$i <> None)) ->
    wp (radix_sort a s e) (sorts Z.le a s e).
  Proof.
    intros Hs Hse He H0 Hnn Hcase. unfold radix_sort. apply wp_bind, (wp_aget _ None); [lia|]. apply wp_bind.
    apply (wp_for_range _ _ _ _ (fun i M => exists mx, M = Some mx /\ (forall k v, s <= k < i -> a$k = Some v -> v <= mx) /\ exists k, s <= k <= e /\ a$k = Some mx)).
    - destruct (a$s) as [v|] eqn:Es; [|contradiction]. exists v. split; [reflexivity|]. split; [intros k w Hk Ek; replace k with s in Ek by lia; rewrite Es in Ek; injection Ek; lia|].
      exists s. split; [lia|exact Es].
    - intros i M Hi (mx & -> & H1 & H2). apply wp_bind, (wp_aget _ None); [lia|]. destruct (a$i) as [v|] eqn:Ei; simpl.
      + destruct (Z.ltb_spec mx v).
        * exists v. split; [reflexivity|]. split; [|exists i; split; [lia|exact Ei]]. intros k w Hk Ek. destruct (Z.eq_dec k i) as [->|]; [rewrite Ei in Ek; injection Ek; lia|].
          specialize (H1 k w ltac:(lia) Ek). lia.
        * exists mx. split; [reflexivity|]. split; [|exact H2]. intros k w Hk Ek. destruct (Z.eq_dec k i) as [->|]; [rewrite Ei in Ek; injection Ek; lia|].
          apply (H1 k w ltac:(lia) Ek).
      + exists mx. split; [reflexivity|]. split; [|exact H2]. intros k w Hk Ek. destruct (Z.eq_dec k i) as [->|]; [congruence|]. apply (H1 k w ltac:(lia) Ek).
    - rewrite Z.max_r by lia. intros M (mx & -> & H1 & km & Hkm & Ekm).
      assert (Hmx : 0 <= mx) by (eapply Hnn; [|exact Ekm]; lia).
      set (vals := content (seg a s e)).
      assert (Hin : forall v, In v vals -> exists i, s <= i <= e /\ a$i = Some v).
      { intros v Hv. apply in_flat_map in Hv. destruct Hv as (o & Ho & Hv). destruct o as [o|]; [|destruct Hv]. destruct Hv as [->|[]].
        apply (In_nth _ _ None) in Ho. destruct Ho as (n & Hn & En). pose proof (seg_len a s e Hs ltac:(lia) He) as SL. unfold len in SL.
        exists (s + Z.of_nat n). split; [lia|]. rewrite <- (zn_seg None a s e) by lia. unfold zn. rewrite Nat2Z.id. exact En. }
      assert (Hv : forall v, In v vals -> 0 <= v <= mx).
      { intros v Hv. destruct (Hin v Hv) as (i & Hi & Ei). split; [eapply Hnn; eauto|]. eapply H1; [|exact Ei]. lia. }
      eapply wp_while with (m := fun '(b, exp) => Z.to_nat (Z.log2 mx + 1 - Z.log2 exp))
        (I := fun '(b, exp) => 1 <= exp /\ len b = len a /\ (forall i, 0 <= i -> i < s \/ e < i -> b$i = a$i) /\
           Permutation vals (content (seg b s e)) /\ StronglySorted (fun x y => x mod exp <= y mod exp) (content (seg b s e)) /\
           ((exp = 1 /\ b = a) \/ seg b s e = map Some (content (seg b s e)) ++ repeat None (Z.to_nat (e + 1 - s - len (content (seg b s e)))))).
      + intros [b exp] (Hexp & L & F & P & S & HC). destruct (Z.ltb_spec 0 (mx / exp)) as [Hlt|Hge].
        * apply wp_bind. eapply wp_mono; [apply (radix_pass_ok b s e exp); lia|]. intros c (L1 & F1 & E1). cbv zeta in E1.
          set (key := fun v => (v / exp) mod 10) in *. set (vb := content (seg b s e)) in *.
          assert (PD : Permutation vb (dist key 0 10 vb)).
          { apply dist_perm; [lia|]. intros v _. unfold key. apply Z.mod_pos_bound. lia. }
          assert (Ec : content (seg c s e) = dist key 0 10 vb) by (rewrite E1; apply content_map_app).
          simpl. rewrite !Ec. split.
          -- split; [lia|]. split; [lia|]. split; [intros i Hi Ho; rewrite F1, F by assumption; reflexivity|]. split; [rewrite <- PD; exact P|]. split.
             ++ apply SS_impl_in with (R := fun x y => key x < key y \/ (key x = key y /\ x mod exp <= y mod exp)); [|apply dist_sorted; [lia|exact S]].
                intros x y _ _ H. unfold key in H. rewrite !Z.rem_mul_r by lia.
                pose proof (Z.mod_pos_bound x exp ltac:(lia)). pose proof (Z.mod_pos_bound y exp ltac:(lia)). nia.
             ++ right. rewrite E1. do 2 f_equal. apply Permutation_length in PD. unfold len. rewrite <- PD. reflexivity.
          -- assert (exp <= mx). { destruct (Z_lt_le_dec mx exp); [|assumption]. rewrite Z.div_small in Hlt by lia. lia. }
             assert (Z.log2 exp <= Z.log2 mx) by (apply Z.log2_le_mono; lia).
             assert (Z.log2 exp + 1 <= Z.log2 (exp * 10)).
             { replace (Z.log2 exp + 1) with (Z.succ (Z.log2 exp)) by lia. rewrite <- Z.log2_double by lia. apply Z.log2_le_mono. lia. }
             pose proof (Z.log2_nonneg exp). lia.
        * assert (mx < exp). { destruct (Z_lt_le_dec mx exp); [assumption|]. assert (1 <= mx / exp) by (apply Z.div_le_lower_bound; lia). lia. }
          simpl. apply (finish_sorts Z.le Z.le_refl a b s e (content (seg b s e))); auto; try lia.
          -- apply SS_impl_in with (R := fun x y => x mod exp <= y mod exp); [|exact S].
             intros x y Hx Hy HR. apply (Permutation_in _ (Permutation_sym P)) in Hx, Hy. rewrite !Z.mod_small in HR by (pose proof (Hv x Hx); pose proof (Hv y Hy); lia). exact HR.
          -- destruct HC as [[-> ->]|HC]; [|exact HC]. assert (mx = 0) by lia. subst mx.
             destruct Hcase as [(i & v & Hi & Ei & Hpos)|Hfull]; [specialize (H1 i v ltac:(lia) Ei); lia|].
             assert (Efull : seg a s e = map Some vals).
             { unfold vals. clear -Hfull Hs Hse He. assert (HA : forall o, In o (seg a s e) -> o <> None).
               { intros o Ho. apply (In_nth _ _ None) in Ho. destruct Ho as (n & Hn & <-). pose proof (seg_len a s e Hs ltac:(lia) He) as SL. unfold len in SL.
                 replace n with (Z.to_nat (Z.of_nat n)) by lia. fold (zn None (seg a s e) (Z.of_nat n)). rewrite (zn_seg None) by lia. apply Hfull. lia. }
               induction (seg a s e) as [|[x|] l IH]; [reflexivity| |exfalso; apply (HA None); [left; reflexivity|reflexivity]].
               simpl. f_equal. apply IH. intros o Ho. apply HA. right. exact Ho. }
             fold vals. rewrite Efull at 1. assert (len vals = e + 1 - s) by (pose proof (seg_len a s e Hs ltac:(lia) He) as SL; rewrite Efull, len_map in SL; exact SL).
             replace (Z.to_nat (e + 1 - s - len vals)) with 0%nat by lia. rewrite app_nil_r. reflexivity.
      + split; [lia|]. split; [reflexivity|]. split; [reflexivity|]. split; [reflexivity|]. split; [|left; split; reflexivity].
        fold vals. clear. induction vals; constructor; auto. apply Forall_forall. intros y _. rewrite !Z.mod_1_r. lia.
      + change (Z.log2 1) with 0. pose proof (Z.log2_nonneg mx). lia.
  Qed.
End Radix.
