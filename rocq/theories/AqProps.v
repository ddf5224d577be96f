(** C08, C10: how far ArrayQueue can be trusted, exactly. Specifications: StackQueueSpec.v (deque_spec), AqSpec.v (place_run). *)
From Verif Require Import Base StackQueueModel StackQueueSpec LinkedProofs ArraysModel ArraysProofs StackQueueProofs MatProofs PrintModel AqSpec AqProofs.

(** C08, C10. A history that [place_run] follows to its end is answered like a deque: all operations, from both ends. *)
Theorem C10_array_deque_partial : forall (A : Type) (items : list A) (de : bool) (ops : list (queue_op A)),
  place_run de ops items (place0 items) <> None ->
  snd (run_hist aq_step ops (aq_new items de)) = snd (run_hist (deque_spec de) ops items).
Proof.
  intros A items de ops H. pose proof (aq_at_new items de) as N. assert (E : q_de (aq_new items de) = de) by (unfold aq_new; destruct items; reflexivity).
  destruct (place0 items) as [[f r] cap]. destruct (place_run de ops items (f, r, cap)) as [[l [[f' r'] cap']]|] eqn:P; [|contradiction].
  rewrite <- E in P. pose proof (at_run ops _ _ _ _ _ _ _ _ _ N P) as S. rewrite E in S. apply S.
Qed.
Print Assumptions C10_array_deque_partial.
(** C08, C10. The condition is exact: when [place_run] stops at an operation, that operation or the popleft after it is answered wrongly
    (if the deque then holds no item twice). *)
Theorem C10_array_deque_exact_partial : forall (A : Type) (items : list A) (de : bool) (ops : list (queue_op A)) (o : queue_op A),
  place_run de ops items (place0 items) <> None -> place_run de (ops ++ [o]) items (place0 items) = None ->
  NoDup (fst (run_hist (deque_spec de) (ops ++ [o]) items)) ->
  snd (run_hist aq_step (ops ++ [o; QPopLeft]) (aq_new items de)) <> snd (run_hist (deque_spec de) (ops ++ [o; QPopLeft]) items).
Proof.
  intros A items de ops o H1 H2 ND K. pose proof (aq_at_new items de) as N. assert (E : q_de (aq_new items de) = de) by (unfold aq_new; destruct items; reflexivity).
  destruct (place0 items) as [[f r] cap]. destruct (place_run de ops items (f, r, cap)) as [[l [[f' r'] cap']]|] eqn:P; [|contradiction].
  assert (Pl : place_step de l (f', r', cap') o = None).
  { clear - P H2. revert P H2. generalize (f, r, cap) as p. revert items. induction ops as [|o1 ops IH]; intros items p P H2; cbn [app place_run] in *.
    - injection P as -> ->. destruct (place_step de l (f', r', cap') o); [discriminate H2|reflexivity].
    - destruct (place_step de items p o1); [eapply IH; eassumption|discriminate P]. }
  rewrite <- E in P. destruct (at_run ops _ _ _ _ _ _ _ _ _ N P) as (S1 & S2 & S3 & S4). rewrite E in *.
  rewrite !run_hist_app in K. rewrite run_hist_app in ND. cbn [snd fst] in K, ND. rewrite S1 in K. apply app_inv_head in K. rewrite <- S2 in K, ND.
  pose proof (at_step_wrong _ _ _ _ _ o S3) as W. rewrite S4 in W. apply (W Pl); [|exact K]. cbn [run_hist] in ND. destruct (deque_spec _ l o); exact ND.
Qed.
Print Assumptions C10_array_deque_exact_partial.
(** C08. Used as a queue (append and popleft only): wrong only when an append meets a full array whose dead front is more than one cell longer than the
    queue; every such history is answered right up to that append, whatever the items. *)
Theorem C08_array_queue_fifo_exact_partial : forall (A : Type) (items : list A) (ops : list (queue_op A)) (x : A) l f r cap,
  place_run false ops items (place0 items) = Some (l, (f, r, cap)) ->
  (snd (run_hist aq_step (ops ++ [QAppend x; QPopLeft]) (aq_new items false)) = snd (run_hist (deque_spec false) (ops ++ [QAppend x; QPopLeft]) items)
   <-> ~ (l <> [] /\ f + len l = cap /\ len l + 2 <= f)).
Proof.
  intros A items ops x l f r cap P. pose proof (aq_at_new items false) as N. assert (E : q_de (aq_new items false) = false) by (unfold aq_new; destruct items; reflexivity).
  split.
  - intros K (L & F1 & F2). destruct (place0 items) as [[f0 r0] cap0]. rewrite <- E in P. destruct (at_run ops _ _ _ _ _ _ _ _ _ N P) as (S1 & S2 & S3 & S4). rewrite E in *.
    rewrite !run_hist_app in K. cbn [snd] in K. rewrite S1 in K. apply app_inv_head in K. rewrite <- S2 in K.
    pose proof (at_append _ _ _ _ _ x S3) as St. rewrite S4 in St. destruct l as [|y l]; [contradiction|]. unfold place_step in St.
    rewrite (proj2 (Z.eqb_eq _ _) F1), (proj2 (Z.leb_le _ _) F2) in St. destruct St as (q' & Ea & St).
    cbn [run_hist aq_step deque_spec] in K. rewrite Ea in K. cbn [out_of app] in K. destruct (aq_popleft q') as [[q2 a2]| |] eqn:Ep; cbn [out_of snd] in K; try discriminate K.
    injection K as ->. exact (St _ _ eq_refl).
  - intros Nb. apply C10_array_deque_partial. destruct (place0 items) as [p0 cap0].
    assert (G : forall ops items p, place_run false ops items p = Some (l, (f, r, cap)) -> place_run false (ops ++ [QAppend x; QPopLeft]) items p <> None).
    { clear - Nb. induction ops as [|o ops IH]; intros items p P; cbn [app place_run] in *.
      - injection P as -> ->. assert (X : exists p', place_step false l (f, r, cap) (QAppend x) = Some p').
        { unfold place_step. destruct l as [|y l]; [eauto|]. destruct (Z.eqb_spec (f + len (y :: l)) cap); [|eauto]. destruct (Z.leb_spec (len (y :: l) + 2) f); [|eauto]. exfalso. apply Nb. split; [discriminate|auto]. }
        destruct X as (p' & ->). cbn [deque_spec fst place_run]. destruct p' as [[f1 r1] cap1]. cbn [place_step]. destruct (l ++ [x]); discriminate.
      - destruct (place_step false items p o); [eapply IH; eassumption|discriminate P]. }
    apply G. exact P.
Qed.
Print Assumptions C08_array_queue_fifo_exact_partial.
(** a deque history with removals at both ends, and the two ways in which it can stop *)
Example C10_place_case :
  place_run true [QAppend 1; QAppend 2; QAppend 3; QPop; QAppendLeft 5; QAppend 6; QPop; QPopLeft; QPopLeft; QPopLeft; QPopLeft; QAppendLeft 7; QAppend 8; QPop; QLen] [] (place0 ([] : list Z)) = Some ([7], (0, 0, 3)) /\
  (exists p, place_run true [QAppend 1; QAppend 2; QAppend 3; QPopLeft] [] (place0 ([] : list Z)) = Some ([2; 3], p)) /\
  place_run true [QAppend 1; QAppend 2; QAppend 3; QPopLeft; QAppendLeft 9] [] (place0 ([] : list Z)) = None /\
  (exists p, place_run false [QAppend 1; QAppend 2; QAppend 3; QAppend 4; QAppend 5; QAppend 6; QAppend 7; QPopLeft; QPopLeft; QPopLeft; QPopLeft; QPopLeft] [] (place0 ([] : list Z)) = Some ([6; 7], p)) /\
  place_run false [QAppend 1; QAppend 2; QAppend 3; QAppend 4; QAppend 5; QAppend 6; QAppend 7; QPopLeft; QPopLeft; QPopLeft; QPopLeft; QPopLeft; QAppend 8] [] (place0 ([] : list Z)) = None.
Proof. repeat apply conj; try (eexists; vm_compute; reflexivity); vm_compute; reflexivity. Qed.

(** C131. When a queue that is not empty prints its items: exactly when its rear index is right. *)
Theorem C131_array_queue_print_exact_partial : forall (A : Type) (items : list A) (de : bool) (ops : list (queue_op A)) l f r cap,
  place_run de ops items (place0 items) = Some (l, (f, r, cap)) -> l <> [] ->
  l = fst (run_hist (deque_spec de) ops items) /\
  (aq_printed (fst (run_hist aq_step ops (aq_new items de))) = Ret (map Some l) <-> r = f + len l - 1).
Proof.
  intros A items de ops l f r cap P Hne. pose proof (aq_at_new items de) as N. assert (E : q_de (aq_new items de) = de) by (unfold aq_new; destruct items; reflexivity).
  destruct (place0 items) as [[f0 r0] cap0]. rewrite <- E in P. destruct (at_run ops _ _ _ _ _ _ _ _ _ N P) as (S1 & S2 & S3 & S4). rewrite E in *. split; [exact S2|].
  clear S1 S2 S4. revert S3. generalize (fst (run_hist aq_step ops (aq_new items de))) as q. intros q [(c & R0) Hf Hr Hcap]. pose proof (aq_rel_front _ _ _ _ R0) as R.
  destruct (ar_cells _ _ _ _ R Hne) as (E1 & E2 & E3 & E4 & E5). pose proof (ar_inv _ _ _ _ R) as I. pose proof (di_last _ I) as Hl0. pose proof (di_size _ I) as Hs0.
  unfold aq_printed. rewrite Hf, Hr. split.
  - intros K.
    assert (G : forall L acc out, forM L (fun i out => x <- lget (d_data (q_items q)) i ;; Ret (out ++ [x])) acc = Ret out -> length out = (length acc + length L)%nat).
    { induction L as [|i L IH]; intros acc out K'; cbn [forM bind] in K'; [injection K' as <-; simpl; lia|].
      destruct (lget (d_data (q_items q)) i) as [x| |]; cbn [bind] in K'; try discriminate K'. apply IH in K'. rewrite app_length in K'. simpl in *. lia. }
    apply G in K. rewrite map_length, zrange_length in K. simpl in K. assert (0 < len l) by (destruct l; [contradiction|rewrite len_cons; pose proof (len_nonneg _ l); lia]). unfold len in *. lia.
  - intros Er. replace (r + 1) with (f + len l) by lia.
    assert (Loop : forall n, (n <= length l)%nat -> forM (zrange f (f + Z.of_nat n)) (fun i out => x <- lget (d_data (q_items q)) i ;; Ret (out ++ [x])) [] = Ret (map Some (firstn n l))).
    { induction n as [|n IH]; intros Hn'; [rewrite Z.add_0_r; unfold zrange; rewrite Z.sub_diag; reflexivity|].
      replace (f + Z.of_nat (S n)) with (f + Z.of_nat n + 1) by lia. rewrite (zrange_snoc _ (f + Z.of_nat n + 1)), Z.add_simpl_r by lia. rewrite forM_app, IH by lia. cbn [forM bind].
      rewrite (lget_ok _ None) by (unfold len in *; lia). cbn [bind]. rewrite E5 by (unfold len in *; lia). replace (Z.to_nat (f + Z.of_nat n - q_front q)) with n by lia.
      destruct (nth_error l n) as [w|] eqn:Ew; [|apply nth_error_None in Ew; lia]. apply nth_error_split in Ew as (l1 & l2 & -> & El). subst n. f_equal.
      rewrite !firstn_app, Nat.sub_diag. replace (S (length l1) - length l1)%nat with 1%nat by lia. rewrite firstn_all2 by lia. rewrite (firstn_all2 l1) by lia. cbn [firstn]. rewrite app_nil_r, map_app. reflexivity. }
    specialize (Loop (length l) (le_n _)). rewrite firstn_all in Loop. exact Loop.
Qed.
Print Assumptions C131_array_queue_print_exact_partial.
Example C131_exact_case : exists p1 p2, place_run true [QAppend 1; QAppend 2; QAppend 3; QPopLeft; QPop] [] (place0 ([] : list Z)) = Some ([2], p1) /\
  place_run true [QAppend 1; QAppend 2; QAppend 3; QAppend 4; QAppend 5; QAppend 6; QAppend 7; QPopLeft; QPopLeft; QPopLeft; QPopLeft; QPopLeft; QPopLeft] [] (place0 ([] : list Z)) = Some ([7], p2) /\
  snd (fst p1) = fst (fst p1) /\ snd (fst p2) <> fst (fst p2).
Proof. eexists. eexists. split; [vm_compute; reflexivity|]. split; [vm_compute; reflexivity|]. split; [reflexivity|discriminate]. Qed.
