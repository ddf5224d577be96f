From Verif Require Import Base ArraysModel ArraysProofs LinkedModel LinkedProofs StackQueueModel StackQueueSpec StackQueueProofs PrintModel PrintSpec.

Section AQ.
  Context {A : Type}.
  Record aq_exact (q : aqueue A) (l : list A) (c : Z) (any : bool) : Prop := {
    ae_rel : aq_rel q l c any; ae_c : 0 <= c <= len l;
    ae_empty : l = [] -> q_rear q = -1;
    ae_rear : l <> [] -> q_rear q = d_last (q_items q) /\ d_size (q_items q) <= 2 * (len l + c) - 1 }.

  Lemma modify_keep (d d' : doda A) : doda_modify d = Ret d' -> d_ln d * d_size d <= d_num d * d_ld d -> d' = d.
  Proof.
    unfold doda_modify. intros E H. destruct (d_size d =? 0); [discriminate|]. destruct (Z.ltb_spec (d_num d * d_ld d) (d_ln d * d_size d)); [lia|]. congruence.
  Qed.
  Lemma exact_append q l c any x : aq_exact q l c any -> exists q', aq_append q x = Ret (q', OUnit) /\ aq_exact q' (l ++ [x]) c any /\ q_de q' = q_de q.
  Proof.
    intros [R Hc He Hr]. destruct (aq_append_ok q l c any x R ltac:(lia)) as (q' & E & R' & Ede). exists q'. split; [exact E|]. split; [|exact Ede].
    pose proof (ar_inv _ _ _ _ R) as I. pose proof (di_num _ I) as Hn. rewrite (ar_content _ _ _ _ R) in Hn. destruct (ar_lf _ _ _ _ R) as (L1 & L2).
    assert (EM : aq_is_empty q = match l with [] => true | _ => false end) by (unfold aq_is_empty; rewrite Hn; apply size0).
    unfold aq_append in E. rewrite EM in E. destruct (doda_append_raw (q_items q) x I) as (data1 & size1 & Ea & I1 & Sz & Ec & _). rewrite Ea in E.
    set (d1 := Doda data1 size1 (d_num (q_items q) + 1) (d_last (q_items q) + 1) (d_ln (q_items q)) (d_ld (q_items q))) in *.
    destruct (doda_modify d1) as [d'| |] eqn:Em; try discriminate. cbn [bind] in E. injection E as <-.
    assert (SB : size1 <= 2 * (len l + 1 + c) - 1).
    { destruct l as [|v l0].
      - destruct (ar_empty _ _ _ _ R eq_refl) as (E1 & E2 & E3 & E4). rewrite len_nil in *. lia.
      - destruct (Hr ltac:(discriminate)) as (E1 & E2). destruct (ar_cells _ _ _ _ R ltac:(discriminate)) as (F1 & F2 & F3 & F4 & _). lia. }
    assert (d' = d1). { apply modify_keep; [exact Em|]. unfold d1; cbn [d_ln d_ld d_size d_num]. rewrite L1, L2, Hn. lia. } subst d'.
    assert (LA : len (l ++ [x]) = len l + 1) by (rewrite len_app; reflexivity).
    split; [exact R'|lia|intros X; destruct l; discriminate|]. intros _. cbn [q_items q_rear]. unfold d1 at 1 2; cbn [d_last d_size]. rewrite LA. split; [|lia].
    destruct l as [|v l0]; [|destruct (Hr ltac:(discriminate)); lia]. destruct (ar_empty _ _ _ _ R eq_refl) as (E1 & _). rewrite (He eq_refl), E1. reflexivity.
  Qed.
  Lemma exact_appendleft q l c x : aq_exact q l c false -> q_de q = true -> exists q', aq_appendleft q x = Ret (q', OUnit) /\ aq_exact q' (x :: l) c false /\ q_de q' = q_de q.
  Proof.
    intros [R Hc He Hr] Hde. destruct (aq_appendleft_ok q l c x R Hde) as (q' & E & R' & Ede). exists q'. split; [exact E|]. split; [|exact Ede].
    destruct (ar_any _ _ _ _ R' eq_refl) as (C0 & Rr). rewrite len_cons in Rr. pose proof (len_nonneg _ l).
    split; [exact R'|rewrite len_cons; lia|discriminate|]. intros _. destruct (ar_cells _ _ _ _ R' ltac:(discriminate)) as (F1 & F2 & F3 & F4 & _). rewrite len_cons in *.
    split; [lia|]. unfold aq_appendleft in E. rewrite Hde in E. cbn [negb] in E.
    match type of E with bind ?m _ = _ => destruct m as [temp| |]; try discriminate end. cbn [bind] in E. injection E as <-. cbn [q_items] in *.
    pose proof (ar_content _ _ _ _ R') as EC. cbn [q_items] in EC. unfold doda_new_list in EC; cbn [d_data] in EC. rewrite content_map_some in EC. subst temp. unfold doda_new_list; cbn [d_size]. rewrite len_cons. lia.
  Qed.
  Lemma exact_popleft q v l c any : aq_exact q (v :: l) c any -> (l <> [] -> c + 1 <= len l) ->
    exists q', aq_popleft q = Ret (q', OVal (Some v)) /\ aq_exact q' l (match l with [] => 0 | _ => c + 1 end) true /\ q_de q' = q_de q.
  Proof.
    intros [R Hc He Hr] HL. destruct (aq_popleft_ok q v l c any R) as (q' & E & R' & Ede). exists q'. split; [exact E|]. split; [|exact Ede].
    pose proof (ar_inv _ _ _ _ R) as I. pose proof (di_num _ I) as Hn. rewrite (ar_content _ _ _ _ R), len_cons in Hn. destruct (ar_lf _ _ _ _ R) as (L1 & L2).
    destruct (ar_cells _ _ _ _ R ltac:(discriminate)) as (F1 & F2 & F3 & F4 & F5). destruct (Hr ltac:(discriminate)) as (E1 & E2). rewrite len_cons in *. pose proof (len_nonneg _ l) as HN.
    assert (Ev : zn None (d_data (q_items q)) (q_front q) = Some v). { rewrite F5 by lia. rewrite Z.sub_diag. reflexivity. }
    destruct (doda_delete_raw (q_items q) (q_front q) v I ltac:(lia) Ev) as (Eg & Ed & I1 & Ec1).
    unfold aq_popleft in E. unfold aq_is_empty in E. rewrite (proj2 (Z.eqb_neq (d_num (q_items q)) 0)) in E by lia. rewrite Eg in E. cbn [bind] in E.
    destruct l as [|w l].
    - rewrite len_nil in *. rewrite (proj2 (Z.eqb_eq (q_front q) (q_rear q))) in E by lia. cbn [bind] in E. destruct (doda_delete (q_items q) (q_front q)) as [d'| |]; try discriminate. cbn [bind] in E. injection E as <-.
      split; [exact R'|rewrite len_nil; lia|reflexivity|easy].
    - specialize (HL ltac:(discriminate)). rewrite (proj2 (Z.eqb_neq (q_front q) (q_rear q))) in E by (rewrite len_cons in *; pose proof (len_nonneg _ l); lia).
      unfold aq_will_shrink in E. rewrite (proj2 (Z.eqb_neq (d_size (q_items q)) 0)) in E by (pose proof (di_last _ I); lia). cbn [bind] in E. rewrite L1, L2 in E.
      assert (NS : ((d_num (q_items q) - 1) * 4 <? 1 * d_size (q_items q)) = false) by (apply Z.ltb_ge; lia). rewrite NS in E. rewrite Ed in E.
      match type of E with bind (doda_modify ?d) _ = _ => destruct (doda_modify d) as [d'| |] eqn:Em; try discriminate; set (d1 := d) in * end. cbn [bind] in E. injection E as <-.
      assert (d' = d1). { apply modify_keep; [exact Em|]. unfold d1; cbn [d_ln d_ld d_size d_num]. rewrite L1, L2. lia. } subst d'.
      destruct (ar_cells _ _ _ _ R' ltac:(discriminate)) as (G1 & G2 & _). cbn [q_items q_front] in G2.
      split; [exact R'|lia|discriminate|]. intros _. cbn [q_items q_rear]. split; [lia|]. unfold d1; cbn [d_size]. lia.
  Qed.
  Lemma exact_new items de : aq_exact (aq_new items de) items 0 false.
  Proof.
    pose proof (aq_new_rel items de) as R. pose proof (len_nonneg _ items). split; [exact R|lia| |].
    - intros ->. reflexivity.
    - intros NE. destruct (ar_any _ _ _ _ R eq_refl) as (_ & E). destruct (ar_cells _ _ _ _ R NE) as (F1 & F2 & F3 & F4 & _).
      split; [|]; destruct items as [|x items]; try easy; cbn [aq_new q_items q_rear doda_new_list d_last d_size] in *; rewrite len_cons in *; pose proof (len_nonneg _ items); lia.
  Qed.
  Lemma exact_run ops : forall q l c any, aq_exact q l c any -> aq_print_ok (q_de q) ops l c any ->
    snd (run_hist aq_step ops q) = snd (run_hist (deque_spec (q_de q)) ops l) /\
    exists c' any', aq_exact (fst (run_hist aq_step ops q)) (fst (run_hist (deque_spec (q_de q)) ops l)) c' any'.
  Proof.
    induction ops as [|o ops IH]; intros q l c any R H; [split; [reflexivity|eauto]|]. cbn [run_hist].
    pose proof (ar_inv _ _ _ _ (ae_rel _ _ _ _ R)) as I. pose proof (di_num _ I) as Hn. rewrite (ar_content _ _ _ _ (ae_rel _ _ _ _ R)) in Hn.
    assert (He : aq_is_empty q = match l with [] => true | _ => false end) by (unfold aq_is_empty; rewrite Hn; apply size0).
    assert (GO : forall q' l' c' any' r, q_de q' = q_de q -> aq_exact q' l' c' any' -> aq_print_ok (q_de q) ops l' c' any' ->
       snd (let (s2, rs) := run_hist aq_step ops q' in (s2, r :: rs)) = snd (let (s2, rs) := run_hist (deque_spec (q_de q)) ops l' in (s2, r :: rs)) /\
       exists c' any', aq_exact (fst (let (s2, rs) := run_hist aq_step ops q' in (s2, r :: rs))) (fst (let (s2, rs) := run_hist (deque_spec (q_de q)) ops l' in (s2, r :: rs))) c' any').
    { intros q' l' c' any' r Ede R' Hok. rewrite <- Ede in Hok. destruct (IH q' l' c' any' R' Hok) as (E1 & E2). rewrite Ede in E1, E2. destruct (run_hist aq_step ops q'), (run_hist (deque_spec (q_de q)) ops l'); cbn [fst snd] in *. split; [congruence|exact E2]. }
    destruct o as [x|x| | | |]; cbn [aq_print_ok] in H; cbn [aq_step deque_spec].
    - destruct (exact_append q l c any x R) as (q' & E & R' & Ede). rewrite E. cbn [out_of]. apply (GO q' _ c any); assumption.
    - destruct (q_de q) eqn:Hde.
      + destruct H as [-> H]. destruct (exact_appendleft q l c x R Hde) as (q' & E & R' & Ede). rewrite E. cbn [out_of]. rewrite Hde in Ede. apply (GO q' _ c false); assumption.
      + unfold aq_appendleft. rewrite Hde. cbn [negb out_of]. apply (GO q l c any); assumption.
    - destruct l as [|v l].
      + unfold aq_popleft. rewrite He. cbn [out_of]. assert (Hc0 : c = 0) by (apply (ar_empty _ _ _ _ (ae_rel _ _ _ _ R)); reflexivity). rewrite Hc0 in *. apply (GO q [] 0 any); auto.
      + destruct (exact_popleft q v l c any R) as (q' & E & R' & Ede); [destruct l; [easy|intros _; apply H]|]. rewrite E. cbn [out_of].
        apply (GO q' _ _ true _ Ede R'). destruct l; [exact H|apply H].
    - destruct H as [Hd H]. unfold aq_pop. destruct (q_de q) eqn:Hde.
      + destruct Hd as [Hd| ->]; [discriminate|]. rewrite He. cbn [negb out_of last_error rev hd_error]. apply (GO q [] c any); auto.
      + cbn [negb out_of]. apply (GO q l c any); auto.
    - rewrite Hn. apply (GO q l c any); auto.
    - rewrite He. apply (GO q l c any); auto.
  Qed.
  Lemma exact_printed q l c any : aq_exact q l c any -> l <> [] -> aq_printed q = Ret (map Some l).
  Proof.
    intros [R Hc He Hr] NE. pose proof (ar_inv _ _ _ _ R) as I. pose proof (di_size _ I) as Hs. pose proof (di_last _ I) as Hl. destruct (ar_cells _ _ _ _ R NE) as (F1 & F2 & F3 & F4 & F5). destruct (Hr NE) as (E1 & _).
    unfold aq_printed. rewrite E1, F2.
    match goal with |- ?m = Ret ?x => assert (W : wp m (fun r => r = x)) end; [|apply wp_ex in W; destruct W as (r & E & ->); exact E].
    apply wp_for_range with (I := fun i out => out = map Some (firstn (Z.to_nat (i - q_front q)) l)).
    - rewrite Z.sub_diag. reflexivity.
    - intros i out Hi ->. rewrite (lget_ok _ None) by lia. cbn [bind]. apply wp_ret. rewrite F5 by lia. destruct (nth_error l (Z.to_nat (i - q_front q))) as [w|] eqn:Ew; [|apply nth_error_None in Ew; unfold len in *; lia].
      replace (Z.to_nat (i + 1 - q_front q)) with (S (Z.to_nat (i - q_front q))) by lia. rewrite (firstn_S_nth _ w) by (unfold len in *; lia). rewrite map_app. cbn [map]. do 3 f_equal. symmetry. apply nth_error_nth. exact Ew.
    - intros out ->. rewrite Z.max_r by (destruct l; [easy|rewrite len_cons; pose proof (len_nonneg _ l); lia]). rewrite firstn_all2 by (unfold len in *; lia). reflexivity.
  Qed.
  Lemma array_queue_print (items : list A) de ops : aq_print_ok de ops items 0 false ->
    snd (run_hist aq_step ops (aq_new items de)) = snd (run_hist (deque_spec de) ops items) /\
    (fst (run_hist (deque_spec de) ops items) <> [] -> aq_printed (fst (run_hist aq_step ops (aq_new items de))) = Ret (map Some (fst (run_hist (deque_spec de) ops items)))).
  Proof.
    intros H. assert (E : q_de (aq_new items de) = de) by (unfold aq_new; destruct items; reflexivity).
    destruct (exact_run ops (aq_new items de) items 0 false) as (E1 & c' & any' & E2); [apply exact_new|rewrite E; exact H|]. rewrite E in *. split; [exact E1|]. intros NE. eapply exact_printed; eauto.
  Qed.
End AQ.
