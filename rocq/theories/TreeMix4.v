(** Proofs: mixed histories on CartesianTree and Treap. *)
From Coq Require Import Sorting.Sorted.
From Verif Require Import Base TreeModel TreeModel2 TreeSpec TreeProofs TreeRotate TreeBst TreeTrav TreeQuery TreeLca TreeDel TreeHist TreeBalSpec TreeAvl TreeAvl2 TreeSim TreeTreap TreeSplay TreeReins TreeMulti TreeDel2 TreeDel3 TreeDel4 TreeDel5 TreeRbDel2 TreeHist2Spec TreeHist2 TreeHist3 TreeMixSpec TreeMix TreeMix2 TreeMix3.

Section Mix4.
  Context {D : Type}.
  Notation info := (info D). Notation node := (node D). Notation mem := (mem D). Notation bst := (bst D). Notation bt := (bt D). Notation ctx := (ctx D).
  (** the new node rises *)
  Lemma z_bubble_up_ok (b : bst) (c : ctx) (l : bt) s x (r : bt) np : slim b (plug c (N l s x r)) -> c <> Top -> k_prio x = Some np -> cheap c -> heap (ctop c) l -> heap (ctop c) r -> heap (Some np) l -> heap (Some np) r ->
    exists b' T', bubble_up b (Some s) = Ret b' /\ slim b' T' /\ heap None T' /\ zents T' = zents (plug c (N l s x r)) /\ keepsb b b'.
  Proof.
    intros G NT HP HC H1 H2 H3 H4. unfold bubble_up. rewrite (s_tget_at _ _ _ _ _ _ G). cbn [bind n_parent].
    assert (exists pc, cpar c = Some pc /\ exists n, aget (b_mem b) pc = Ret n) as (pc & -> & n0 & ->).
    { destruct c as [|c j y q|c q j y]; [congruence|..]; cbn [cpar plug] in *; exists j; (split; [reflexivity|]); assert (HX := sub_cell _ _ _ _ _ _ _ (sl_at _ _ G)); unfold cell in HX; destruct (aget (b_mem b) j) as [[n|]| |]; try discriminate; eauto. }
    cbn [bind]. remember (zents (plug c (N l s x r))) as EN eqn:EEN. symmetry in EEN.
    match goal with |- context [while_loop ?f ?bd ?s0] => assert (W : wp (while_loop f bd s0) (fun b' => exists c l r, slim b' (plug c (N l s x r)) /\ heap None (plug c (N l s x r)) /\ keepsb b b' /\ zents (plug c (N l s x r)) = EN)) end.
    { eapply (wp_while_g (fun n b' => exists c l r, n = clen c /\ slim b' (plug c (N l s x r)) /\ keepsb b b' /\ zents (plug c (N l s x r)) = EN /\ cheap c /\ heap (ctop c) l /\ heap (ctop c) r /\ heap (Some np) l /\ heap (Some np) r)) with (n := clen c).
      - clear c l r G NT HC H1 H2 H3 H4 EEN. intros n b1 (c & l & r & -> & G & K & EN1 & HC & H1 & H2 & H3 & H4). rewrite (s_tget_at _ _ _ _ _ _ G). cbn [bind n_parent].
        assert (DONE : ole (ctop c) np -> exists c0 l0 r0, slim b1 (plug c0 (N l0 s x r0)) /\ heap None (plug c0 (N l0 s x r0)) /\ keepsb b b1 /\ zents (plug c0 (N l0 s x r0)) = EN).
        { intros HO. exists c, l, r. split; [exact G|]. split; [|auto]. apply heap_plug. split; [exact HC|]. cbn [heap]. eauto 10. }
        assert (ND := slim_neq _ _ G). destruct c as [|c j y q|c q j y]; cbn [cpar plug clen cheap ctop] in *.
        + cbn [wp]. apply DONE. exact I.
        + destruct HC as (p & HC1 & HC2 & HC3 & HC4). rewrite HC1 in *. rewrite (s_tget_at b1 c _ j y q G). cbn [bind n_inf]. unfold n_prio. cbn [n_inf]. rewrite HC1, HP. cbn [bind]. destruct (Z.ltb_spec np p) as [L|L]; [|cbn [wp]; apply DONE; cbn [ole]; exact L].
          cbn [n_right]. rewrite oeqb_no by (intros X; apply root_In in X; dj ND). destruct (s_rot_right b1 c l s x r j y q G) as (b2 & E2 & G2 & K2). rewrite E2. cbn [bind wp].
          exists (clen c). split; [lia|]. exists c, l, (N r j y q). split; [reflexivity|]. split; [exact G2|]. split; [eapply keepsb_trans; eassumption|]. split; [rewrite <- EN1; apply zents_plug; rewrite !zents_N, <- app_assoc; reflexivity|]. split; [exact HC4|]. cbn [heap ole].
          split; [apply (heap_mono _ _ p HC2 H1)|]. split; [eauto 10|]. split; [exact H3|]. exists p. split; [exact HC1|]. split; [lia|]. auto.
        + destruct HC as (p & HC1 & HC2 & HC3 & HC4). rewrite HC1 in *. rewrite (s_tget_at b1 c q j y _ G). cbn [bind n_inf]. unfold n_prio. cbn [n_inf]. rewrite HC1, HP. cbn [bind]. destruct (Z.ltb_spec np p) as [L|L]; [|cbn [wp]; apply DONE; cbn [ole]; exact L].
          cbn [n_right root]. rewrite oeqb_yes. destruct (s_rot_left b1 c q s x l j y r G) as (b2 & E2 & G2 & K2). rewrite E2. cbn [bind wp].
          exists (clen c). split; [lia|]. exists c, (N q j y l), r. split; [reflexivity|]. split; [exact G2|]. split; [eapply keepsb_trans; eassumption|]. split; [rewrite <- EN1; apply zents_plug; rewrite !zents_N, <- app_assoc; reflexivity|]. split; [exact HC4|]. cbn [heap ole].
          split; [eauto 10|]. split; [apply (heap_mono _ _ p HC2 H2)|]. split; [|exact H4]. exists p. split; [exact HC1|]. split; [lia|]. auto.
      - exists c, l, r. split; [reflexivity|]. split; [exact G|]. split; [apply keepsb_refl|]. auto 10.
      - assert (HF := clen_fuel _ _ _ _ _ _ _ (sl_at _ _ G)). lia. }
    apply wp_ex in W as (b1 & E1 & c1 & l1 & r1 & G1 & HH & K1 & EN1). rewrite E1. cbn [bind]. rewrite (s_tget_at _ _ _ _ _ _ G1). cbn [bind n_parent]. destruct (cpar c1) eqn:Ec.
    - exists b1, (plug c1 (N l1 s x r1)). auto.
    - destruct (s_on_mem_info b1 c1 l1 s x r1 (with_isroot true) G1) as (b2 & E2 & G2 & K2 & _). exists b2, (plug c1 (N l1 s (with_isroot true x) r1)). split; [exact E2|]. split; [exact G2|]. split; [|split; [rewrite <- EN1; apply zents_plug; rewrite !zents_N; reflexivity|eapply keepsb_trans; eassumption]].
      rewrite heap_plug in *. exact HH.
  Qed.
  Lemma z_trickle_ok (b : bst) (c : ctx) (l : bt) s x (r : bt) : slim b (plug c (N l s x r)) -> ranked (plug c (N l s x r)) ->
    exists b' c', trickle_down b (Some s) = Ret b' /\ slim b' (plug c' (N E s x E)) /\ zents (plug c' (N E s x E)) = zents (plug c (N l s x r)) /\ ranked (plug c' (N E s x E)) /\ keepsb b b' /\
      (cheap c /\ heap (ctop c) l /\ heap (ctop c) r -> cheap c').
  Proof.
    intros G RK. unfold trickle_down. remember (zents (plug c (N l s x r))) as EN eqn:EEN. symmetry in EEN. remember (cheap c /\ heap (ctop c) l /\ heap (ctop c) r) as P eqn:EP.
    match goal with |- context [while_loop ?f ?bd ?s0] => assert (W : wp (while_loop f bd s0) (fun b' => exists c', slim b' (plug c' (N E s x E)) /\ zents (plug c' (N E s x E)) = EN /\ ranked (plug c' (N E s x E)) /\ keepsb b b' /\ (P -> cheap c'))) end.
    { eapply (wp_while_g (fun n b' => exists c l r, n = Z.to_nat (nodes (N l s x r)) /\ slim b' (plug c (N l s x r)) /\ keepsb b b' /\ zents (plug c (N l s x r)) = EN /\ ranked (plug c (N l s x r)) /\ (P -> cheap c /\ heap (ctop c) l /\ heap (ctop c) r))).
      - clear c l r G RK EEN EP. intros n b1 (c & l & r & -> & G & K & EN1 & RK & HP). rewrite (s_tget_at _ _ _ _ _ _ (G)). cbn [bind n_left n_right].
        pose proof (nodes_nonneg l). pose proof (nodes_nonneg r).
        assert (RIGHT : forall a k xk v, l = N a k xk v -> (P -> heap (k_prio xk) r) -> wp (b2 <- rot right_rotate b1 (Some s) (Some k) ;; Ret (Next b2)) (fun r0 => match r0 with Next s' => exists n', (n' < Z.to_nat (nodes (N l s x r)))%nat /\ exists c l r, n' = Z.to_nat (nodes (N l s x r)) /\ slim s' (plug c (N l s x r)) /\ keepsb b s' /\ zents (plug c (N l s x r)) = EN /\ ranked (plug c (N l s x r)) /\ (P -> cheap c /\ heap (ctop c) l /\ heap (ctop c) r) | Break b' => exists c', slim b' (plug c' (N E s x E)) /\ zents (plug c' (N E s x E)) = EN /\ ranked (plug c' (N E s x E)) /\ keepsb b b' /\ (P -> cheap c') end)).
        { intros a k xk v -> HR. destruct (s_rot_right b1 c a k xk v s x r G) as (b2 & E2 & G2 & K2). rewrite E2. cbn [bind wp]. pose proof (nodes_nonneg a). pose proof (nodes_nonneg v). exists (Z.to_nat (nodes (N v s x r))). split; [cbn [nodes] in *; lia|]. exists (CR c a k xk), v, r.
          split; [reflexivity|]. split; [exact G2|]. split; [eapply keepsb_trans; eassumption|]. split; [rewrite <- EN1; cbn [plug]; apply zents_plug; rewrite !zents_N, <- app_assoc; reflexivity|]. split; [cbn [plug]; rewrite ranked_plug, !ranked_N in *; tauto|].
          intros HPP. destruct (HP HPP) as (Q1 & (p & Q2 & Q3 & Q4 & Q5) & Q6). specialize (HR HPP). cbn [cheap ctop]. rewrite Q2 in *. eauto 10. }
        assert (LEFT : forall v k xk d, r = N v k xk d -> (P -> heap (k_prio xk) l) -> wp (b2 <- rot left_rotate b1 (Some s) (Some k) ;; Ret (Next b2)) (fun r0 => match r0 with Next s' => exists n', (n' < Z.to_nat (nodes (N l s x r)))%nat /\ exists c l r, n' = Z.to_nat (nodes (N l s x r)) /\ slim s' (plug c (N l s x r)) /\ keepsb b s' /\ zents (plug c (N l s x r)) = EN /\ ranked (plug c (N l s x r)) /\ (P -> cheap c /\ heap (ctop c) l /\ heap (ctop c) r) | Break b' => exists c', slim b' (plug c' (N E s x E)) /\ zents (plug c' (N E s x E)) = EN /\ ranked (plug c' (N E s x E)) /\ keepsb b b' /\ (P -> cheap c') end)).
        { intros v k xk d -> HR. destruct (s_rot_left b1 c l k xk v s x d G) as (b2 & E2 & G2 & K2). rewrite E2. cbn [bind wp]. pose proof (nodes_nonneg d). pose proof (nodes_nonneg v). exists (Z.to_nat (nodes (N l s x v))). split; [cbn [nodes] in *; lia|]. exists (CL c k xk d), l, v.
          split; [reflexivity|]. split; [exact G2|]. split; [eapply keepsb_trans; eassumption|]. split; [rewrite <- EN1; cbn [plug]; apply zents_plug; rewrite !zents_N, <- app_assoc; reflexivity|]. split; [cbn [plug]; rewrite ranked_plug, !ranked_N in *; tauto|].
          intros HPP. destruct (HP HPP) as (Q1 & Q6 & (p & Q2 & Q3 & Q4 & Q5)). specialize (HR HPP). cbn [cheap ctop]. rewrite Q2 in *. eauto 10. }
        destruct l as [|a k xk v]; destruct r as [|v2 k2 xk2 d2]; cbn [root].
        + cbn [wp]. exists c. split; [exact G|]. split; [exact EN1|]. split; [exact RK|]. split; [exact K|]. intros HPP. apply HP, HPP.
        + apply (LEFT _ _ _ _ eq_refl). intros _. exact I.
        + apply (RIGHT _ _ _ _ eq_refl). intros _. exact I.
        + assert (TL : tget (b_mem b1) (Some k) = Ret (mknode xk (root a) (root v) (Some s))) by (apply (s_tget_at b1 (CL c s x (N v2 k2 xk2 d2))); exact (G)).
          assert (TR : tget (b_mem b1) (Some k2) = Ret (mknode xk2 (root v2) (root d2) (Some s))) by (apply (s_tget_at b1 (CR c (N a k xk v) s x)); exact (G)).
          rewrite TL. cbn [bind]. unfold n_prio. cbn [n_inf]. assert (RK' := RK). rewrite ranked_plug, !ranked_N in RK'. destruct RK' as (_ & (_ & (RL & _) & (RR & _)) & _). destruct (k_prio xk) as [lp|] eqn:Elp; [|congruence]. destruct (k_prio xk2) as [rp|] eqn:Erp; [|congruence]. cbn [bind]. rewrite TR. cbn [bind n_inf]. rewrite Erp. cbn [bind].
          destruct (Z.ltb_spec lp rp) as [L|L].
          * apply (RIGHT _ _ _ _ eq_refl). intros HPP. destruct (HP HPP) as (_ & _ & (p & H2 & H3 & H4 & H5)). rewrite Elp. cbn [heap]. exists p. split; [exact H2|]. split; [cbn [ole]; assert (p = rp) by congruence; lia|auto].
          * apply (LEFT _ _ _ _ eq_refl). intros HPP. destruct (HP HPP) as (_ & (p & H2 & H3 & H4 & H5) & _). rewrite Erp. cbn [heap]. exists p. split; [exact H2|]. split; [cbn [ole]; assert (p = lp) by congruence; lia|auto].
      - exists c, l, r. split; [reflexivity|]. split; [exact G|]. split; [apply keepsb_refl|]. split; [exact EEN|]. split; [exact RK|]. rewrite EP. auto.
      - assert (H := fuel_ok _ _ _ (sl_at _ _ (G))). pose proof (nodes_plug_le c (N l s x r)). lia. }
    apply wp_ex in W as (b' & E1 & c' & H). exists b', c'. tauto.
  Qed.


  Lemma l_bubble_up n (b : bst) i : lastis n b -> lp (lastis n) (bubble_up b i).
  Proof.
    intros H. unfold bubble_up. apply lp_any. intros n0. apply lp_any. intros _. apply (lp_bind _ (lastis n)).
    - apply (lp_while (lastis n)); [|exact H]. clear b n0 H. intros b H. apply lp_any. intros n0. destruct (n_parent n0) as [p|]; [|apply lp_ret; exact H]. apply lp_any. intros pn. apply lp_any. intros pp. apply lp_any. intros np. destruct (np <? pp); [|apply lp_ret; exact H].
      apply (lp_bind _ (lastis n)); [destruct (oeqb _ _); apply l_rot; exact H|]. intros b1 H1. apply lp_ret. exact H1.
    - clear b n0 H. intros b H. apply lp_any. intros n0. destruct (n_parent n0); [apply lp_ret; exact H|apply l_on_mem; exact H].
  Qed.
  Lemma l_trickle n (b : bst) i : lastis n b -> lp (lastis n) (trickle_down b i).
  Proof.
    intros H. unfold trickle_down. apply (lp_while (lastis n)); [|exact H]. clear b H. intros b H. apply lp_any. intros n0.
    assert (R : forall f j k, lp (fun x : ctl bst bst => match x with Next s' => lastis n s' | Break r => lastis n r end) (b2 <- rot f b j k ;; Ret (Next b2))) by (intros f j k; apply (lp_bind _ (lastis n)); [apply l_rot; exact H|]; intros b1 H1; apply lp_ret; exact H1).
    destruct (n_left n0) as [z1|], (n_right n0) as [z2|]; [|apply R|apply R|apply lp_ret; exact H]. do 4 (apply lp_any; intros ?). destruct (_ <? _); apply R.
  Qed.
  Lemma c_insert b T s k p d : mgood b T s -> heap None T -> is_key (m_ents s) k = false -> exists (b' : bst) (T' : bt), cart_insert b k p d = Ret b' /\ mgood b' T' (m_put k d s) /\ heap None T' /\ b_os b' = b_os b.
  Proof.
    intros G HH KF. destruct (m_insert b T s k d G) as (b1 & T1 & E1 & O1 & R1 & G1 & Z1 & [(_ & Hs & c & c' & z & HK & NT & CZ & ET)|(KT & _)]); [|congruence]. unfold cart_insert. rewrite E1. cbn [bind]. destruct HK as (ET0 & _).
    assert (SP := holed_slim _ _ (mg_h _ _ _ G1)). subst T1. set (x := with_size z (new_info (Some k) d)) in *. destruct (search_at b1 c' E (b_size b) x E k (mg_def _ _ _ G1) (o_at _ _ (mg_h _ _ _ G1)) (mg_ord _ _ _ G1) eq_refl) as [_ ES]. rewrite ES. cbn [bind]. rewrite (s_tget_at _ _ _ _ _ _ SP). cbn [bind].
    destruct (s_on_mem_info b1 c' E (b_size b) x E (fun _ => mkinfo (Some k) d 0 1 false (Some p) None) SP) as (b2 & E2 & SP2 & K2 & _).
    change (fun t => tmod t (Some (b_size b)) (cart_node k p d)) with (fun t : mem => tmod t (Some (b_size b)) (set_inf (fun _ => mkinfo (Some k) d 0 1 false (Some p) None))). rewrite E2. cbn [bind n_inf x with_size new_info k_isroot].
    assert (L2 := l_on_mem (a_last (b_arr b1)) _ b1 eq_refl b2 E2).
    rewrite ET0 in HH. apply heap_plug in HH as [HC _]. destruct (cheap_sim c c' (cz_sim _ _ CZ) HC) as [HC' EC].
    destruct (z_bubble_up_ok b2 c' E (b_size b) _ E p SP2) as (b3 & T3 & E3 & G3 & H3 & N3 & K3); try exact I; [intros X; apply NT; apply (csim_facts c c' (cz_sim _ _ CZ)); exact X|reflexivity|exact HC'|].
    assert (L3 := l_bubble_up (a_last (b_arr b1)) b2 _ L2 b3 E3). exists b3, T3. split; [exact E3|]. split.
    - eapply (m_move b1 _ _ b3 T3 G1 G3); [|eapply keepsb_trans; eassumption|exact L3]. rewrite N3. apply zents_plug. rewrite !zents_N. reflexivity.
    - split; [exact H3|]. destruct K2 as (K2 & _), K3 as (K3 & _). congruence.
  Qed.
  Lemma c_delete b T s k : mgood b T s -> heap None T -> keep_newest s k = true -> exists (b' : bst) (T' : bt), cart_delete b k = Ret (b', is_key (m_ents s) k) /\ mgood b' T' (m_take k s) /\ heap None T' /\ b_os b' = b_os b.
  Proof.
    intros G HH HM. unfold cart_delete. unfold keep_newest, absent_key in HM. destruct (is_key (m_ents s) k) eqn:EI.
    - cbn [negb orb] in HM. rewrite !andb_true_iff, !negb_true_iff in HM. destruct HM as ((H1 & H3) & H4). apply Z.eqb_neq in H1. apply Z.leb_le in H3, H4.
      assert (LN := len_ents_nodes _ _ _ G). destruct (m_present b T s k G EI) as (c & l & i & x & r & ET & Ek & _ & E0). rewrite E0. cbn [bind]. subst T. assert (SP := holed_slim _ _ (mg_h _ _ _ G)).
      destruct (z_trickle_ok b c l i x r SP (heap_ranked _ _ HH)) as (b1 & c1 & E1 & SP1 & ZE & RK1 & K1 & HC1). rewrite E1. cbn [bind]. assert (G1 := m_move _ _ _ _ _ G SP1 ZE K1 (l_trickle (a_last (b_arr b)) b _ eq_refl b1 E1)). clear G.
      assert (LN1 := len_ents_nodes _ _ _ G1). assert (NT : c1 <> Top) by (intros ->; cbn [plug nodes] in LN1; lia). destruct K1 as (K1 & _).
      destruct (search_at b1 c1 E i x E k (mg_def _ _ _ G1) (o_at _ _ (mg_h _ _ _ G1)) (mg_ord _ _ _ G1) Ek) as [ES _].
      destruct (m_delete_info b1 _ s k c1 E i x E G1 eq_refl Ek ES H1 ltac:(congruence) H3 H4 ltac:(congruence)) as (b2 & c2 & S & c3 & j & E2 & TK & HG & CZ & O2 & G2).
      unfold delete. rewrite E2. cbn [bind is_none negb]. exists b2, (plug c3 S). split; [reflexivity|]. split; [exact G2|]. split; [|congruence].
      destruct HG as [(_ & _ & -> & HS)|(NL & _)]; [|congruence]. assert (S = E) by tauto. subst S. apply heap_plug. split; [|exact I]. apply (cheap_sim c1 c3 (cz_sim _ _ CZ)). apply HC1. apply heap_plug in HH as [A (p & Q1 & Q2 & Q3 & Q4)]. split; [exact A|]. split; eapply heap_mono; eassumption.
    - destruct (m_absent b T s k G EI) as (c & _ & E1 & E2). rewrite E1. cbn [bind]. rewrite E2. exists b, T. auto.
  Qed.
  Lemma c_run ops : forall b T s s' fs, mgood b T s -> heap None T -> m_run absent_key keep_newest s (map no_prio ops) = Some (s', fs) ->
    exists (b' : bst) (T' : bt), perform_prio b ops = Ret (b', fs) /\ mgood b' T' s' /\ heap None T' /\ b_os b' = b_os b.
  Proof.
    induction ops as [|[k p d|k] ops IH]; intros b T s s' fs G HH; cbn [map no_prio m_run perform_prio].
    - intros [= <- <-]. exists b, T. auto.
    - destruct (absent_key s k) eqn:EA; [|discriminate]. intros H. unfold absent_key in EA. apply negb_true_iff in EA. destruct (c_insert b T s k p d G HH EA) as (b1 & T1 & E1 & G1 & A1 & O1). rewrite E1. cbn [bind]. destruct (IH _ _ _ _ _ G1 A1 H) as (b2 & T2 & E2 & G2 & A2 & O2). exists b2, T2. split; [exact E2|]. split; [exact G2|]. split; [exact A2|congruence].
    - destruct (keep_newest s k) eqn:EM; [|discriminate]. destruct (m_run absent_key keep_newest (m_take k s) (map no_prio ops)) as [[s1 fs1]|] eqn:ER; [|discriminate]. intros [= <- <-].
      destruct (c_delete b T s k G HH EM) as (b1 & T1 & E1 & G1 & A1 & O1). rewrite E1. cbn [bind]. destruct (IH _ _ _ _ _ G1 A1 ER) as (b2 & T2 & E2 & G2 & A2 & O2). rewrite E2. cbn [bind]. exists b2, T2. split; [reflexivity|]. split; [exact G2|]. split; [exact A2|congruence].
  Qed.
  Lemma c_history os ops s fs : m_history absent_key keep_newest None (map no_prio ops) = Some (s, fs) ->
    exists (b : bst) (T : bt), (b0 <- bst_new None None None os ;; perform_prio b0 ops) = Ret (b, fs) /\ mgood b T s /\ heap None T /\ b_os b = os.
  Proof.
    unfold m_history. destruct ops as [|[k p d|k] ops]; cbn [map no_prio]; try discriminate. intros H. change (bst_new None None None os) with (Ret (fresh (D := D) os)). cbn [bind perform_prio]. rewrite cart_first. cbn [bind].
    set (x := mkinfo (Some k) d 0 1 true (Some p) None). assert (HX : heap None (N E 0 x (@E D))) by (cbn; eauto 10). destruct (c_run ops _ _ _ _ _ (m_one os x k d eq_refl) HX H) as (b & T & E1 & G1 & A1 & O1). exists b, T. auto.
  Qed.
End Mix4.
