(** Proofs: mixed histories on SplayTree. *)
From Coq Require Import Sorting.Sorted.
From Verif Require Import Base TreeModel TreeModel2 TreeSpec TreeProofs TreeRotate TreeBst TreeTrav TreeQuery TreeLca TreeDel TreeHist TreeBalSpec TreeAvl TreeAvl2 TreeSim TreeTreap TreeSplay TreeReins TreeMulti TreeDel2 TreeDel3 TreeDel4 TreeDel5 TreeRbDel2 TreeHist2Spec TreeHist2 TreeHist3 TreeMixSpec TreeMix TreeMix2 TreeMix3.

Section Mix5.
  Context {D : Type}.
  Notation info := (info D). Notation node := (node D). Notation mem := (mem D). Notation bst := (bst D). Notation bt := (bt D). Notation ctx := (ctx D).
  Ltac ents_go EN1 := rewrite <- EN1; cbn [plug]; try apply zents_plug; rewrite ?zents_N; repeat (rewrite <- ?app_assoc; cbn [app]); reflexivity.
  Lemma z_splay_ok (b : bst) (c : ctx) (l : bt) s x (r : bt) : slim b (plug c (N l s x r)) ->
    exists b' l' r', splay b (Some s) (cpar c) = Ret b' /\ slim b' (N l' s x r') /\ zents (N l' s x r') = zents (plug c (N l s x r)) /\ keepsb b b'.
  Proof.
    intros G. unfold splay. remember (zents (plug c (N l s x r))) as EN eqn:EEN. symmetry in EEN.
    match goal with |- context [while_loop ?f ?bd ?s0] => assert (W : wp (while_loop f bd s0) (fun b' => exists l' r', slim b' (N l' s x r') /\ zents (N l' s x r') = EN /\ keepsb b b')) end.
    { eapply (wp_while_g (fun n st => exists c l r, n = clen c /\ snd st = cpar c /\ slim (fst st) (plug c (N l s x r)) /\ keepsb b (fst st) /\ zents (plug c (N l s x r)) = EN)) with (n := clen c).
      - clear c l r G EEN. intros n [b1 p] (c & l & r & -> & Ep & G & K & EN1). cbn [fst snd] in *. subst p. rewrite (s_tget_at _ _ _ _ _ _ G). cbn [bind n_parent]. assert (ND := slim_neq _ _ G).
        assert (FIN : forall (c2 : ctx) (l2 r2 : bt) b2, (clen c2 < clen c)%nat -> slim b2 (plug c2 (N l2 s x r2)) -> keepsb b1 b2 -> zents (plug c2 (N l2 s x r2)) = EN ->
           wp (xn <- tget (b_mem b2) (Some s) ;; Ret (Next (b2, n_parent xn))) (fun r0 => match r0 with Next s' => exists n', (n' < clen c)%nat /\ exists c l r, n' = clen c /\ snd s' = cpar c /\ slim (fst s') (plug c (N l s x r)) /\ keepsb b (fst s') /\ zents (plug c (N l s x r)) = EN | Break b' => exists l' r', slim b' (N l' s x r') /\ zents (N l' s x r') = EN /\ keepsb b b' end)).
        { intros c2 l2 r2 b2 L G2 K2 EN2. rewrite (s_tget_at _ _ _ _ _ _ G2). cbn [bind n_parent wp fst snd]. exists (clen c2). split; [exact L|]. exists c2, l2, r2. do 2 (split; [reflexivity|]). split; [exact G2|]. split; [eapply keepsb_trans; eassumption|exact EN2]. }
        destruct c as [|c j y q|c q j y]; cbn [cpar plug clen] in *; [cbn [wp]; eauto|..].
        + rewrite (s_tget_at b1 c _ j y q G). cbn [bind n_parent]. destruct c as [|c g z w|c w g z]; cbn [cpar plug clen] in *.
          * unfold zig. rewrite (s_tget_at b1 Top _ j y q G). cbn [bind n_left root]. rewrite oeqb_yes. destruct (s_rot_right b1 Top l s x r j y q G) as (b2 & E2 & G2 & K2). rewrite E2. cbn [bind]. eapply (FIN Top); [cbn; lia|exact G2|exact K2|ents_go EN1].
          * rewrite (s_tget_at b1 c _ g z w G). cbn [bind n_left n_right root]. rewrite !oeqb_yes. cbn [andb]. unfold zig_zig. rewrite (s_tget_at b1 (CL c g z w) _ j y q G). cbn [bind n_parent cpar].
            destruct (s_rot_right b1 c (N l s x r) j y q g z w G) as (b2 & E2 & G2 & K2). rewrite E2. cbn [bind]. destruct (s_rot_right b2 c l s x r j y (N q g z w) G2) as (b3 & E3 & G3 & K3). rewrite E3. cbn [bind]. eapply (FIN c); [lia|exact G3|eapply keepsb_trans; eassumption|ents_go EN1].
          * rewrite (s_tget_at b1 c w g z _ G). cbn [bind n_left n_right root]. rewrite !oeqb_yes. rewrite (oeqb_no (root w) (Some j)) by (intros X; apply root_In in X; dj ND). rewrite (oeqb_no (root q) (Some s)) by (intros X; apply root_In in X; dj ND). cbn [andb]. unfold zag_zig. rewrite (s_tget_at b1 (CR c w g z) _ j y q G). cbn [bind n_parent cpar].
            destruct (s_rot_right_left b1 c w j y l s x r g z q G) as (b2 & E2 & G2 & K2). rewrite E2. cbn [bind]. eapply (FIN c); [lia|exact G2|exact K2|ents_go EN1].
        + rewrite (s_tget_at b1 c q j y _ G). cbn [bind n_parent]. destruct c as [|c g z w|c w g z]; cbn [cpar plug clen] in *.
          * unfold zig. rewrite (s_tget_at b1 Top q j y _ G). cbn [bind n_left root]. rewrite oeqb_no by (intros X; apply root_In in X; dj ND). destruct (s_rot_left b1 Top q s x l j y r G) as (b2 & E2 & G2 & K2). rewrite E2. cbn [bind]. eapply (FIN Top); [cbn; lia|exact G2|exact K2|ents_go EN1].
          * rewrite (s_tget_at b1 c _ g z w G). cbn [bind n_left n_right root]. rewrite !oeqb_yes. rewrite (oeqb_no (root q) (Some s)) by (intros X; apply root_In in X; dj ND). rewrite (oeqb_no (root w) (Some j)) by (intros X; apply root_In in X; dj ND). cbn [andb]. unfold zig_zag. rewrite (s_tget_at b1 (CL c g z w) q j y _ G). cbn [bind n_parent cpar].
            destruct (s_rot_left_right b1 c q j y l s x r g z w G) as (b2 & E2 & G2 & K2). rewrite E2. cbn [bind]. eapply (FIN c); [lia|exact G2|exact K2|ents_go EN1].
          * rewrite (s_tget_at b1 c w g z _ G). cbn [bind n_left n_right root]. rewrite !oeqb_yes. rewrite (oeqb_no (root q) (Some s)) by (intros X; apply root_In in X; dj ND). cbn [andb]. unfold zag_zag. rewrite (s_tget_at b1 (CR c w g z) q j y _ G). cbn [bind n_parent cpar].
            destruct (s_rot_left b1 c w j y q g z (N l s x r) G) as (b2 & E2 & G2 & K2). rewrite E2. cbn [bind]. destruct (s_rot_left b2 c (N w g z q) s x l j y r G2) as (b3 & E3 & G3 & K3). rewrite E3. cbn [bind]. eapply (FIN c); [lia|exact G3|eapply keepsb_trans; eassumption|ents_go EN1].
      - exists c, l, r. split; [reflexivity|]. split; [reflexivity|]. split; [exact G|]. split; [apply keepsb_refl|exact EEN].
      - assert (HF := clen_fuel _ _ _ _ _ _ _ (sl_at _ _ G)). lia. }
    apply wp_ex in W as (b1 & E1 & l1 & r1 & G1 & EN1 & K1). rewrite E1. exists b1, l1, r1. auto.
  Qed.

  Lemma l_splay n (b : bst) x p : lastis n b -> lp (lastis n) (splay b x p).
  Proof.
    intros H. unfold splay. apply (lp_while (fun st => lastis n (fst st))); [|exact H]. clear b p H. intros [b p] H. cbn [fst] in H. apply lp_any. intros xn. destruct (n_parent xn) as [z|]; [|apply lp_ret; exact H]. apply lp_any. intros pn.
    assert (R2 : forall f1 f2 j k j' k', lp (lastis n) (b2 <- rot f1 b j k ;; rot f2 b2 j' k')) by (intros; apply (lp_bind _ (lastis n)); [apply l_rot; exact H|]; intros b1 H1; apply l_rot; exact H1).
    apply (lp_bind _ (lastis n)); [|intros b1 H1; apply lp_any; intros ?; apply lp_ret; exact H1]. destruct (n_parent pn) as [g|].
    - apply lp_any. intros gn. destruct (_ && _); [unfold zig_zig; apply lp_any; intros ?; apply R2|]. destruct (_ && _); [unfold zag_zag; apply lp_any; intros ?; apply R2|]. destruct (_ && _); [unfold zag_zig|unfold zig_zag]; apply lp_any; intros ?; apply l_rot; exact H.
    - unfold zig. apply lp_any. intros ?. destruct (oeqb _ _); apply l_rot; exact H.
  Qed.
  Lemma zk_key (T : bt) i k : In (i, Some k) (zk T) -> exists c l x r, T = plug c (N l i x r) /\ k_key x = Some k.
  Proof.
    induction T as [|l IHl j y r IHr]; [intros []|]. rewrite zk_N, in_app_iff. cbn [In]. intros [H|[H|H]].
    - destruct (IHl H) as (c & l0 & x & r0 & -> & Ek). destruct (plug_plug c (CL Top j y r)) as (c3 & Hc). exists c3, l0, x, r0. rewrite Hc. auto.
    - injection H as -> Ek. exists Top, l, y, r. auto.
    - destruct (IHr H) as (c & l0 & x & r0 & -> & Ek). destruct (plug_plug c (CR Top l j y)) as (c3 & Hc). exists c3, l0, x, r0. rewrite Hc. auto.
  Qed.
  (** setting the parent of a node to what it is *)
  Lemma same_parent (b : bst) c l i x r : slim b (plug c (N l i x r)) -> exists t, tmod (b_mem b) (Some i) (set_parent (cpar c)) = Ret t /\ slim (set_mem b t) (plug c (N l i x r)) /\ keepsb b (set_mem b t).
  Proof.
    intros SP. destruct (s_on_mem_info b c l i x r (fun y => y) SP) as (b2 & E2 & G2 & K2 & _). unfold on_mem in E2. assert (HC := sub_cell _ _ _ _ _ _ _ (sl_at _ _ SP)). rewrite (tmod_ok _ _ _ _ HC) in E2. cbn [bind] in E2. rewrite (tmod_ok _ _ _ _ HC). injection E2 as E2.
    eexists. split; [reflexivity|]. match goal with |- slim ?m _ /\ _ => replace m with b2 by (rewrite <- E2; reflexivity) end. auto.
  Qed.
  Lemma p_insert b T s k d : mgood b T s -> absent_or_newest s k = true -> exists (b' : bst) (T' : bt), splay_insert b k d = Ret b' /\ mgood b' T' (m_put k d s) /\ rkey T' = Some k /\ b_os b' = b_os b.
  Proof.
    intros G HM. destruct (m_insert b T s k d G) as (b1 & T1 & E1 & O1 & R1 & G1 & Z1 & CS). unfold splay_insert. rewrite E1. cbn [bind]. assert (SP := holed_slim _ _ (mg_h _ _ _ G1)).
    assert (X : exists c l x r, T1 = plug c (N l (b_size b1 - 1) x r) /\ k_key x = Some k).
    { destruct CS as [(_ & Hs & c & c' & z & HK & NT & CZ & ET)|(KT & Hs & c & l & i & x & r & ET0 & Ek & ET)].
      - rewrite Hs. replace (b_size b + 1 - 1) with (b_size b) by lia. exists c', E, (with_size z (new_info (Some k) d)), E. auto.
      - unfold absent_or_newest, absent_key in HM. rewrite KT in HM. cbn [negb orb] in HM. apply Z.eqb_eq in HM. subst k. assert (HN := mg_new _ _ _ G1). unfold m_put in HN. rewrite KT in HN. cbn [m_newest] in HN. apply zk_key in HN. exact HN. }
    destruct X as (c & l & x & r & ET & Ek). subst T1. destruct (search_at b1 c l _ x r k (mg_def _ _ _ G1) (o_at _ _ (mg_h _ _ _ G1)) (mg_ord _ _ _ G1) Ek) as [ES _]. rewrite ES. cbn [bind].
    destruct (same_parent b1 c l _ x r SP) as (t & E2 & SP2 & K2). rewrite E2. cbn [bind]. destruct (z_splay_ok _ c l _ x r SP2) as (b3 & l' & r' & E3 & SP3 & ZE & K3). rewrite E3. exists b3, (N l' (b_size b1 - 1) x r'). split; [reflexivity|].
    split; [eapply (m_move b1 _ _ b3 _ G1 SP3 ZE); [eapply keepsb_trans; eassumption|]; exact (l_splay (a_last (b_arr b1)) (set_mem b1 t) _ _ eq_refl b3 E3)|]. split; [exact Ek|]. destruct K2 as (K2 & _), K3 as (K3 & _). congruence.
  Qed.
  Lemma p_delete b T s k : mgood b T s -> spare_ends s k = true -> exists (b' : bst) (T' : bt), splay_delete b k = Ret (b', is_key (m_ents s) k) /\ mgood b' T' (m_take k s) /\ b_os b' = b_os b.
  Proof.
    intros G HM. unfold splay_delete. unfold spare_ends, absent_key in HM. destruct (is_key (m_ents s) k) eqn:EI.
    - cbn [negb orb] in HM. rewrite !andb_true_iff, !negb_true_iff in HM. destruct HM as ((((H1 & H2) & H3) & H5) & H4). apply Z.eqb_neq in H1. apply Z.leb_le in H4. assert (H2' : next_key (m_ents s) k <> Some (m_newest s)) by (intros X; rewrite X, oeqb_yes in H2; discriminate). clear H2.
      apply existsb_exists in H3 as (e1 & I1 & L1), H5 as (e2 & I2 & L2). apply Z.ltb_lt in L1, L2.
      destruct (m_present b T s k G EI) as (c & l & i & x & r & ET & Ek & E0 & _). rewrite E0. cbn [bind]. subst T. assert (SP := holed_slim _ _ (mg_h _ _ _ G)).
      destruct (z_splay_ok b c l i x r SP) as (b1 & l' & r' & E1 & SP1 & ZE & K1). rewrite E1. cbn [bind]. assert (G1 := m_move _ _ _ _ _ G SP1 ZE K1 (l_splay (a_last (b_arr b)) b _ _ eq_refl b1 E1)). clear G. destruct K1 as (K1 & _).
      assert (MI := mg_ents _ _ _ G1). assert (GO := mg_ord _ _ _ G1). assert (GO' := GO). cbn [infos] in GO'. apply ordered_mid in GO' as (_ & _ & k1 & Ek1 & F1 & F2). rewrite Ek in Ek1. injection Ek1 as <-. rewrite Forall_forall in F1, F2.
      assert (SIDE : forall e, In e (m_ents s) -> exists y, In y (infos l' ++ x :: infos r') /\ k_key y = Some (fst e)). { intros e He. rewrite <- MI in He. unfold entries in He. apply in_map_iff in He as (y & Ey & Hy). cbn [infos] in Hy. exists y. split; [exact Hy|]. rewrite <- Ey. assert (Q : exists ky, k_key y = Some ky). { rewrite in_app_iff in Hy. cbn [In] in Hy. destruct Hy as [Hy|[<-|Hy]]; [apply F1 in Hy|eauto|apply F2 in Hy]; unfold kis in Hy; destruct (k_key y); try contradiction; eauto. } destruct Q as (ky & Q). rewrite (fst_entry y ky Q). exact Q. }
      assert (NL : l' <> E). { intros ->. destruct (SIDE e1 I1) as (y & Hy & Ey). cbn [infos app In] in Hy. destruct Hy as [<-|Hy]; [assert (k = fst e1) by congruence; lia|]. apply F2 in Hy. unfold kis in Hy. rewrite Ey in Hy. lia. }
      assert (NR : r' <> E). { intros ->. destruct (SIDE e2 I2) as (y & Hy & Ey). cbn [infos] in Hy. apply in_app_or in Hy. destruct Hy as [Hy|[<-|[]]]; [|assert (k = fst e2) by congruence; lia]. apply F1 in Hy. unfold kis in Hy. rewrite Ey in Hy. lia. }
      assert (LN := len_ents_nodes _ _ _ G1). assert (L2' : 2 <= len (m_ents s)). { rewrite LN. cbn [nodes]. destruct l' as [|a1 a2 a3 a4]; [congruence|]. cbn [nodes]. pose proof (nodes_nonneg a1). pose proof (nodes_nonneg a4). pose proof (nodes_nonneg r'). lia. }
      destruct (search_at b1 Top l' i x r' k (mg_def _ _ _ G1) (o_at _ _ (mg_h _ _ _ G1)) GO Ek) as [ES _].
      destruct (m_delete_info b1 _ s k Top l' i x r' G1 eq_refl Ek ES H1 (fun _ _ => H2') L2' H4 ltac:(auto)) as (b2 & c2 & S & c3 & j & E2 & TK & HG & CZ & O2 & G2).
      unfold delete. rewrite E2. cbn [bind is_none negb]. exists b2, (plug c3 S). split; [reflexivity|]. split; [exact G2|congruence].
    - destruct (m_absent b T s k G EI) as (c & E1 & _ & E2). rewrite E1. cbn [bind]. rewrite E2. exists b, T. auto.
  Qed.
  Lemma p_run ops : forall b T s s' fs, mgood b T s -> m_run absent_or_newest spare_ends s ops = Some (s', fs) ->
    exists (b' : bst) (T' : bt), perform_with splay_insert splay_delete b ops = Ret (b', fs) /\ mgood b' T' s' /\ b_os b' = b_os b.
  Proof.
    induction ops as [|[k d|k] ops IH]; intros b T s s' fs G; cbn [m_run perform_with].
    - intros [= <- <-]. exists b, T. auto.
    - destruct (absent_or_newest s k) eqn:EA; [|discriminate]. intros H. destruct (p_insert b T s k d G EA) as (b1 & T1 & E1 & G1 & A1 & O1). rewrite E1. cbn [bind]. destruct (IH _ _ _ _ _ G1 H) as (b2 & T2 & E2 & G2 & O2). exists b2, T2. split; [exact E2|]. split; [exact G2|congruence].
    - destruct (spare_ends s k) eqn:EM; [|discriminate]. destruct (m_run absent_or_newest spare_ends (m_take k s) ops) as [[s1 fs1]|] eqn:ER; [|discriminate]. intros [= <- <-].
      destruct (p_delete b T s k G EM) as (b1 & T1 & E1 & G1 & O1). rewrite E1. cbn [bind]. destruct (IH _ _ _ _ _ G1 ER) as (b2 & T2 & E2 & G2 & O2). rewrite E2. cbn [bind]. exists b2, T2. split; [reflexivity|]. split; [exact G2|congruence].
  Qed.
  Lemma p_history start os ops s fs : m_history absent_or_newest spare_ends start ops = Some (s, fs) ->
    exists (b : bst) (T : bt), history_with splay_insert splay_delete start os ops = Ret (b, fs) /\ mgood b T s /\ b_os b = os.
  Proof.
    unfold m_history, history_with. destruct start as [[k d]|]; cbn [option_map fst snd].
    - intros H. destruct (p_run ops _ _ _ _ _ (m_start os k (Some d) _ eq_refl) H) as (b & T & E1 & G1 & O1). exists b, T. auto.
    - destruct ops as [|[k d|k] ops]; try discriminate. intros H. change (bst_new None None None os) with (Ret (fresh (D := D) os)). cbn [bind perform_with]. rewrite splay_first. cbn [bind]. destruct (p_run ops _ _ _ _ _ (m_start os k d _ eq_refl) H) as (b & T & E1 & G1 & O1). exists b, T. auto.
  Qed.
End Mix5.
