(** Proofs: histories that mix inserts and deletes on the C++ AVLTree, CartesianTree, Treap, SplayTree and RedBlackTree. *)
From Coq Require Import Sorting.Sorted.
From Verif Require Import Base ArraysProofs TreeModel TreeModel2 TreeSpec TreeProofs TreeRotate TreeBst TreeTrav TreeQuery TreeDel TreeHist TreeBalSpec TreeAvl TreeAvl2 TreeSim TreeTreap TreeSplay TreeRb TreeReins TreeMulti TreeDel2 TreeDel3 TreeDelSpec TreeDel4 TreeDel5 TreeSplaySpec TreeSplayDel TreeRbDel TreeRbDel2 TreeHist2Spec TreeHist2 TreeHist3 TreeMixSpec TreeMix TreeMix2 TreeMix3 TreeMix4 TreeMix5 TreeMix7 TreeMix8 CppArrayModel CppTreeModel CppTreeModel2 CppTreeQuery CppTreeSim CppTreeSim2 CppTreeSpec CppTreeSpec2 CppTreeProofs CppTreeHist CppTreeHist2 CppMixSpec.

Section CMix.
  Context {K D : Type} (same : K -> K -> bool) (val : K -> Z) (rk : K -> Z).
  Hypothesis same_ok : forall x y, same x y = true <-> x = y.
  Hypothesis rk_inj : forall x y, rk x = rk y -> x = y.
  Notation bt := (bt D). Notation bst := (bst D). Notation ctree := (ctree K D).
  Notation RB := (RB (D := D) rk).
  Lemma room_m (b : bst) (T : bt) s : mgood b T s -> room (b_arr b).
  Proof. intros G. destruct (mg_h _ _ _ G) as [_ H1 H2 H3 _ H4]. unfold room. unfold b_mem in *. rewrite H2, H1. pose proof (len_nonneg _ (a_data (b_arr b))). split; [lia|]. destruct (Z.eqb_spec (b_size b - 1 + 1) (len (a_data (b_arr b)))); lia. Qed.
  Lemma dense_m (b : bst) (T : bt) s : mgood b T s -> m_used s <= 2 * (len (m_ents s) - 1) -> dense (b_arr b).
  Proof. intros G HM. assert (LN := len_ents_nodes _ _ _ G). destruct (mg_h _ _ _ G) as [_ H1 H2 H3 _ H4]. assert (GU := mg_used _ _ _ G). unfold dense. unfold b_mem in *. lia. Qed.
  Section Gen.
    Context {E0 : Type} (ek : E0 -> K * option D) (cins : ctree -> E0 -> res ctree) (cdel : ctree -> K -> res (ctree * bool)) (pins : bst -> E0 -> res bst) (pdel : bst -> Z -> res (bst * bool)).
    Context (J : bst -> bt -> mmap D -> Prop) (mi md : mmap D -> Z -> bool) (flag : bool -> bool).
    Hypothesis j_good : forall b T s, J b T s -> mgood b T s.
    Hypothesis i_sim : forall c b T s e, RB c b -> J b T s -> mi s (rk (fst (ek e))) = true -> sim RB (cins c e) (pins b e).
    Hypothesis i_step : forall b T s e, J b T s -> mi s (rk (fst (ek e))) = true -> exists b' T', pins b e = Ret b' /\ J b' T' (m_put (rk (fst (ek e))) (snd (ek e)) s).
    Hypothesis d_sim : forall c b T s k, RB c b -> J b T s -> (is_key (m_ents s) (rk k) = true -> dense (b_arr b)) -> sim (fun x y => RB (fst x) (fst y) /\ snd y = snd x) (cdel c k) (pdel b (rk k)).
    Hypothesis d_need : forall s k, md s k = true -> is_key (m_ents s) k = true -> m_used s <= 2 * (len (m_ents s) - 1).
    Hypothesis d_step : forall b T s k, J b T s -> md s k = true -> exists b' T', pdel b k = Ret (b', flag (is_key (m_ents s) k)) /\ J b' T' (m_take k s).
    Lemma mix_gen (ops : list (call K E0)) : forall c b T s s' fs, RB c b -> J b T s -> m_run mi md s (map (ranked_call rk ek) ops) = Some (s', fs) ->
      exists c' b' T', calls cins cdel c ops = Ret (c', map flag fs) /\ RB c' b' /\ J b' T' s'.
    Proof.
      induction ops as [|[e|k] ops IH]; intros c b T s s' fs HB HJ; cbn [map m_run calls ranked_call].
      - intros [= <- <-]. exists c, b, T. auto.
      - destruct (mi s (rk (fst (ek e)))) eqn:EM; [|discriminate]. intros H. destruct (i_step b T s e HJ EM) as (b1 & T1 & E1 & J1). destruct (i_sim c b T s e HB HJ EM _ E1) as (c1 & F1 & HB1). rewrite F1. cbn [bind]. apply (IH _ _ _ _ _ _ HB1 J1 H).
      - destruct (md s (rk k)) eqn:EM; [|discriminate]. destruct (m_run mi md (m_take (rk k) s) _) as [[s1 fs1]|] eqn:ER; [|discriminate]. intros [= <- <-]. destruct (d_step b T s (rk k) HJ EM) as (b1 & T1 & E1 & J1).
        destruct (d_sim c b T s k HB HJ) with (y := (b1, flag (is_key (m_ents s) (rk k)))) as ([c1 f] & F1 & HB1 & Ef); [intros EI; apply (dense_m _ T s (j_good _ _ _ HJ)); apply (d_need _ _ EM EI)|exact E1|]. cbn [fst snd] in *. subst f. rewrite F1. cbn [bind]. destruct (IH _ _ _ _ _ _ HB1 J1 ER) as (c2 & b2 & T2 & F2 & HB2 & J2). rewrite F2. cbn [bind map]. exists c2, b2, T2. auto.
    Qed.
    Hypothesis f_sim : forall c os e, RB c (fresh os) -> sim RB (cins c e) (pins (fresh os) e).
    Hypothesis f_step : forall os e, exists b T, pins (fresh os) e = Ret b /\ J b T (m_first (rk (fst (ek e))) (snd (ek e))).
    Lemma mix_empty comp os (ops : list (call K E0)) s fs : order_of rk comp -> m_history mi md None (map (ranked_call rk ek) ops) = Some (s, fs) ->
      exists c b T, (b <- cpp_bst_new None None comp os ;; calls cins cdel b ops) = Ret (c, map flag fs) /\ RB c b /\ J b T s.
    Proof.
      intros HC. unfold m_history. destruct ops as [|[e|k] ops]; cbn [map ranked_call]; try discriminate. intros H. destruct (empty_start (D := D) rk comp os HC) as (c0 & F0 & HB0). rewrite F0. cbn [bind calls]. destruct (f_step os e) as (b1 & T1 & E1 & J1). destruct (f_sim c0 os e HB0 _ E1) as (c1 & F1 & HB1). rewrite F1. cbn [bind]. apply (mix_gen ops _ _ _ _ _ _ HB1 J1 H).
    Qed.
  End Gen.
  Lemma map_id_bool (l : list bool) : map (fun f => f) l = l. Proof. apply map_id. Qed.
  Lemma search_dense (b : bst) T s k : mgood b T s -> (is_key (m_ents s) k = true -> dense (b_arr b)) -> forall e, search b k = Ret (Some e) -> dense (b_arr b).
  Proof. intros G H e E1. destruct (is_key (m_ents s) k) eqn:EI; [auto|]. destruct (m_absent b T s k G EI) as (c & _ & E2 & _). congruence. Qed.
  Lemma parent_dense (b : bst) T s k : mgood b T s -> (is_key (m_ents s) k = true -> dense (b_arr b)) -> forall e p, search_parent b k = Ret (Some e, p) -> dense (b_arr b).
  Proof. intros G H e p E1. destruct (is_key (m_ents s) k) eqn:EI; [auto|]. destruct (m_absent b T s k G EI) as (c & E2 & _). congruence. Qed.
  (** ** RedBlackTree *)
  Lemma need_older (s : mmap D) k : spare_older s k = true -> is_key (m_ents s) k = true -> m_used s <= 2 * (len (m_ents s) - 1).
  Proof. unfold spare_older, absent_key. intros H EI. rewrite EI in H. cbn [negb orb] in H. rewrite !andb_true_iff in H. destruct H as [_ H]. lia. Qed.
  Lemma need_newest (s : mmap D) k : spare_newest s k = true -> is_key (m_ents s) k = true -> m_used s <= 2 * (len (m_ents s) - 1).
  Proof. unfold spare_newest, absent_key. intros H EI. rewrite EI in H. cbn [negb orb] in H. rewrite !andb_true_iff in H. destruct H as [_ H]. lia. Qed.
  Lemma need_keep (s : mmap D) k : keep_newest s k = true -> is_key (m_ents s) k = true -> m_used s <= 2 * (len (m_ents s) - 1).
  Proof. unfold keep_newest, absent_key. intros H EI. rewrite EI in H. cbn [negb orb] in H. rewrite !andb_true_iff in H. destruct H as [_ H]. lia. Qed.
  Lemma need_ends (s : mmap D) k : spare_ends s k = true -> is_key (m_ents s) k = true -> m_used s <= 2 * (len (m_ents s) - 1).
  Proof. unfold spare_ends, absent_key. intros H EI. rewrite EI in H. cbn [negb orb] in H. rewrite !andb_true_iff in H. destruct H as [_ H]. lia. Qed.
  Lemma rb_one os k (d : option D) : rbgood (one os (mkinfo (Some k) d 0 1 true None (Some 0))) (N E 0 (mkinfo (Some k) d 0 1 true None (Some 0)) E) (m_first k d).
  Proof.
    set (x := mkinfo (Some k) d 0 1 true None (Some 0)). split; [apply (m_one os x k d eq_refl)|split; constructor|reflexivity|reflexivity|exists 1; cbn; left; auto|]. intros i. unfold what, one, b_mem. cbn. unfold cell, aget. intros HI. destruct (Z.ltb_spec i 0); cbn [orb] in HI; [exfalso; apply HI; reflexivity|]. match type of HI with context [?a <=? i] => destruct (Z.leb_spec a i) as [HL|HL]; [exfalso; apply HI; reflexivity|]; change a with 1 in HL end. left. lia.
  Qed.
  Lemma cmix_post (c : ctree) (b : bst) (T : bt) s : RB c b -> mgood b T s ->
    exists U V, cgood rk c T U /\ iheld (ct_mem c) (ct_root c) None V /\ itwin rk T V /\ cshows (inodes V) (kents U) /\ named_entries rk (kents U) = m_ents s.
  Proof.
    intros HB G. destruct (cpost val rk rk_inj c b T HB (o_at _ _ (mg_h _ _ _ G)) (o_num _ _ (mg_h _ _ _ G)) (mg_ord _ _ _ G) (mg_ne _ _ _ G)) as (U & V & A & B & C & F & H). exists U, V. rewrite <- (mg_ents _ _ _ G). auto.
  Qed.
  Lemma crb_mix comp os (ops : list (call K (K * option D))) s fs : order_of rk comp -> m_history absent_key spare_older None (map (ranked_call rk (fun e => e)) ops) = Some (s, fs) ->
    exists c b T, (b <- cpp_bst_new None None comp os ;; calls (fun b e => c_rb_insert same val b (fst e) (snd e)) (c_rb_delete same val) b ops) = Ret (c, fs) /\ RB c b /\ rbgood b T s.
  Proof.
    intros HC HR. rewrite <- (map_id_bool fs). apply (mix_empty (fun e => e) (fun b e => c_rb_insert same val b (fst e) (snd e)) (c_rb_delete same val) (fun b e => rb_insert b (rk (fst e)) (snd e)) rb_delete rbgood absent_key spare_older (fun f => f)); try assumption.
    - intros b T s0 G. apply (q_m _ _ _ G).
    - intros c b T s0 [k d] HB G _. apply (sim_rb_insert same val rk same_ok rk_inj); [exact HB|]. apply (room_m _ _ _ (q_m _ _ _ G)).
    - intros b T s0 [k d] G HM. cbn [fst snd] in *. unfold absent_key in HM. apply negb_true_iff in HM. destruct (r_insert b T s0 (rk k) d G HM) as (b1 & T1 & E1 & G1 & _). eauto.
    - intros c b T s0 k HB G HD. apply (sim_rb_delete same val rk same_ok rk_inj); [exact HB|]. apply (search_dense b T s0); [apply (q_m _ _ _ G)|exact HD].
    - apply need_older.
    - intros b T s0 k G HM. destruct (r_delete b T s0 k G HM) as (b1 & T1 & E1 & G1 & _). eauto.
    - intros c o [k d] HB. apply (sim_rb_insert same val rk same_ok rk_inj); [exact HB|apply fresh_room].
    - intros o [k d]. cbn [fst snd]. rewrite rb_first. eexists. eexists. split; [reflexivity|]. apply rb_one.
  Qed.
  (** ** CartesianTree and Treap *)
  Lemma ccart_mix comp os (ops : list (call K (K * Z * option D))) s fs : order_of rk comp -> m_history absent_key keep_newest None (map (ranked_call rk (fun e => (fst (fst e), snd e))) ops) = Some (s, fs) ->
    exists c b T, (b <- cpp_bst_new None None comp os ;; calls (fun b e => c_cart_insert same val b (fst (fst e)) (snd (fst e)) (snd e)) (c_cart_delete same val) b ops) = Ret (c, fs) /\ RB c b /\ mgood b T s /\ heap None T.
  Proof.
    intros HC HR. rewrite <- (map_id_bool fs). apply (mix_empty (fun e : K * Z * option D => (fst (fst e), snd e)) (fun b e => c_cart_insert same val b (fst (fst e)) (snd (fst e)) (snd e)) (c_cart_delete same val) (fun b e => cart_insert b (rk (fst (fst e))) (snd (fst e)) (snd e)) cart_delete (fun b T s => mgood b T s /\ heap None T) absent_key keep_newest (fun f => f)); try assumption.
    - intros b T s0 [G _]. exact G.
    - intros c b T s0 [[k p] d] HB [G _] _. apply (sim_cart_insert same val rk same_ok rk_inj); [exact HB|]. apply (room_m _ _ _ G).
    - intros b T s0 [[k p] d] [G HH] HM. cbn [fst snd] in *. unfold absent_key in HM. apply negb_true_iff in HM. destruct (TreeMix4.c_insert b T s0 (rk k) p d G HH HM) as (b1 & T1 & E1 & G1 & H1 & _). eauto.
    - intros c b T s0 k HB [G HH] HD. apply (sim_cart_delete same val rk same_ok rk_inj); [exact HB|]. apply (search_dense b T s0); assumption.
    - apply need_keep.
    - intros b T s0 k [G HH] HM. destruct (TreeMix4.c_delete b T s0 k G HH HM) as (b1 & T1 & E1 & G1 & H1 & _). eauto.
    - intros c o [[k p] d] HB. apply (sim_cart_insert same val rk same_ok rk_inj); [exact HB|apply fresh_room].
    - intros o [[k p] d]. cbn [fst snd]. rewrite cart_first. eexists. eexists. split; [reflexivity|]. split; [apply m_one; reflexivity|cbn; eauto 10].
  Qed.
  (** ** SplayTree *)
  Lemma csplay_mix comp os (ops : list (call K (K * option D))) s fs : order_of rk comp -> m_history absent_or_newest spare_ends None (map (ranked_call rk (fun e => e)) ops) = Some (s, fs) ->
    exists c b T, (b <- cpp_bst_new None None comp os ;; calls (fun b e => c_splay_insert same val b (fst e) (snd e)) (c_splay_delete same val) b ops) = Ret (c, fs) /\ RB c b /\ mgood b T s.
  Proof.
    intros HC HR. rewrite <- (map_id_bool fs). apply (mix_empty (fun e => e) (fun b e => c_splay_insert same val b (fst e) (snd e)) (c_splay_delete same val) (fun b e => splay_insert b (rk (fst e)) (snd e)) splay_delete mgood absent_or_newest spare_ends (fun f => f)); try assumption.
    - auto.
    - intros c b T s0 [k d] HB G _. apply (sim_splay_insert same val rk same_ok rk_inj); [exact HB|]. apply (room_m _ _ _ G).
    - intros b T s0 [k d] G HM. cbn [fst snd] in *. destruct (p_insert b T s0 (rk k) d G HM) as (b1 & T1 & E1 & G1 & _). eauto.
    - intros c b T s0 k HB G HD. apply (sim_splay_delete same val rk same_ok rk_inj); [exact HB|]. apply (parent_dense b T s0); assumption.
    - apply need_ends.
    - intros b T s0 k G HM. destruct (p_delete b T s0 k G HM) as (b1 & T1 & E1 & G1 & _). eauto.
    - intros c o [k d] HB. apply (sim_splay_insert same val rk same_ok rk_inj); [exact HB|apply fresh_room].
    - intros o [k d]. cbn [fst snd]. rewrite splay_first. eexists. eexists. split; [reflexivity|]. apply m_one. reflexivity.
  Qed.
  (** ** AVLTree *)
  Lemma cavl_mix comp os k0 (d0 : option D) (ops : list (call K (K * option D))) s fs : order_of rk comp -> m_run small_tree spare_newest (m_first (rk k0) d0) (map (ranked_call rk (fun e => e)) ops) = Some (s, fs) ->
    exists c b T, (b <- cpp_bst_new (Some k0) d0 comp os ;; calls (fun b e => c_avl_insert same val b (fst e) (snd e)) (c_avl_delete same val) b ops) = Ret (c, map (fun _ => true) fs) /\ RB c b /\ mgood b T s /\ avl os T.
  Proof.
    intros HC HR. destruct (cstart rk comp os k0 d0 HC) as (c0 & F0 & HB0). rewrite F0. cbn [bind].
    destruct (mix_gen (fun e => e) (fun b e => c_avl_insert same val b (fst e) (snd e)) (c_avl_delete same val) (fun b e => avl_insert b (rk (fst e)) (snd e)) avl_delete (fun b T s => mgood b T s /\ avl (b_os b) T /\ b_os b = os /\ m_used s <= 257) small_tree spare_newest (fun _ => true)) with (c := c0) (ops := ops) (fs := fs) (s' := s) (s := m_first (rk k0) d0) (b := mkbst (mkaft [Some (set_inf (with_isroot true) (new_node (Some (rk k0)) d0))] 1 0) (Some 0) 1 None os) (T := N E 0 (with_isroot true (new_info (Some (rk k0)) d0)) (@E D)) as (c & b & T & E1 & HB & G & AV & O & _); try assumption.
    - intros b T s0 [G _]. exact G.
    - intros c b T s0 [k d] HB (G & AV & O & U) HM. cbn [fst snd] in *. apply (sim_avl_insert same val rk same_ok rk_inj); [exact HB|apply (room_m _ _ _ G)|]. intros b1 E1. destruct (m_insert b T s0 (rk k) d G) as (b1' & T1 & E1' & _ & _ & G1 & _). rewrite E1 in E1'. injection E1' as <-. rewrite (mg_used _ _ _ G1). assert (U0 := mg_used _ _ _ G). assert (H4 := o_cap _ _ (mg_h _ _ _ G)). unfold small_tree in HM. unfold m_put. unfold cached.
      destruct (is_key (m_ents s0) (rk k)) eqn:EI; cbn [orb m_used] in *; lia.
    - intros b T s0 [k d] (G & AV & O & U) HM. cbn [fst snd] in *. destruct (a_insert b T s0 (rk k) d G AV) as (b1 & T1 & E1 & G1 & A1 & O1). exists b1, T1. split; [exact E1|]. split; [exact G1|]. split; [exact A1|]. split; [congruence|]. unfold small_tree in HM. unfold m_put. destruct (is_key (m_ents s0) (rk k)); cbn [m_used orb] in *; lia.
    - intros c b T s0 k HB (G & _) HD. apply (sim_avl_delete same val rk same_ok rk_inj); [exact HB|]. intros w p. apply (parent_dense b T s0); assumption.
    - apply need_newest.
    - intros b T s0 k (G & AV & O & U) HM. destruct (a_delete b T s0 k G AV HM) as (b1 & T1 & E1 & G1 & A1 & O1). exists b1, T1. split; [exact E1|]. split; [exact G1|]. split; [exact A1|]. split; [congruence|exact U].
    - split; [apply (m_start os (rk k0) d0 _ eq_refl)|]. split; [|split; [reflexivity|cbn; lia]]. apply (a_avl _ _ _ (one_agood os (rk k0) d0)).
    - exists c, b, T. rewrite O in AV. auto.
  Qed.
End CMix.
