(** Proofs: histories of calls on the C++ BinarySearchTree and AVLTree. *)
From Coq Require Import Sorting.Sorted.
From Verif Require Import Base TreeModel TreeModel2 TreeSpec TreeProofs TreeRotate TreeBst TreeTrav TreeQuery TreeLca TreeDel TreeHist TreeBalSpec TreeAvl TreeAvl2 TreeSim TreeMulti TreeDel2 TreeDel3 TreeDelSpec TreeDel4 TreeHist2Spec TreeHist2 TreeHist3 CppArrayModel CppTreeModel CppTreeQuery CppTreeSim CppTreeSpec CppTreeProofs.

Section H.
  Context {K D : Type} (same : K -> K -> bool) (val : K -> Z) (rk : K -> Z).
  Hypothesis same_ok : forall x y, same x y = true <-> x = y.
  Hypothesis rk_inj : forall x y, rk x = rk y -> x = y.
  Notation bt := (bt D). Notation bst := (bst D). Notation ktree := (ktree K D). Notation ctree := (ctree K D).
  Notation RB := (RB (D := D) rk).
  Lemma room_h (b : bst) T s : hgood b T s -> room (b_arr b).
  Proof. intros G. destruct (hg_h _ _ _ G) as [_ H1 H2 H3 _ H4]. unfold room. unfold b_mem in *. rewrite H2, H1. pose proof (len_nonneg _ (a_data (b_arr b))). split; [lia|]. destruct (Z.eqb_spec (b_size b - 1 + 1) (len (a_data (b_arr b)))); lia. Qed.
  Lemma len_entries_nodes (T : bt) : len (entries T) = nodes T.
  Proof. rewrite <- infos_len. unfold entries, len. rewrite map_length. reflexivity. Qed.
  Lemma dense_h (b : bst) T s z : hgood b T s -> may_delete s z = true -> dense_for b z.
  Proof.
    intros G HM w p Es. destruct (search_ok b T z (hg_def _ _ _ G) (o_at _ _ (hg_h _ _ _ G)) (hg_ord _ _ _ G) (hg_ne _ _ _ G)) as (c & S & _ & E1 & ET & _ & HS). rewrite Es in E1. injection E1 as E1 _. destruct HS as [->|(l & i & x & r & -> & Ek)]; [discriminate|].
    assert (HK : is_key (s_ents s) z = true). { apply existsb_exists. exists (entry x). split; [|unfold entry; rewrite Ek; apply Z.eqb_refl]. rewrite <- (hg_ents _ _ _ G). unfold entries. apply in_map. rewrite ET, infos_plug. cbn [infos]. rewrite !in_app_iff. right. left. right. left. reflexivity. }
    unfold may_delete in HM. rewrite HK in HM. cbn [negb orb] in HM. apply andb_true_iff in HM as [_ HM]. rewrite <- (hg_ents _ _ _ G), len_entries_nodes, <- (hg_used _ _ _ G) in HM. destruct (hg_h _ _ _ G) as [_ H1 H2 H3 _ H4]. unfold dense. unfold b_mem in *. lia.
  Qed.
  Lemma chist ops : forall (b0 : ctree) (b : bst) T s s' fs, RB b0 b -> hgood b T s -> bmap_run s (map (named rk) ops) = Some (s', fs) ->
    exists b0' b' T', cperform (c_insert same val) (c_delete same val) b0 ops = Ret (b0', fs) /\ RB b0' b' /\ hgood b' T' s' /\ b_os b' = b_os b.
  Proof.
    induction ops as [|o ops IH]; intros b0 b T s s' fs HB G; cbn [map bmap_run cperform]; [intros [= <- <-]; exists b0, b, T; auto|]. destruct o as [k d|k]; cbn [named bmap_step].
    - destruct (hg_insert b T s (rk k) d G) as (b1 & T1 & E1 & O1 & G1). destruct (sim_insert same val rk same_ok rk_inj b0 b k d HB (room_h _ _ _ G) _ E1) as (b2 & E2 & HB2). rewrite E2. cbn [bind]. destruct (bmap_run _ (map (named rk) ops)) as [[s2 f2]|] eqn:ER; [|discriminate]. intros [= <- <-]. destruct (IH _ _ _ _ _ _ HB2 G1 ER) as (b3 & b4 & T4 & E3 & HB3 & G3 & O3). exists b3, b4, T4. cbn [app]. split; [exact E3|]. split; [exact HB3|]. split; [exact G3|congruence].
    - destruct (may_delete s (rk k)) eqn:EM; [|discriminate]. destruct (hg_delete b T s (rk k) G EM) as (b1 & T1 & E1 & O1 & G1). destruct (sim_delete same val rk same_ok rk_inj b0 b k HB (dense_h _ _ _ _ G EM) _ E1) as ([b2 f] & E2 & HB2 & Ef). cbn [fst snd] in HB2, Ef. subst f. rewrite E2. cbn [bind]. destruct (bmap_run _ (map (named rk) ops)) as [[s2 f2]|] eqn:ER; [|discriminate]. intros [= <- <-]. destruct (IH _ _ _ _ _ _ HB2 G1 ER) as (b3 & b4 & T4 & E3 & HB3 & G3 & O3). rewrite E3. cbn [bind app]. exists b3, b4, T4. split; [reflexivity|]. split; [exact HB3|]. split; [exact G3|congruence].
  Qed.
  Lemma cstart comp os k0 (d0 : option D) : order_of rk comp -> exists b0, cpp_bst_new (Some k0) d0 comp os = Ret b0 /\ RB b0 (mkbst (mkaft [Some (set_inf (with_isroot true) (new_node (Some (rk k0)) d0))] 1 0) (Some 0) 1 None os).
  Proof.
    intros HC. eexists. split; [reflexivity|]. split; [reflexivity|]. split; [reflexivity|]. split; [reflexivity|]. intros x y. cbn [ct_comp]. rewrite HC. destruct (rk x <? rk y); reflexivity.
  Qed.
  Lemma cgood_of (b0 : ctree) (b : bst) T : RB b0 b -> tree_at (b_mem b) (b_root b) T -> a_num (b_arr b) = nodes T -> ordered (infos T) -> T <> E -> exists U, cgood rk b0 T U /\ held (ct_mem b0) (ct_root b0) None U.
  Proof.
    intros [-> HW] HT HN HO NE. assert (HT0 := HT). destruct HT0 as (HR & ND & ER). destruct (twin_ex rk (ct_mem b0) T None HR (proj1 HO)) as (U & HU & TW). exists U. split; [split; try assumption; reflexivity|]. cbn [dt b_root] in ER. rewrite ER. exact HU.
  Qed.
  (** everything about the state after a history *)
  Lemma cpp_history_ok comp os k0 d0 ops (s : bmap D) fs : order_of rk comp -> bmap_run (bmap_first (rk k0) d0) (map (named rk) ops) = Some (s, fs) ->
    exists b T U, cpp_bst_history same val comp os k0 d0 ops = Ret (b, fs) /\ cgood rk b T U /\ held (ct_mem b) (ct_root b) None U /\ s_ents s = named_entries rk (kents U) /\ (os = true -> sized T) /\
      ct_root b = Some 0 /\ (forall i, In i (idx T) -> 0 <= i < ct_size b) /\ ct_size b = s_used s /\ rkey T = Some (s_rootk s).
  Proof.
    intros HC HR. destruct (cstart comp os k0 d0 HC) as (b0 & E0 & HB0). destruct (chist ops _ _ _ _ _ _ HB0 (hg_start os (rk k0) d0) HR) as (b & b' & T & E1 & HB & G & O). destruct (cgood_of b b' T HB (o_at _ _ (hg_h _ _ _ G)) (o_num _ _ (hg_h _ _ _ G)) (hg_ord _ _ _ G) (hg_ne _ _ _ G)) as (U & CG & HU).
    exists b, T, U. split; [unfold cpp_bst_history; rewrite E0; exact E1|]. split; [exact CG|]. split; [exact HU|]. split; [rewrite <- (hg_ents _ _ _ G); exact (cg_ents val rk _ _ _ CG)|]. split; [intros ->; apply (hg_sz _ _ _ G); exact O|]. rewrite <- (RB_rt _ _ _ HB), <- (RB_sz _ _ _ HB). split; [apply (hg_root _ _ _ G)|]. split; [apply (o_idx _ _ (hg_h _ _ _ G))|]. split; [apply (hg_used _ _ _ G)|apply (hg_rk _ _ _ G)].
  Qed.

  (** ** AVL *)
  Lemma sorted_len (l l' h h' : list (Z * option D)) : sorted_map l h -> sorted_map l' (h ++ h') -> len l <= len l'.
  Proof.
    intros [S1 H1] [S2 H2]. assert (ND : NoDup (map fst l)). { clear - S1. induction S1 as [|a q S1 IH HF]; constructor; [|assumption]. intros X. rewrite Forall_forall in HF. specialize (HF a X). lia. }
    assert (I : incl (map fst l) (map fst l')).
    { intros k Hk. apply in_map_iff in Hk as ((k1 & d) & <- & Hk). cbn [fst]. apply H1 in Hk. assert (exists d', last_data (h ++ h') k1 = Some d') as (d' & Hd).
      { clear - Hk. revert d Hk. induction h as [|[k d0] h IH]; intros d; cbn [app last_data]; [discriminate|]. destruct (last_data h k1) as [e|].
        - intros [= ->]. destruct (IH d eq_refl) as (d' & ->). eauto.
        - destruct (last_data (h ++ h') k1); [eauto|]. destruct (k1 =? k); [eauto|discriminate]. }
      apply H2 in Hd. apply in_map_iff. exists (k1, d'). auto. }
    apply NoDup_incl_length in I; [|exact ND]. rewrite !map_length in I. unfold len. lia.
  Qed.
  Lemma room_g (b : bst) T : grown b T -> room (b_arr b).
  Proof. intros [_ H1 H2 H3 _ H4]. unfold room. unfold b_mem in *. rewrite H2, H1. split; [lia|]. destruct (Z.eqb_spec (b_size b - 1 + 1) (len (a_data (b_arr b)))); lia. Qed.
  Definition nh (h : list (K * option D)) : list (Z * option D) := named_entries rk h.
  Lemma cavl_ins h : forall (b0 : ctree) (b : bst) T H l, RB b0 b -> agood b T H -> sorted_map l (H ++ nh h) -> len l <= 257 ->
    exists b0' b' T', cperform (c_avl_insert same val) (c_avl_delete same val) b0 (map (fun e => CIns (fst e) (snd e)) h) = Ret (b0', []) /\ RB b0' b' /\ agood b' T' (H ++ nh h) /\ b_os b' = b_os b.
  Proof.
    induction h as [|[k d] h IH]; intros b0 b T H l HB G SM HL; cbn [map cperform fst snd].
    - exists b0, b, T. cbn [nh named_entries map]. rewrite app_nil_r. auto.
    - destruct (avl_insert_ok b T H (rk k) d G) as (b1 & T1 & E1 & G1 & O1). assert (EQ : H ++ nh ((k, d) :: h) = (H ++ [(rk k, d)]) ++ nh h) by (rewrite <- app_assoc; reflexivity). rewrite EQ in *.
      assert (CC : forall b2, insert b (rk k) d = Ret b2 -> cached (b_size b2 - 1) = true).
      { intros b2 E2. destruct G as [AD AG AC AN AA]. destruct (insert_gen b T H (rk k) d AD AG AC AN (avl_sized _ _ AA)) as (c & S & b3 & _ & E3 & _ & _ & _ & HM). rewrite E2 in E3. injection E3 as <-.
        assert (exists T2, grown b2 T2 /\ cont T2 (H ++ [(rk k, d)])) as (T2 & G2 & C2) by (destruct S; [destruct HM as (_ & _ & ? & ?)|destruct HM as (_ & ? & ?)]; eauto).
        assert (X := sorted_len _ _ _ _ (cont_map _ _ C2) SM). rewrite len_entries_nodes, (g_nodes _ _ G2) in X. assert (0 < b_size b2) by (pose proof (g_cap _ _ G2); pose proof (len_nonneg _ (b_mem b2)); lia). unfold cached. lia. }
      destruct (sim_avl_insert same val rk same_ok rk_inj b0 b k d HB (room_g _ _ (a_grown _ _ _ G)) CC _ E1) as (b2 & E2 & HB2). rewrite E2. cbn [bind]. destruct (IH _ _ _ _ _ HB2 G1 SM HL) as (b3 & b4 & T4 & E3 & HB3 & G3 & O3). exists b3, b4, T4. split; [exact E3|]. split; [exact HB3|]. split; [exact G3|congruence].
  Qed.
  Lemma cperform_app ins del : forall (o1 o2 : list (cop K D)) b, cperform ins del b (o1 ++ o2) = ' (b, f1) <- cperform ins del b o1 ;; ' (b, f2) <- cperform ins del b o2 ;; Ret (b, f1 ++ f2).
  Proof.
    induction o1 as [|[k d|k] o1 IH]; intros o2 b; cbn [app cperform].
    - cbn [bind]. destruct (cperform ins del b o2) as [[? ?]| |]; reflexivity.
    - destruct (ins b k d); cbn [bind]; auto.
    - destruct (del b k) as [[b1 f]| |]; cbn [bind]; [|reflexivity..]. rewrite IH. destruct (cperform ins del b1 o1) as [[b2 f2]| |]; cbn [bind]; [|reflexivity..]. destruct (cperform ins del b2 o2) as [[b3 f3]| |]; reflexivity.
  Qed.
  Lemma cavl_del ks : forall (b0 : ctree) (b : bst) T, RB b0 b -> default b -> slim b T -> ordered (infos T) -> T <> E -> avl (b_os b) T -> len (b_mem b) <= 4 * (nodes T - len ks) -> (2 <= nodes T - len ks \/ len ks <= 1) ->
    exists b0' b' T', cperform (c_avl_insert same val) (c_avl_delete same val) b0 (map CDel ks) = Ret (b0', map (fun _ => true) ks) /\ RB b0' b' /\ default b' /\ slim b' T' /\ ordered (infos T') /\ T' <> E /\ b_os b' = b_os b /\
      entries T' = fst (deleted (entries T) (map rk ks)) /\ (2 <= nodes T - len ks -> avl (b_os b) T') /\ balanced T'.
  Proof.
    induction ks as [|k ks IH]; intros b0 b T HB HD SP HO HE AV HL HN; cbn [map cperform deleted].
    - exists b0, b, T. cbn [fst]. do 9 (split; [auto|]). apply (avl_spec _ _ AV).
    - assert (LK : len (k :: ks) = len ks + 1) by (unfold len; cbn [length]; lia). pose proof (len_nonneg _ ks). pose proof (nodes_nonneg T).
      destruct (avl_delete_ok b T (rk k) HD SP HO HE AV ltac:(lia)) as (b1 & T1 & E1 & SP1 & EE & HE1 & HN1 & HLn & HC & HOs & AV1 & BL1).
      assert (DF : dense_for b (rk k)). { intros w p _. unfold dense. rewrite (sl_num _ _ SP). unfold b_mem in *. lia. }
      destruct (sim_avl_delete same val rk same_ok rk_inj b0 b k HB DF _ E1) as ([b2 f] & E2 & HB2 & Ef). cbn [fst snd] in HB2, Ef. subst f. rewrite E2. cbn [bind].
      assert (O1 : ordered (infos T1)) by (apply (ordered_without (rk k) (infos T)); assumption). assert (D1 : default b1) by (unfold default in *; congruence).
      assert (EN : entries T1 = filter (fun e => negb (fst e =? rk k)) (entries T)). { apply okeys_inj. rewrite <- ents_okeys, EE, ents_okeys, without_okeys by assumption. reflexivity. }
      destruct ks as [|k2 ks2].
      + cbn [cperform bind deleted fst map]. exists b2, b1, T1. split; [reflexivity|]. rewrite <- EN. do 6 (split; [assumption|]). split; [reflexivity|]. rewrite LK. split; [intros N3; apply AV1; cbn in N3; lia|exact BL1].
      + destruct HN as [HN|HN]; [|unfold len in HN; cbn [length] in HN; lia]. destruct (IH b2 b1 T1 HB2 D1 SP1 O1 HE1 ltac:(rewrite HOs; apply AV1; unfold len in *; cbn [length] in *; lia) ltac:(lia) ltac:(left; lia)) as (b3 & b4 & T2 & E3 & HB3 & D2 & SP2 & O2 & HE2 & OS2 & EN2 & AV2 & BL2). rewrite E3. cbn [bind]. rewrite EN in EN2.
        exists b3, b4, T2. split; [reflexivity|]. do 5 (split; [assumption|]). split; [congruence|]. split; [rewrite EN2; destruct (deleted _ (map rk (k2 :: ks2))); reflexivity|]. split; [|exact BL2]. intros _. rewrite <- HOs. apply AV2. lia.
  Qed.
  Lemma cpp_avl_ok comp os k0 d0 h ks (l : list (Z * option D)) : order_of rk comp -> sorted_map l (nh ((k0, d0) :: h)) -> len l <= 257 -> 2 * len ks <= len l ->
    exists b T U, cpp_avl_history same val comp os k0 d0 (map (fun e => CIns (fst e) (snd e)) h ++ map CDel ks) = Ret (b, map (fun _ => true) ks) /\ cgood rk b T U /\ held (ct_mem b) (ct_root b) None U /\
      named_entries rk (kents U) = fst (deleted l (map rk ks)) /\ kbalanced U /\ (3 <= len l -> os = true -> sized T).
  Proof.
    intros HC SM HL HK. destruct (cstart comp os k0 d0 HC) as (b0 & E0 & HB0). assert (G0 := one_agood os (rk k0) d0). destruct (cavl_ins h _ _ _ _ l HB0 G0 SM HL) as (b1 & b1' & T1 & E1 & HB1 & G1 & O1). cbn [b_os] in O1. change ([(rk k0, d0)] ++ nh h) with (nh ((k0, d0) :: h)) in G1.
    assert (EL : l = entries T1) by (eapply sorted_map_unique; [exact SM|apply cont_map; apply (a_cont _ _ _ G1)]). assert (NL : len l = nodes T1) by (rewrite EL; apply len_entries_nodes). assert (GG := a_grown _ _ _ G1). assert (CP := g_cap _ _ GG). rewrite <- (g_nodes _ _ GG) in CP. pose proof (len_nonneg _ ks). assert (0 < nodes T1) by (assert (NE := a_ne _ _ _ G1); destruct T1 as [|a1 a2 a3 a4]; [congruence|cbn [nodes]; pose proof (nodes_nonneg a1); pose proof (nodes_nonneg a4); lia]).
    destruct (cavl_del ks b1 b1' T1 HB1 (a_def _ _ _ G1) (grown_slim _ _ GG) (proj1 (a_cont _ _ _ G1)) (a_ne _ _ _ G1) (a_avl _ _ _ G1) ltac:(lia) ltac:(lia)) as (b & b' & T & E2 & HB & D2 & SP2 & O2 & HE2 & OS2 & EN2 & AV2 & BL2).
    destruct (cgood_of b b' T HB (sl_at _ _ SP2) (sl_num _ _ SP2) O2 HE2) as (U & CG & HU). exists b, T, U. split; [unfold cpp_avl_history; rewrite E0; cbn [bind]; rewrite cperform_app, E1; cbn [bind]; rewrite E2; reflexivity|]. split; [exact CG|]. split; [exact HU|].
    split; [rewrite <- (cg_ents val rk _ _ _ CG), EN2, EL; reflexivity|]. split; [apply (twin_balanced val rk T); [exact (cg_twin rk _ _ _ CG)|exact BL2]|]. intros N3 ->. apply (avl_sized (b_os b1') T); [apply AV2; lia|exact O1].
  Qed.
End H.
