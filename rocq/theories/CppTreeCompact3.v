(** The C++ BinarySearchTree does what the Python one does for every delete the textbook tree is claimed for (TreeShapeSpec.v). Continues CppTreeCompact2.v. *)
From Coq Require Import Sorting.Sorted.
From Verif Require Import Base ArraysProofs DistProofs2 TreeModel TreeModel2 TreeSpec TreeProofs TreeRotate TreeBst TreeTrav TreeQuery TreeDel TreeHist TreeDel2 TreeCompact TreeDel5 TreeHist2 CppArrayModel CppTreeModel CppTreeModel2 CppTreeQuery CppTreeSim CppTreeSim2 CppTreeSpec CppTreeSpec2 CppTreeProofs CppTreeHist CppTreeHist2 CppTreeCompact CppTreeCompact2.
From Verif Require Import TreeShapeSpec TreeShape TreeShape2 TreeShape3 CppTreeShapeSpec.

Section Shape.
  Context {K D : Type} (same : K -> K -> bool) (val : K -> Z) (rk : K -> Z).
  Hypothesis same_ok : forall x y, same x y = true <-> x = y.
  Hypothesis rk_inj : forall x y, rk x = rk y -> x = y.
  Hypothesis val_inj : forall x y, val x = val y -> x = y.
  Notation RM := (RM (D := D) rk). Notation RN := (RN (D := D) rk). Notation dn := (dn (D := D) rk). Notation di := (di (D := D) rk). Notation dm := (dm (D := D) rk). Notation dt := (dt (D := D) rk).
  Notation RW := (RW (D := D) rk). Notation RAW := (RAW (D := D) rk). Notation dense := (dense (D := D)).
  Notation bt := (bt D). Notation bst := (bst D). Notation ctree := (ctree K D).
  Ltac rm := first [eassumption | eapply RW_mem; eassumption].
  Ltac step :=
    match goal with
    | |- sim _ _ (Raise _) => apply sim_raise
    | |- sim _ _ OutOfFuel => apply sim_out
    | |- sim _ (bind (cget _ _) _) (bind (tget _ _) _) => eapply sim_bind; [eapply sim_get; rm | let x := fresh "n" in let y := fresh "m" in let z := fresh "HN" in intros x y z; unfold CppTreeSim.RN in z; subst y]
    | |- sim _ (cget _ _) (tget _ _) => eapply sim_get; rm
    | |- sim _ (bind (cmod _ _ _) _) (bind (tmod _ _ _) _) => eapply sim_bind; [eapply sim_mod; [rm | reflexivity] | let x := fresh "t" in let y := fresh "u" in let z := fresh "HM" in intros x y z]
    | |- sim _ (cmod _ _ _) (tmod _ _ _) => eapply sim_mod; [rm | reflexivity]
    end.
  Ltac red1 := rewrite ?dn_left, ?dn_right, ?dn_parent, ?dn_inf, ?dn_key; cbn [CppTreeSim.di k_height k_size k_data k_isroot].
  Lemma sim_aft_delete_dw a a' i : RAW a a' -> dense a' -> sim (fun x y => RAW (fst x) (fst y) /\ snd x = None /\ snd y = None) (carr_delete val a i) (aft_delete a' i).
  Proof.
    intros (-> & A2) HD. unfold CppTreeSim.dense in HD. cbn [a_data a_num] in HD. rewrite dm_lenz in HD. destruct i as [i|]; [|apply sim_raise]. unfold carr_delete, aft_delete. cbn [a_data a_last a_num].
    destruct ((i <=? cr_last a) && (0 <=? i)) eqn:Ei; [|apply sim_ret; cbn; split; [split; [reflexivity|assumption]|split; reflexivity]].
    intros y. unfold aget, rawget. rewrite dm_lenz. destruct ((i <? 0) || (len (cr_buf a) <=? i)) eqn:E1; [discriminate|]. unfold dm at 1. rewrite nth_error_map. destruct (nth_error (cr_buf a) (Z.to_nat i)) as [[n|]|]; cbn [option_map bind]; try discriminate.
    - intros E. change (@None (node D)) with (option_map dn None) in E. destruct (aset (dm (cr_buf a)) i (option_map dn None)) as [u| |] eqn:Es; try discriminate. cbn [bind] in E.
      destruct (sim_set rk _ (cr_buf a) (dm (cr_buf a)) i None (conj eq_refl eq_refl) ltac:(lia) u Es) as (u0 & -> & [-> HL]). cbn [bind].
      assert (LT : len u0 = len (cr_buf a)) by (unfold len; lia).
      revert E. unfold aft_modify, carr_modify. cbn [a_num a_data cr_num cr_size cr_last]. rewrite dm_lenz. rewrite A2, LT. destruct (4 * (cr_num a - 1) <? len (cr_buf a)) eqn:E2; [lia|]. intros E. inversion E; subst y. eexists. split; [reflexivity|]. cbn. split; [|auto]. split; [reflexivity|]. cbn. lia.
    - intros E. inversion E; subst. eexists. split; [reflexivity|]. cbn. split; [|auto]. split; [reflexivity|]. auto.
  Qed.
  (** ** delete *)
  Ltac del := eapply sim_bind; [apply sim_aft_delete_dw; [apply RW_arr; eassumption|assumption]|]; let x := fresh "x" in let y := fresh "y" in let A := fresh "HA" in let H1 := fresh in let H2 := fresh in intros [x ?] [y ?] (A & H1 & H2); cbn in A, H1, H2; subst.
  Lemma dense_set b t : dense (b_arr b) -> length t = length (b_mem b) -> dense (b_arr (set_mem b t)).
  Proof. unfold CppTreeSim.dense, b_mem. cbn. intros H E. unfold len in *. rewrite E. exact H. Qed.
  Lemma sim_delete_info_dw b b' k : RW b b' -> dense (b_arr b') -> sim (fun x y => RW (fst x) (fst y) /\ snd y = snd x) (c_delete_info same val b k) (delete_info b' (rk k)).
  Proof.
    intros HB HD. unfold c_delete_info, delete_info. assert (LL : length (ct_mem b) = length (b_mem b')) by (symmetry; apply (RM_len rk _ _ _ (RW_mem rk _ _ HB))).
    assert (HS : forall t t', RM (length (ct_mem b)) t t' -> RW (cset_mem b t) (set_mem b' t') /\ dense (b_arr (set_mem b' t'))).
    { intros t t' HM. split; [apply RW_set; assumption|]. apply dense_set; [exact HD|]. rewrite (RM_len rk _ _ _ HM). exact LL. }
    eapply sim_bind; [apply (sim_search_parent_w same rk same_ok rk_inj); exact HB|]. intros [walk parent] ? <-. destruct walk as [walk|]; [|apply sim_ret; cbn; auto]. step. red1.
    assert (Fin : forall b1 b1' a, RW b1 b1' -> sim (fun x y => RW (fst x) (fst y) /\ snd y = snd x) (b2 <- c_update_size b1 a ;; Ret (b2, Some a)) (b2 <- update_size b1' a ;; Ret (b2, Some a))).
    { intros b1 b1' a H1. eapply sim_bind; [apply (sim_update_size_w rk); exact H1|]. intros b2 b2' H2. apply sim_ret. cbn. auto. }
    destruct (cn_left n) as [lf|] eqn:El, (cn_right n) as [rg|] eqn:Er.
    - rewrite (RW_fuel rk _ _ HB). eapply sim_bind with (R := eq).
      + eapply sim_while with (I := eq); [|reflexivity]. intros [[tw par] flag] ? <-. step. red1. destruct (cn_left n0); apply sim_ret; reflexivity.
      + intros [[tw par] flag] ? <-. step. eapply sim_bind; [eapply sim_mod; [rm|reflexivity]|]. intros t t' HT. step. red1.
        eapply sim_bind with (R := RM (length (ct_mem b))); [destruct flag; (eapply sim_mod; [exact HT|reflexivity])|]. intros t1 t1' HT1. step. red1.
        eapply sim_bind with (R := RM (length (ct_mem b))). { destruct (cn_right n2); [eapply sim_mod; [exact HT1|reflexivity]|apply sim_ret; exact HT1]. }
        intros t2 t2' HT2. destruct (HS _ _ HT2) as [HB2 HD2]. step. change (b_root (set_mem b' t2')) with (b_root b'). change (ct_root (cset_mem b t2)) with (ct_root b). rewrite (RW_rt rk _ _ HB). step. red1. del.
        cbn [c_after_delete after_delete bind]. apply Fin. apply RW_set_arr; assumption.
    - destruct parent as [parent|].
      + step. red1. eapply sim_bind with (R := RM (length (ct_mem b))); [destruct (oeqb (cn_left n0) (Some walk)); (eapply sim_mod; [rm|reflexivity])|]. intros t t' HT. step. destruct (HS _ _ HM) as [HB2 HD2].
        step. change (b_root (set_mem b' u)) with (b_root b'). change (ct_root (cset_mem b t0)) with (ct_root b). rewrite (RW_rt rk _ _ HB). step. red1. del. cbn [bind]. apply Fin. apply RW_set_arr; assumption.
      + step. rewrite (RW_rt rk _ _ HB). red1. eapply sim_bind; [eapply sim_mod; [rm|reflexivity]|]. intros t t' HT. destruct (HS _ _ HT) as [HB2 HD2]. change (b_root (set_mem b' t')) with (b_root b'). change (ct_root (cset_mem b t)) with (ct_root b). rewrite (RW_rt rk _ _ HB). step. red1. del. cbn [bind]. apply sim_ret. cbn. split; [|reflexivity]. apply RW_set_arr; assumption.
    - destruct parent as [parent|].
      + step. red1. eapply sim_bind with (R := RM (length (ct_mem b))); [destruct (oeqb (cn_left n0) (Some walk)); (eapply sim_mod; [rm|reflexivity])|]. intros t t' HT. step. destruct (HS _ _ HM) as [HB2 HD2].
        step. change (b_root (set_mem b' u)) with (b_root b'). change (ct_root (cset_mem b t0)) with (ct_root b). rewrite (RW_rt rk _ _ HB). step. red1. del. cbn [bind]. apply Fin. apply RW_set_arr; assumption.
      + step. rewrite (RW_rt rk _ _ HB). red1. eapply sim_bind; [eapply sim_mod; [rm|reflexivity]|]. intros t t' HT. destruct (HS _ _ HT) as [HB2 HD2]. change (b_root (set_mem b' t')) with (b_root b'). change (ct_root (cset_mem b t)) with (ct_root b). rewrite (RW_rt rk _ _ HB). step. red1. del. cbn [bind]. apply sim_ret. cbn. split; [|reflexivity]. apply RW_set_arr; assumption.
    - eapply sim_bind with (R := fun x y => RW (fst x) (fst y) /\ snd y = snd x).
      + destruct parent as [parent|].
        * step. red1. eapply sim_bind with (R := RM (length (ct_mem b))); [destruct (oeqb (cn_left n0) (Some walk)); (eapply sim_mod; [rm|reflexivity])|]. intros t t' HT. destruct (HS _ _ HT) as [HB2 HD2].
          step. change (b_root (set_mem b' t')) with (b_root b'). change (ct_root (cset_mem b t)) with (ct_root b). rewrite (RW_rt rk _ _ HB). step. red1. del. cbn [c_after_delete after_delete]. apply sim_ret. cbn. split; [|reflexivity]. apply RW_set_arr; assumption.
        * rewrite (RW_rt rk _ _ HB). eapply sim_bind; [eapply sim_mod; [rm|reflexivity]|]. intros t t' HT. apply sim_ret. cbn. split; [|reflexivity]. apply RW_set; assumption.
      + intros [b1 a] [b1' a'] [H1 H2]. cbn in H1, H2. subst a'. apply Fin. exact H1.
  Qed.
  Lemma sim_delete_dw b b' k : RW b b' -> dense (b_arr b') -> sim (fun x y => RW (fst x) (fst y) /\ snd y = snd x) (c_delete same val b k) (delete b' (rk k)).
  Proof. intros HB HD. unfold c_delete, delete. eapply sim_bind; [apply sim_delete_info_dw; eassumption|]. intros [b1 a] [b1' a'] [H1 H2]. cbn in H1, H2. subst. apply sim_ret. cbn. auto. Qed.

  (** ** the deletes of the textbook tree *)
  Lemma shape_sim (c : ctree) (b : bst) T s k : RW c b -> stands b s T -> deletable s (rk k) = true -> sim (fun x y => RW (fst x) (fst y) /\ snd y = snd x) (c_delete same val c k) (delete b (rk k)).
  Proof.
    intros HB (HD & G & HO & HE & SK & SL) CD. assert (SP := sn_slim _ _ G). assert (DN : CppTreeSim.dense (b_arr b) \/ ~ CppTreeSim.dense (b_arr b)) by (unfold CppTreeSim.dense; lia). destruct DN as [DN|DN]; [apply sim_delete_dw; assumption|].
    apply (sim_delete_w same val rk same_ok rk_inj val_inj); [exact HB|eapply num_pos; eassumption|]. intros (w & p & n & E1 & E2 & E3).
    destruct (search_ok b T (rk k) HD (sl_at _ _ SP) HO HE) as (c0 & S & _ & ES & ET & HP & HK). rewrite E1 in ES. injection ES as EW EC. subst w.
    destruct HK as [-> | (l & i & x & r & -> & Ek)]; [cbn [root tget] in E2; discriminate|]. cbn [root] in E2. subst T. rewrite (tget_ok _ _ _ (sub_cell _ _ _ _ _ _ _ (sl_at _ _ SP))) in E2. injection E2 as <-. cbn [n_left n_right] in E3.
    assert (NT : c0 <> Top) by (intros ->; discriminate EC). assert (F := find_here c0 l i x r (rk k) Ek HP). rewrite SK in F. unfold deletable in CD. rewrite F in CD.
    destruct (splug_root (rk k) c0 (skel (N l i x r)) NT HP) as (l0 & j0 & d0 & r0 & Q1 & Q2). rewrite <- skel_plug, SK in Q1. rewrite Q1, Q2 in CD.
    assert (HN := skel_size (plug c0 (N l i x r))). rewrite SK in HN. assert (NC : compacting s = true) by (unfold compacting; rewrite HN, <- SL; unfold CppTreeSim.dense in DN; rewrite (sl_num _ _ SP) in DN; unfold b_mem; lia). rewrite NC in CD. cbn [negb] in CD.
    destruct l, r; cbn [skel is_leaf andb orb root is_none] in *; congruence.
  Qed.
  Lemma cpp_shape_deletes ks : forall (c : ctree) (b : bst) T s s' fs, RW c b -> stands b s T -> st_deletes (map rk ks) s = Some (s', fs) ->
    exists c' b' T', delete_each (c_delete same val) c ks = Ret (c', fs) /\ RW c' b' /\ stands b' s' T' /\ b_os b' = b_os b /\ (b_os b = true -> counted T -> counted T') /\ (b_root b = Some 0 -> b_root b' = Some 0).
  Proof.
    induction ks as [|k ks IH]; intros c b T s s' fs HB G; cbn [st_deletes delete_each map]; [intros [= <- <-]; exists c, b, T; auto 10|].
    destruct (deletable s (rk k)) eqn:CD; [|discriminate]. destruct (st_deletes (map rk ks) (st_delete (rk k) s)) as [[s1 fs1]|] eqn:E1; [|discriminate]. intros [= <- <-].
    destruct (shape_delete b T s (rk k) G CD) as (b1 & T1 & E2 & G1 & O1 & Z1 & RZ1). destruct (shape_sim c b T s k HB G CD _ E2) as ([c1 f1] & F1 & HB1 & Ef). cbn [fst snd] in *. subst f1. rewrite F1. cbn [bind].
    destruct (IH _ _ _ _ _ _ HB1 G1 E1) as (c2 & b2 & T2 & E3 & HB2 & G2 & O2 & Z2 & RZ2). rewrite E3. cbn [bind]. exists c2, b2, T2. split; [reflexivity|]. split; [exact HB2|]. split; [exact G2|]. split; [congruence|]. split; [|auto].
    intros HOS HZ. apply Z2; [congruence|]. exact (counted_step b b1 s T T1 (rk k) G CD G1 (Z1 HOS) HZ).
  Qed.
  Lemma twin_tree (T : bt) : forall U, twin rk T U -> named_tree rk U = skel T.
  Proof. induction T as [|l IHl i x r IHr]; intros [|l' k d r']; cbn [twin]; try tauto. intros (Ek & Ed & H1 & H2). cbn [named_tree skel]. rewrite (IHl _ H1), (IHr _ H2). unfold kk. rewrite Ek, Ed. reflexivity. Qed.
  Lemma cpp_shape_build comp os h : order_of rk comp -> h <> [] ->
    exists (b0 c : ctree) (b : bst) (T : bt), cpp_bst_new None None comp os = Ret b0 /\ insert_each (fun b e => c_insert same val b (fst e) (snd e)) b0 h = Ret c /\ RB rk c b /\ shaped b T (named_entries rk h) (st_inserts (named_entries rk h)) /\ b_os b = os.
  Proof.
    intros HC NE. destruct (empty_start (D := D) rk comp os HC) as (b0 & E0' & HB0). destruct h as [|[k d] h]; [congruence|].
    assert (F := fresh_insert os (rk k) d). destruct (sim_insert same val rk same_ok rk_inj b0 _ k d HB0 (fresh_room os) _ F) as (c1 & F1 & HB1). assert (S1 := one_shaped os (rk k) d).
    destruct (ins_gen rk (fun e : K * option D => e) (fun b e => c_insert same val b (fst e) (snd e)) (fun b e => insert b (rk (fst e)) (snd e)) (fun b T h => shaped b T h (st_inserts h) /\ b_os b = os) (fun _ _ => True)) with (h := h) (c := c1) (h0 := [(rk k, d)]) (b := mkbst (mkaft [Some (set_inf (with_isroot true) (new_node (Some (rk k)) d))] 1 0) (Some 0) 1 None os) (T := N E 0 (with_isroot true (new_info (Some (rk k)) d)) E) as (c & b & T & E1 & HB & G & O).
    - intros b T h0 ((G & _) & _). apply (h_grown _ _ _ G).
    - intros c b [k1 d1] HB HR. apply (sim_insert same val rk same_ok rk_inj); assumption.
    - intros b T h0 [k1 d1] (G & O) _. cbn [nm fst snd] in *. destruct (shape_insert b T h0 _ (rk k1) d1 G) as (b1 & T1 & E1 & G1 & O1). exists b1, T1. split; [exact E1|]. split; [|congruence]. unfold st_inserts in *. rewrite fold_left_app. cbn [fold_left fst snd]. exact G1.
    - exact HB1.
    - split; [exact S1|reflexivity].
    - auto.
    - exists b0, c, b, T. split; [exact E0'|]. split; [cbn [insert_each fst snd]; rewrite F1; exact E1|]. split; [exact HB|]. split; [exact G|exact O].
  Qed.
  Lemma used_in (m : mem D) i : used m i = true -> 0 <= i < len m.
  Proof. intros H. destruct (used_cell _ _ H) as (n & E0). apply (cell_inb _ _ _ E0). Qed.
  Lemma cpp_shape comp os h ks s fs : order_of rk comp -> h <> [] -> st_deletes (map rk ks) (st_inserts (named_entries rk h)) = Some (s, fs) ->
    exists (c : ctree) (T : bt) U, from_empty (fun b e => c_insert same val b (fst e) (snd e)) (c_delete same val) comp os h ks = Ret (c, fs) /\ cgood rk (renewed c) T U /\ held (ct_mem c) (ct_root c) None U /\ named_tree rk U = s_tree s /\
      (forall i, In i (idx T) -> 0 <= i < len (ct_mem c)) /\ (os = true -> counted T) /\ ct_root c = Some 0 /\ len (ct_mem c) = s_cells s.
  Proof.
    intros HC NE H. destruct (cpp_shape_build comp os h HC NE) as (b0 & c & b & T & E1 & E2 & HB & G & OS). destruct (cpp_shape_deletes ks c b T _ s fs (RB_RW _ _ _ HB) (shaped_stands _ _ _ _ G) H) as (c' & b' & T' & E3 & HB' & (HD & SN & HO & HE & SK & SL) & _ & CZ & RZ).
    destruct (cgood_of rk (renewed c') b' T' (RW_renewed rk _ _ HB') (sl_at _ _ (sn_slim _ _ SN)) (sl_num _ _ (sn_slim _ _ SN)) HO HE) as (U & CG & HU). exists c', T', U. split; [unfold from_empty; rewrite E1; cbn [bind]; rewrite E2; cbn [bind]; exact E3|]. split; [exact CG|]. split; [exact HU|].
    split; [rewrite <- SK; apply twin_tree, (cg_twin _ _ _ _ CG)|]. assert (LM : len (ct_mem c') = len (b_mem b')) by (destruct HB' as [-> _]; unfold b_mem; cbn [dt b_arr a_data]; rewrite dm_lenz; reflexivity). split; [|split; [|split]].
    - intros i Hi. assert (R := used_in _ i (rep_used _ _ _ (proj1 (sl_at _ _ (sn_slim _ _ SN))) i Hi)). rewrite LM. exact R.
    - intros ->. apply CZ; [exact OS|]. left. apply (h_sz _ _ _ (proj1 G)). exact OS.
    - rewrite <- (RW_rt rk _ _ HB'). apply RZ. apply (h_root _ _ _ (proj1 G)).
    - congruence.
  Qed.
  (** rank and select of a tree of one node, whatever size it stores *)
  Lemma cg_os_one (b : ctree) i x U : cgood rk b (N E i x E) U ->
    (forall i, 1 <= i <= len (kents U) -> exists n e, c_select b i = Ret (Some n) /\ nth_error (kents U) (Z.to_nat (i - 1)) = Some e /\ cn_key n = Some (fst e) /\ ck_data (cn_inf n) = snd e /\ c_rank same b (fst e) = Ret (Some i)) /\
    (forall i, i < 1 \/ len (kents U) < i -> c_select b i = Raise ValueError) /\
    (forall k, ~ In k (map fst (kents U)) -> c_rank same b k = Ret None).
  Proof.
    intros G. assert (HB := cg_RB rk _ _ _ G). assert (HT := cg_twin _ _ _ _ G). destruct (os_view_one (dt b) i x (cg_def _ _ _ _ G) (cg_at _ _ _ _ G) (cg_num _ _ _ _ G) (cg_ord _ _ _ _ G)) as (O1 & _ & O3). rewrite (cg_ents val rk _ _ _ G) in O1, O3.
    destruct U as [|l k d r]; [destruct HT|]. cbn [twin] in HT. destruct HT as (Ek & Ed & Hl & Hr). destruct l; [|destruct Hl]. destruct r; [|destruct Hr]. cbn [kents app] in *. change (len [(k, d)]) with 1.
    assert (HC : tget (b_mem (dt b)) (Some i) = Ret (mknode x None None None)) by (apply tget_ok; apply (proj1 (proj1 (cg_at _ _ _ _ G)))). destruct (sim_get rk _ _ _ (Some i) (RB_mem rk _ _ HB) _ HC) as (n & En & Rn). unfold CppTreeSim.RN in Rn. assert (Nl : cn_left n = None) by (destruct n; cbn in Rn; injection Rn; auto).
    assert (ER : ct_root b = Some i) by (apply (proj2 (cg_at _ _ _ _ G))). assert (EI : x = di (cn_inf n)) by (destruct n; cbn in Rn; injection Rn; auto). split; [|split].
    - intros j Hj. assert (j = 1) by lia. subst j. exists n, (k, d). split; [|split; [reflexivity|]].
      + unfold c_select. rewrite (cg_num _ _ _ _ G). change (1 - 1) with 0. change (0 <? 0) with false. change (nodes (N E i x E) <=? 0) with false. cbv iota zeta. unfold cfuel. cbn [while_loop]. rewrite ER, En. cbn [bind]. unfold c_left_size. rewrite Nl. reflexivity.
      + rewrite EI in Ek, Ed. cbn [di k_key k_data] in Ek, Ed. split; [|split].
        * unfold cn_key. destruct (ck_key (cn_inf n)) as [q|]; [|discriminate]. cbn [option_map] in Ek. injection Ek as Ek. apply rk_inj in Ek. subst. reflexivity.
        * exact Ed.
        * cbn [fst]. destruct (O1 1) as (n0 & e0 & _ & E2 & _ & _ & E5); [unfold len; cbn; lia|]. cbn in E2. injection E2 as <-. cbn [fst] in E5. destruct (sim_rank same rk same_ok rk_inj b (dt b) k HB _ E5) as (q & Eq & ->). exact Eq.
    - intros j Hj. unfold c_select. rewrite (cg_num _ _ _ _ G). cbv zeta. destruct (Z.ltb_spec (j - 1) 0); [reflexivity|]. change (nodes (N E i x E)) with 1. rewrite (proj2 (Z.leb_le 1 (j - 1))) by lia. reflexivity.
    - intros q Hq. destruct (sim_rank same rk same_ok rk_inj b (dt b) q HB _ (O3 (rk q) ltac:(intros [X|[]]; apply Hq; left; cbn [fst] in *; apply rk_inj; exact X))) as (w & Ew & ->). exact Ew.
  Qed.
  Lemma cg_os_counted (b : ctree) T U : cgood rk b T U -> counted T ->
    (forall i, 1 <= i <= len (kents U) -> exists n e, c_select b i = Ret (Some n) /\ nth_error (kents U) (Z.to_nat (i - 1)) = Some e /\ cn_key n = Some (fst e) /\ ck_data (cn_inf n) = snd e /\ c_rank same b (fst e) = Ret (Some i)) /\
    (forall i, i < 1 \/ len (kents U) < i -> c_select b i = Raise ValueError) /\
    (forall k, ~ In k (map fst (kents U)) -> c_rank same b k = Ret None).
  Proof. intros G [HZ|H1]; [apply (cg_os same val rk same_ok rk_inj b T U G HZ)|]. destruct (one_alone T H1) as (i & x & ->). apply (cg_os_one b i x U G). Qed.
End Shape.
Lemma named_tree_list {K D : Type} (rk : K -> Z) (U : ktree K D) : st_list (named_tree rk U) = named_entries rk (kents U).
Proof. induction U as [|l IHl k d r IHr]; cbn [named_tree st_list kents]; [reflexivity|]. rewrite IHl, IHr. unfold named_entries. rewrite map_app. reflexivity. Qed.
