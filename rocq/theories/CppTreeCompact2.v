(** Proofs: histories of inserts and then deletes on the C++ CartesianTree, Treap and SplayTree in which the deletes compact the array. Continues CppTreeHist2.v. *)
From Coq Require Import Sorting.Sorted.
From Verif Require Import Base ArraysProofs TreeModel TreeModel2 TreeSpec TreeProofs TreeRotate TreeBst TreeTrav TreeQuery TreeDel TreeHist TreeBalSpec TreeAvl TreeAvl2 TreeSim TreeTreap TreeSplay TreeReins TreeMulti TreeDel2 TreeDel3 TreeDelSpec TreeDel4 TreeDel5 TreeSplaySpec TreeSplayDel TreeHist2 CppArrayModel CppTreeModel CppTreeModel2 CppTreeQuery CppTreeSim CppTreeSim2 CppTreeSpec CppTreeSpec2 CppTreeProofs CppTreeHist CppTreeHist2.
From Verif Require Import CppTreeCompact.

Section C2.
  Context {K D : Type} (same : K -> K -> bool) (val : K -> Z) (rk : K -> Z).
  Hypothesis same_ok : forall x y, same x y = true <-> x = y.
  Hypothesis rk_inj : forall x y, rk x = rk y -> x = y.
  Hypothesis val_inj : forall x y, val x = val y -> x = y.
  Notation bt := (bt D). Notation bst := (bst D). Notation ctree := (ctree K D).
  Notation RW := (RW (D := D) rk).
  (** queries do not look at the inner array's _size *)
  Lemma bound_renewed (c : ctree) f : forall i key up, c_bound_helper same f (renewed c) i key up = c_bound_helper same f c i key up.
  Proof.
    induction f as [|f IH]; intros i key up; [reflexivity|]. cbn [c_bound_helper]. destruct i as [i|]; [|reflexivity]. change (ct_mem (renewed c)) with (ct_mem c). destruct (cget (ct_mem c) (Some i)) as [n| |]; try reflexivity. cbn [bind]. destruct (cn_key n); [|reflexivity]. rewrite !IH.
    change (ccomp (renewed c)) with (ccomp c). destruct (sameo same _ _); [reflexivity|]. destruct (ccomp c _ _) as [x| |]; try reflexivity.
  Qed.
  Lemma bounds_renewed (c : ctree) key : c_lower_bound same (renewed c) key = c_lower_bound same c key /\ c_upper_bound same (renewed c) key = c_upper_bound same c key.
  Proof. split; apply bound_renewed. Qed.
  Section DelW.
    Context (cdel : ctree -> K -> res (ctree * bool)) (pdel : bst -> Z -> res (bst * bool)) (I : bst -> bt -> Prop) (ok : list (Z * option D) -> Z -> Prop).
    Hypothesis i_ord : forall b T, I b T -> ordered (infos T).
    Hypothesis i_sim : forall c b T k, RW c b -> I b T -> ok (entries T) (rk k) -> sim (fun x y => RW (fst x) (fst y) /\ snd y = snd x) (cdel c k) (pdel b (rk k)).
    Hypothesis i_step : forall b T k, I b T -> ok (entries T) k ->
      exists b' T' f, pdel b k = Ret (b', f) /\ (f = true <-> In (Some k) (map fst (ents T))) /\ I b' T' /\ ents T' = without k (ents T).
    Lemma del_gen_w ks : forall c b T, RW c b -> I b T -> ok_all ok (entries T) (map rk ks) ->
      exists c' b' T', delete_each cdel c ks = Ret (c', snd (deleted (entries T) (map rk ks))) /\ RW c' b' /\ I b' T' /\ entries T' = fst (deleted (entries T) (map rk ks)).
    Proof.
      induction ks as [|k ks IH]; intros c b T HB HI HK; cbn [delete_each map deleted ok_all] in *; [exists c, b, T; cbn [fst snd]; auto|]. destruct HK as [HK1 HK2]. assert (HO := i_ord _ _ HI).
      destruct (i_step b T (rk k) HI HK1) as (b1 & T1 & f & E1 & Hf & I1 & EE). assert (HO1 := i_ord _ _ I1).
      destruct (i_sim c b T k HB HI HK1 _ E1) as ([c1 f1] & F1 & HB1 & Ef). cbn [fst snd] in *. subst f1. rewrite F1. cbn [bind].
      assert (EN : entries T1 = filter (fun e => negb (fst e =? rk k)) (entries T)). { apply okeys_inj. rewrite <- ents_okeys, EE, ents_okeys, without_okeys by assumption. reflexivity. }
      rewrite <- EN in *. destruct (IH c1 b1 T1 HB1 I1 HK2) as (c2 & b2 & T2 & F2 & HB2 & I2 & EN2). rewrite F2. cbn [bind].
      destruct (deleted (entries T1) (map rk ks)) as [l' fs]. cbn [fst snd] in *. exists c2, b2, T2. split; [|split; [exact HB2|]; split; [exact I2|exact EN2]].
      f_equal. f_equal. f_equal. rewrite ents_okeys, has_okeys in Hf by assumption. destruct f, (existsb (fun e => fst e =? rk k) (entries T)); try reflexivity; [symmetry; apply Hf; reflexivity|apply Hf; reflexivity].
    Qed.
  End DelW.
  Lemma num_pos (b : bst) T : snug b T -> T <> E -> 1 <= a_num (b_arr b).
  Proof. intros S1 N1. rewrite (sl_num _ _ (sn_slim _ _ S1)). destruct T as [|a1 a2 a3 a4]; [congruence|]. cbn [nodes]. pose proof (nodes_nonneg a1). pose proof (nodes_nonneg a4). lia. Qed.
  Lemma leaf_not_single (b : bst) c i x key : default b -> snug b (plug c (N E i x E)) -> ordered (infos (plug c (N E i x E))) -> k_key x = Some key -> ~ single b key.
  Proof.
    intros HD G HO Ek (w & p & n & E1 & E2 & E3). assert (HW := sl_at _ _ (sn_slim _ _ G)). destruct (search_at b c E i x E key HD HW HO Ek) as [ES _]. rewrite ES in E1. injection E1 as <- _.
    rewrite (tget_ok _ _ _ (sub_cell _ _ _ _ _ _ _ HW)) in E2. injection E2 as <-. apply E3. reflexivity.
  Qed.
  Lemma root_not_single (b : bst) l i x r key : default b -> snug b (N l i x r) -> ordered (infos (N l i x r)) -> k_key x = Some key -> ~ single b key.
  Proof.
    intros HD G HO Ek (w & p & n & E1 & E2 & E3). assert (HW := sl_at _ _ (sn_slim _ _ G)). destruct (search_at b Top l i x r key HD HW HO Ek) as [ES _]. rewrite ES in E1. cbn [cpar] in E1. discriminate E1.
  Qed.
  Lemma cart_sim (c : ctree) (b : bst) T k : RW c b -> default b -> snug b T -> ordered (infos T) -> T <> E -> ranked T ->
    sim (fun x y => RW (fst x) (fst y) /\ snd y = snd x) (c_cart_delete same val c k) (cart_delete b (rk k)).
  Proof.
    intros HB HD G HO HE RK. apply (sim_cart_delete_w same val rk same_ok rk_inj val_inj); [exact HB|eapply num_pos; eassumption|]. intros e b1 ES E1.
    destruct (search_ok b T (rk k) HD (sl_at _ _ (sn_slim _ _ G)) HO HE) as (c0 & S & ES' & _ & ET & HP & HK). rewrite ES in ES'. injection ES' as ES'. destruct HK as [-> | (l & i & x & r & -> & Ek)]; [discriminate|]. injection ES' as ->. subst T.
    destruct (trickle_ok b c0 l i x r G RK) as (b2 & c1 & E2 & G1 & EN1 & _ & (K1 & K2 & _) & _). rewrite E1 in E2. injection E2 as <-.
    eapply leaf_not_single; [|exact G1| |exact Ek]; [unfold default in *; congruence|]. eapply ordered_ents; [symmetry; exact EN1|exact HO].
  Qed.
  Lemma splay_sim (c : ctree) (b : bst) T k : RW c b -> default b -> snug b T -> ordered (infos T) -> T <> E ->
    sim (fun x y => RW (fst x) (fst y) /\ snd y = snd x) (c_splay_delete same val c k) (splay_delete b (rk k)).
  Proof.
    intros HB HD G HO HE. apply (sim_splay_delete_w same val rk same_ok rk_inj val_inj); [exact HB|eapply num_pos; eassumption|]. intros e p b1 ES E1.
    destruct (search_ok b T (rk k) HD (sl_at _ _ (sn_slim _ _ G)) HO HE) as (c0 & S & _ & ES' & ET & HP & HK). rewrite ES in ES'. injection ES' as EE1 EE2. destruct HK as [-> | (l & i & x & r & -> & Ek)]; [discriminate|]. injection EE1 as ->. subst T p.
    destruct (splay_snug b c0 l i x r G) as (b2 & l1 & r1 & E2 & G1 & EN1 & (K1 & K2 & _)). rewrite E1 in E2. injection E2 as <-.
    eapply root_not_single; [|exact G1| |exact Ek]; [unfold default in *; congruence|]. eapply ordered_ents; [symmetry; exact EN1|exact HO].
  Qed.
  Lemma not_all_gone (l : list (Z * option D)) ks : fst (deleted l ks) <> [] -> ok_all (fun l k => filter (fun e => negb (fst e =? k)) l <> []) l ks.
  Proof.
    revert l. induction ks as [|k ks IH]; intros l; cbn [deleted ok_all]; [auto|]. intros H. assert (H2 : fst (deleted (filter (fun e => negb (fst e =? k)) l) ks) <> []) by (destruct (deleted (filter (fun e => negb (fst e =? k)) l) ks); exact H).
    split; [|apply IH; exact H2]. intros X. rewrite X, deleted_nil in H2. congruence.
  Qed.
  Lemma cpp_cart_compact comp os h ks (l : list (Z * option D)) : order_of rk comp -> sorted_map l (named_entries rk (map eprio h)) -> h <> [] -> fst (deleted l (map rk ks)) <> [] ->
    exists c T U V, from_empty (c_cart_ins same val) (c_cart_delete same val) comp os h ks = Ret (c, snd (deleted l (map rk ks))) /\ cgood rk (renewed c) T U /\ iheld (ct_mem c) (ct_root c) None V /\ cshows (inodes V) (kents U) /\ named_entries rk (kents U) = fst (deleted l (map rk ks)) /\ (NoDup (map (fun e => fst (fst e)) h) -> iheap V).
  Proof.
    intros HC SM NE HL. destruct (ccart_build same val rk same_ok rk_inj comp os h HC NE) as (b0 & c & b & T & E1 & E2 & HB & G & GH). assert (SG := cont_map _ _ (c_cont _ _ _ G)). unfold named_entries in SM. rewrite map_map in SM. assert (EL := sorted_map_unique _ _ _ SM SG). subst l.
    assert (GG := c_grown _ _ _ G).
    destruct (del_gen_w (c_cart_delete same val) cart_delete (fun b T => icart b T /\ (NoDup (map (fun e => fst (fst e)) h) -> heap None T)) (fun l k => filter (fun e => negb (fst e =? k)) l <> [])) with (ks := ks) (c := c) (b := b) (T := T) as (c' & b' & T' & E3 & HB' & (I' & H') & EN').
    - intros b1 T1 X. apply X.
    - intros c1 b1 T1 k HB1 ((D1 & S1 & O1 & N1 & R1) & _) _. apply (cart_sim c1 b1 T1); assumption.
    - intros b1 T1 k ((D1 & S1 & O1 & N1 & R1) & H1) HN. destruct (cart_delete_ok b1 T1 k D1 S1 O1 N1 R1) as (b2 & T2 & f & F1 & Hf & SP2 & EE & HE2 & RK2 & CC & OO & HH).
      { rewrite ents_okeys, without_okeys by assumption. intros X. apply HN. apply map_eq_nil in X. exact X. }
      exists b2, T2, f. split; [exact F1|]. split; [exact Hf|]. split; [|exact EE].
      split; [|intros ND; apply HH, H1, ND]. split; [unfold default in *; congruence|]. split; [exact SP2|]. split; [apply (ordered_without k (infos T1)); assumption|]. auto.
    - apply RB_RW. exact HB.
    - split; [|exact GH]. split; [apply (c_def _ _ _ G)|]. split; [apply grown_snug; exact GG|]. split; [apply (proj1 (c_cont _ _ _ G))|]. split; [apply (c_ne _ _ _ G)|apply (TreeReins.c_rank _ _ _ G)].
    - apply not_all_gone. exact HL.
    - destruct I' as (D1 & S1 & O1 & N1 & R1). destruct (cpost val rk rk_inj (renewed c') b' T' (RW_renewed rk _ _ HB') (sl_at _ _ (sn_slim _ _ S1)) (sl_num _ _ (sn_slim _ _ S1)) O1 N1) as (U & V & CG & HV & TV & SH & EN). exists c', T', U, V. split; [unfold from_empty; rewrite E1; cbn [bind]; rewrite E2; cbn [bind]; exact E3|]. split; [exact CG|]. split; [exact HV|]. split; [exact SH|]. split; [rewrite EN; exact EN'|].
      intros ND. apply (itwin_heap rk T'); [exact TV|]. apply (heap_spec T' None). apply H'. exact ND.
  Qed.
  Lemma cpp_splay_compact comp os h ks (l : list (Z * option D)) : order_of rk comp -> sorted_map l (named_entries rk h) -> NoDup (map fst h) -> h <> [] -> safe_all l (map rk ks) ->
    exists c T U V, from_empty (c_splay_ins same val) (c_splay_delete same val) comp os h ks = Ret (c, snd (deleted l (map rk ks))) /\ cgood rk (renewed c) T U /\ iheld (ct_mem c) (ct_root c) None V /\ cshows (inodes V) (kents U) /\ named_entries rk (kents U) = fst (deleted l (map rk ks)).
  Proof.
    intros HC SM ND NE HS.
    destruct (build_gen rk (fun e : K * option D => e) (c_splay_ins same val) (fun b e => splay_insert b (rk (fst e)) (snd e)) pgood (fun h k => last_data h k = None)) with (comp := comp) (os := os) (h := h) as (b0 & c & b & T & E1 & E2 & HB & G); try assumption.
    { intros b T h0 G. apply (p_grown _ _ _ G). }
    { intros c b [k d] HB HR. apply (sim_splay_insert same val rk same_ok rk_inj); assumption. }
    { intros b T h0 [k d] G HL0. cbn [nm fst snd] in *. destruct (splay_insert_ok b T h0 (rk k) d G HL0) as (b1 & T1 & F1 & G1 & _). exists b1, T1. auto. }
    { intros o [k d]. cbn [fst snd nm]. exists (one o (with_isroot true (new_info (Some (rk k)) d))), (N E 0 (with_isroot true (new_info (Some (rk k)) d)) E). split; [apply splay_first|]. apply one_pgood; reflexivity. }
    { intros h1 e h2 HE _. apply (nodup_new rk rk_inj (fun e : K * option D => e) h ND h1 e h2 HE). }
    rewrite nm_id in G. assert (SG := cont_map _ _ (p_cont _ _ _ G)). assert (EL := sorted_map_unique _ _ _ SM SG). subst l. assert (GG := p_grown _ _ _ G).
    destruct (del_gen_w (c_splay_delete same val) splay_delete (fun b1 T1 => (default b1 /\ snug b1 T1 /\ ordered (infos T1) /\ T1 <> E)) safe) with (ks := ks) (c := c) (b := b) (T := T) as (c' & b' & T' & E3 & HB' & I' & EN').
    - intros b1 T1 X. apply X.
    - intros c1 b1 T1 k HB1 (D1 & S1 & O1 & N1) _. apply (splay_sim c1 b1 T1); assumption.
    - intros b1 T1 k (D1 & S1 & O1 & N1) HK. destruct (splay_delete_ok b1 T1 k D1 S1 O1 N1 HK) as (b2 & T2 & f & F1 & Hf & SP2 & EE & HE2 & CC & OO). exists b2, T2, f. split; [exact F1|]. split; [exact Hf|]. split; [|exact EE].
      split; [unfold default in *; congruence|]. split; [exact SP2|]. split; [apply (ordered_without k (infos T1)); assumption|]. auto.
    - apply RB_RW. exact HB.
    - split; [apply (p_def _ _ _ G)|]. split; [apply grown_snug; exact GG|]. split; [apply (proj1 (p_cont _ _ _ G))|apply (p_ne _ _ _ G)].
    - clear - HS. revert HS. generalize (entries T). induction ks as [|k ks IH]; intros q; cbn [map safe_all ok_all]; [auto|]. intros [X Y]. split; [exact X|]. apply IH. exact Y.
    - destruct I' as (D1 & S1 & O1 & N1). destruct (cpost val rk rk_inj (renewed c') b' T' (RW_renewed rk _ _ HB') (sl_at _ _ (sn_slim _ _ S1)) (sl_num _ _ (sn_slim _ _ S1)) O1 N1) as (U & V & CG & HV & TV & SH & EN). exists c', T', U, V. split; [unfold from_empty; rewrite E1; cbn [bind]; rewrite E2; cbn [bind]; exact E3|]. split; [exact CG|]. split; [exact HV|]. split; [exact SH|]. rewrite EN; exact EN'.
  Qed.
End C2.
