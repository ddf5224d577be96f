(** Proofs about join and split of the C++ SplayTree: what the Python ones do. *)
From Coq Require Import Sorting.Sorted.
From Verif Require Import Base ArraysProofs TreeModel TreeModel2 TreeModel3 TreeSpec TreeProofs TreeRotate TreeBst TreeTrav TreeQuery TreeDel TreeHist TreeSplaySpec TreeSplay TreeReins TreeMulti TreeGap TreeJoin TreeSplit TreeSplit2 CppArrayModel CppTreeModel CppTreeModel2 CppTreeModel3 CppTreeQuery CppTreeSim CppTreeSim2 CppTreeSpec CppTreeSpec2 CppTreeProofs CppTreeHist CppTreeHist2.

Section J.
  Context {K D : Type} (same : K -> K -> bool) (val : K -> Z) (rk : K -> Z).
  Hypothesis same_ok : forall x y, same x y = true <-> x = y.
  Hypothesis rk_inj : forall x y, rk x = rk y -> x = y.
  Notation bt := (bt D). Notation bst := (bst D). Notation ctree := (ctree K D).
  Notation RB := (RB (D := D) rk). Notation dm := (dm rk). Notation dn := (CppTreeSim.dn (D := D) rk). Notation dt := (dt rk). Notation di := (CppTreeSim.di (D := D) rk).
  Lemma sim_follow N t t' i (f : cnode K D -> option Z) g : RM rk N t t' -> (forall n, g (dn n) = f n) -> sim eq (c_follow f t i) (follow g t' i).
  Proof.
    intros HM Hf. unfold c_follow, follow. rewrite (RM_fuel _ _ _ _ HM). eapply sim_while with (I := eq); [|reflexivity]. intros s ? <-.
    eapply sim_bind; [eapply sim_get; exact HM|]. intros n m HN. unfold RN in HN. subst m. rewrite Hf. destruct (f n); apply sim_ret; reflexivity.
  Qed.
  (** the appends of join *)
  Definition roomy (a : aft D) : Prop := a_last a = a_num a - 1 /\ a_num a <= len (a_data a) <= 2 * a_num a - 1.
  Lemma roomy_room a : roomy a -> room a.
  Proof. intros [A B]. unfold room. rewrite A. split; [lia|]. destruct (Z.eqb_spec (a_num a - 1 + 1) (len (a_data a))); lia. Qed.
  Lemma sim_appends u (cs : list (option (cnode K D))) : forall (a : carr K D) a', RA rk a a' -> roomy a' ->
    sim (RA rk) (forM cs (fun c arr => carr_append val arr (option_map (c_copy_node u) c)) a) (forM (dm cs) (fun c arr => aft_append arr (option_map (copy_node u) c)) a').
  Proof.
    induction cs as [|c cs IH]; intros a a' HA HR; cbn [forM CppTreeSim.dm map]; [apply sim_ret; exact HA|].
    replace (option_map (copy_node u) (option_map dn c)) with (option_map dn (option_map (c_copy_node u) c)) by (destruct c; reflexivity).
    destruct HR as [H1 H2]. destruct (append_el a' (option_map dn (option_map (c_copy_node u) c)) (a_num a') eq_refl H1 H2) as (a1' & E1 & N1 & N2 & N3 & _).
    destruct (sim_append_any val rk a a' (option_map (c_copy_node u) c) HA (roomy_room _ (conj H1 H2)) _ E1) as (a1 & F1 & HA1). rewrite E1, F1. cbn [bind]. apply IH; [exact HA1|]. split; lia.
  Qed.
  Lemma loop_cells (t : cmem K D) (f : option (cnode K D) -> carr K D -> res (carr K D)) : forall a, forM (zrange 0 (len t)) (fun i a => c <- rawget t i ;; f c a) a = forM t f a.
  Proof.
    assert (G : forall s pre, t = pre ++ s -> forall a, forM (zrange (len pre) (len t)) (fun i a => c <- rawget t i ;; f c a) a = forM s f a).
    { induction s as [|c s IH]; intros pre E a.
      - rewrite E, app_nil_r. rewrite zrange_nil by lia. reflexivity.
      - assert (LT : len t = len pre + 1 + len s) by (rewrite E; unfold len; rewrite app_length; cbn [length]; lia). pose proof (len_nonneg _ pre). pose proof (len_nonneg _ s). rewrite zrange_cons by lia. cbn [forM].
        assert (RG : rawget t (len pre) = Ret c). { unfold rawget. destruct ((len pre <? 0) || (len t <=? len pre)) eqn:EB; [lia|]. rewrite E. unfold len. rewrite Nat2Z.id, nth_error_app2, Nat.sub_diag by lia. reflexivity. }
        rewrite RG. cbn [bind]. destruct (f c a) as [a1| |]; cbn [bind]; try reflexivity. rewrite <- (IH (pre ++ [c])); [|rewrite <- app_assoc; exact E]. unfold len. rewrite app_length. cbn [length]. do 2 f_equal. lia. }
    intros a. apply (G t []). reflexivity.
  Qed.
  Lemma sim_join c1 c2 b1 b2 : RB c1 b1 -> RB c2 b2 -> (forall mx x b, follow n_right (b_mem b1) (b_root b1) = Ret mx -> tget (b_mem b1) mx = Ret x -> splay b1 mx (n_parent x) = Ret b -> roomy (b_arr b)) -> sim RB (c_splay_join val c1 c2) (splay_join b1 b2).
  Proof.
    intros H1 H2 HR. unfold c_splay_join, splay_join. rewrite (RB_rt _ _ _ H1), (RB_rt _ _ _ H2) in *. intros z EZ. destruct (follow n_right (b_mem b1) (ct_root c1)) as [mx| |] eqn:EF; try discriminate. cbn [bind] in EZ.
    destruct (sim_follow _ _ _ (ct_root c1) cn_right n_right (RB_mem _ _ _ H1) (fun _ => eq_refl) _ EF) as (mx' & FF & ->). rewrite FF. cbn [bind]. revert z EZ.
    eapply sim_bind; [eapply sim_follow; [apply RB_mem; exact H2|reflexivity]|]. intros mn ? <-. intros z EZ. destruct (tget (b_mem b1) mx) as [x'| |] eqn:EX; try discriminate. cbn [bind] in EZ.
    destruct (sim_get rk _ _ _ mx (RB_mem _ _ _ H1) _ EX) as (x & FX & HN). unfold RN in HN. subst x'. rewrite FX. cbn [bind]. specialize (HR mx (dn x)). revert z EZ. eapply sim_bind; [eapply sim_get; apply RB_mem; exact H2|]. intros y y' HN. unfold RN in HN. subst y'.
    eapply sim_bind; [eapply sim_comp; [exact H1|reflexivity|reflexivity]|]. intros q l ->. rewrite b2z_0. destruct (negb l); [apply sim_raise|].
    intros z EZ. destruct (splay b1 mx (n_parent (dn x))) as [b'| |] eqn:ES; try discriminate. cbn [bind] in EZ. assert (HR' := HR b' eq_refl EX eq_refl).
    destruct (sx_splay rk _ _ _ _ mx (cn_parent x) (RB_RX rk _ _ H1) _ ES) as (c' & FS & HX). assert (HB := RX_RB _ _ _ _ _ HX). rewrite FS. cbn [bind].
    assert (EI : cr_isize (ct_arr c') = len (b_mem b')). { destruct HB as [-> (W1 & _)]. rewrite W1. symmetry. apply dm_lenz. }
    assert (EI2 : cr_isize (ct_arr c2) = len (ct_mem c2)) by (destruct H2 as [_ (W1 & _)]; exact W1).
    cbv zeta. rewrite EI, EI2. rewrite (loop_cells (ct_mem c2) (fun c arr => carr_append val arr (option_map (c_copy_node (len (b_mem b'))) c))).
    assert (EM : b_mem b2 = dm (ct_mem c2)) by (destruct H2 as [-> _]; reflexivity). rewrite EM in EZ.
    revert z EZ. eapply sim_bind; [apply sim_appends; [apply RB_arr; exact HB|exact HR']|]. intros arr arr' HA. destruct (ct_root c2) as [r|]; [|apply sim_raise]. rewrite (RB_rt _ _ _ HB).
    eapply sim_bind; [eapply sim_mod; [apply RA_mem; exact HA|reflexivity]|]. intros t t' HT. apply sim_ret. apply RB_set; [apply RB_set_arr; assumption|exact HT].
  Qed.

  (** ** split *)
  Lemma key_back x k : key_of (di x) = Ret k -> exists k0, c_key_of x = Ret k0 /\ k = rk k0.
  Proof. unfold key_of, c_key_of. cbn [CppTreeSim.di k_key]. destruct (ck_key x) as [k0|]; cbn; [|discriminate]. intros [= <-]. eauto. Qed.
  Lemma search_idx (b : bst) k i p : search_parent b k = Ret (Some i, p) -> 0 <= i.
  Proof.
    unfold search_parent. destruct (tget (b_mem b) (b_root b)) as [n| |]; try discriminate. cbn [bind]. destruct (n_key n); [|discriminate]. unfold search_loop. generalize (b_root b, @None Z). generalize (fuel (b_mem b)) as f.
    induction f as [|f IH]; intros [w q]; [discriminate|]. cbn [while_loop]. destruct w as [w|]; [|intros [= ? ?]]. destruct (tget (b_mem b) (Some w)) as [m| |] eqn:Eg; try discriminate. cbn [bind]. destruct (oeqb (n_key m) (Some k)).
    - cbn [bind]. intros [= -> _]. cbn [tget] in Eg. unfold aget in Eg. destruct (Z.ltb_spec i 0); [discriminate|lia].
    - destruct (comparator b (Some k) (n_key m)); cbn [bind]; try discriminate. apply IH.
  Qed.
  Lemma sim_clear els : forall c b, RB c b -> sim RB (c_clear_nodes same c els) (clear_nodes b (map di els)).
  Proof.
    unfold c_clear_nodes, clear_nodes. rewrite <- map_rev. induction (rev els) as [|x l IH]; intros c b HB; cbn [map forM]; [apply sim_ret; exact HB|].
    intros z. destruct (key_of (di x)) as [k| |] eqn:Ek; try discriminate. cbn [bind]. destruct (key_back _ _ Ek) as (k0 & Fk & ->). rewrite Fk. cbn [bind].
    destruct (search_parent b (rk k0)) as [[e p]| |] eqn:Es; try discriminate. destruct (sim_search_parent same rk same_ok rk_inj c b k0 HB _ Es) as (q & Fs & ->). rewrite Fs. cbn [bind].
    destruct e as [i|]; [|discriminate]. assert (HI := search_idx _ _ _ _ Es). destruct (aset (b_mem b) i None) as [t'| |] eqn:Ea; try discriminate. cbn [bind].
    destruct (sim_set rk _ (ct_mem c) (b_mem b) i None (RB_mem _ _ _ HB) HI _ Ea) as (t & Fa & HT). rewrite Fa. cbn [bind]. apply IH. apply RB_set; assumption.
  Qed.
End J.
