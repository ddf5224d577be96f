(** Proofs about join and split of the C++ SplayTree, part 2. *)
From Coq Require Import Sorting.Sorted.
From Verif Require Import Base ArraysProofs TreeModel TreeModel2 TreeModel3 TreeSpec TreeProofs TreeRotate TreeBst TreeTrav TreeQuery TreeDel TreeHist TreeSplaySpec TreeAvl TreeAvl2 TreeSim TreeTreap TreeSplay TreeReins TreeMulti TreeGap TreeJoin TreeSplit TreeSplit2 CppArrayModel CppTreeModel CppTreeModel2 CppTreeModel3 CppTreeQuery CppTreeSim CppTreeSim2 CppTreeSpec CppTreeSpec2 CppTreeSpec3 CppTreeProofs CppTreeHist CppTreeHist2 CppTreeJoin.

Section J2.
  Context {K D : Type} (same : K -> K -> bool) (val : K -> Z) (rk : K -> Z).
  Hypothesis same_ok : forall x y, same x y = true <-> x = y.
  Hypothesis rk_inj : forall x y, rk x = rk y -> x = y.
  Notation bt := (bt D). Notation bst := (bst D). Notation ctree := (ctree K D).
  Notation RB := (RB (D := D) rk). Notation dm := (dm rk). Notation dn := (CppTreeSim.dn (D := D) rk). Notation dt := (dt rk). Notation di := (CppTreeSim.di (D := D) rk).
  Lemma sim_inserts els : forall c b T h, RB c b -> good b T h -> sim RB (forM els (fun el other => k <- c_key_of el ;; c_insert same val other k (ck_data el)) c) (forM (map di els) (fun el other => k <- key_of el ;; insert other k (k_data el)) b).
  Proof.
    induction els as [|x els IH]; intros c b T h HB G; cbn [map forM]; [apply sim_ret; exact HB|].
    intros z. destruct (key_of (di x)) as [k| |] eqn:Ek; try discriminate. cbn [bind]. destruct (key_back rk _ _ Ek) as (k0 & Fk & ->). rewrite Fk. cbn [bind]. cbn [CppTreeSim.di k_data].
    destruct (insert_step b T h (rk k0) (ck_data x) G) as (b1 & T1 & E1 & G1 & _). destruct (sim_insert same val rk same_ok rk_inj c b k0 (ck_data x) HB (room_g _ _ (h_grown _ _ _ G)) _ E1) as (c1 & F1 & HB1). rewrite E1, F1. cbn [bind]. apply (IH c1 b1 T1 _ HB1 G1).
  Qed.
  Lemma sim_inserts0 els c os : RB c (fresh os) -> sim RB (forM els (fun el other => k <- c_key_of el ;; c_insert same val other k (ck_data el)) c) (forM (map di els) (fun el other => k <- key_of el ;; insert other k (k_data el)) (fresh os)).
  Proof.
    intros HB. destruct els as [|x els]; cbn [map forM]; [apply sim_ret; exact HB|].
    intros z. destruct (key_of (di x)) as [k| |] eqn:Ek; try discriminate. cbn [bind]. destruct (key_back rk _ _ Ek) as (k0 & Fk & ->). rewrite Fk. cbn [bind]. cbn [CppTreeSim.di k_data].
    assert (E1 := fresh_insert os (rk k0) (ck_data x)). destruct (sim_insert same val rk same_ok rk_inj c _ k0 (ck_data x) HB (fresh_room os) _ E1) as (c1 & F1 & HB1). rewrite E1, F1. cbn [bind]. apply (sim_inserts els c1 _ _ _ HB1 (one_good os (rk k0) (ck_data x))).
  Qed.
  Definition RP (x : ctree * option ctree) (y : bst * option bst) : Prop := RB (fst x) (fst y) /\ match snd x, snd y with Some a, Some b => RB a b | None, None => True | _, _ => False end.
  Lemma sim_split c b x : RB c b -> sim RP (c_splay_split same val c x) (splay_split b (rk x)).
  Proof.
    intros HB. unfold c_splay_split, splay_split. eapply sim_bind; [apply (sim_search_parent same rk same_ok rk_inj); exact HB|]. intros [e p] ? <-. destruct e as [e|]; [|apply sim_ret; split; [exact HB|exact I]].
    eapply sim_bind; [eapply sx_splay; apply RB_RX; exact HB|]. intros c1 b1 HX. assert (HB1 := RX_RB _ _ _ _ _ HX).
    eapply sim_bind with (R := fun x y => RB x y /\ y = fresh false). { apply sim_ret. split; [|reflexivity]. split; [reflexivity|]. destruct HB1 as [_ (_ & _ & W)]. split; [reflexivity|]. split; [reflexivity|]. exact W. }
    intros o o' [HO ->]. rewrite (RB_rt _ _ _ HB1). eapply sim_bind; [eapply sim_get; apply RB_mem; exact HB1|]. intros rt rt' HN. unfold RN in HN. subst rt'. rewrite dn_right. destruct (cn_right rt) as [rr|]; [|apply sim_ret; split; [exact HB1|exact HO]].
    eapply sim_bind; [eapply sim_pre_order; apply RB_mem; exact HB1|]. intros els els' HV. unfold RV in HV. subst els'.
    eapply sim_bind; [apply sim_inserts0; exact HO|]. intros o1 o1' HO1. eapply sim_bind; [apply (sim_clear same rk same_ok rk_inj); exact HB1|]. intros c2 b2 HB2. rewrite (RB_rt _ _ _ HB2).
    eapply sim_bind; [eapply sim_mod; [apply RB_mem; exact HB2|reflexivity]|]. intros t t' HT. apply sim_ret. split; [apply RB_set; assumption|exact HO1].
  Qed.

  (** ** what can be seen *)
  Lemma osome_rk (a : option K) z : option_map rk a = Some (rk z) -> a = Some z.
  Proof. destruct a as [a|]; cbn; [|discriminate]. intros [= H]. apply rk_inj in H. congruence. Qed.
  Lemma shown (v : list (cinfo K D)) : Forall (kis (fun _ => True)) (map di v) -> exists m, cshows v m /\ named_entries rk m = map entry (map di v).
  Proof.
    induction v as [|x v IH]; cbn [map]; intros H; [exists []; split; reflexivity|]. inversion H as [|? ? H1 H2]; subst. destruct (IH H2) as (m & S1 & S2). unfold kis in H1. cbn [CppTreeSim.di k_key] in H1. destruct (ck_key x) as [k|] eqn:Ek; [|destruct H1].
    exists ((k, ck_data x) :: m). unfold cshows in *. cbn [map fst snd named_entries]. rewrite S1, Ek. split; [reflexivity|]. f_equal; [|exact S2]. unfold entry. cbn [CppTreeSim.di k_key k_data]. rewrite Ek. reflexivity.
  Qed.
  Lemma in_named' (l : list (K * option D)) k : In (rk k) (map fst (named_entries rk l)) <-> In k (map fst l).
  Proof. unfold named_entries. rewrite map_map. cbn [fst]. rewrite !in_map_iff. split; intros (e & E1 & E2); exists e; split; auto. congruence. Qed.
  Lemma view_w (c : ctree) (b : bst) T : RB c b -> default b -> wtree (b_mem b) (b_root b) T -> ordered (infos T) -> T <> E ->
    exists m, named_entries rk m = entries T /\ cfinds same c m /\ exists v, c_in_order (ct_mem c) (ct_root c) = Ret v /\ cshows v m.
  Proof.
    intros HB HD HW HO HE. assert (EI := in_order_w b T HW HE). rewrite (RB_rt _ _ _ HB) in EI. destruct (sim_in_order rk _ _ _ (ct_root c) (RB_mem _ _ _ HB) _ EI) as (v & Fv & HV). unfold RV in HV.
    destruct (shown v) as (m & S1 & S2); [rewrite <- HV; apply HO|]. rewrite <- HV in S2. fold (entries T) in S2. exists m. split; [exact S2|]. split; [|eauto].
    assert (HF := wfinds b T HD HW HO HE). rewrite <- S2 in HF. assert (SO : StronglySorted Z.lt (map rk (map fst m))). { destruct (entries_ok (infos T) HO) as [H _]. fold (entries T) in H. rewrite <- S2 in H. unfold named_entries in H. rewrite map_map in H. rewrite map_map. exact H. }
    split.
    - intros k d HI. specialize (HF (rk k)). rewrite (find_named rk rk_inj _ _ _ SO HI) in HF. destruct HF as (i & n' & E1 & E2 & E3 & E4). destruct (sim_search same rk same_ok rk_inj c b k HB _ E1) as (x & Ex & ->). destruct (sim_get rk _ _ _ (Some i) (RB_mem _ _ _ HB) _ E2) as (n & En & Hn). unfold RN in Hn. subst n'. exists i, n. split; [exact Ex|]. split; [exact En|]. split; [|exact E4]. apply osome_rk. exact E3.
    - intros k HI. specialize (HF (rk k)). destruct (find _ _) as [e|] eqn:Ef.
      + exfalso. apply find_some in Ef as [H1 H2]. apply HI. apply in_named'. apply in_map_iff. exists e. split; [lia|exact H1].
      + destruct (sim_search same rk same_ok rk_inj c b k HB _ HF) as (x & Ex & ->). exact Ex.
  Qed.
  Lemma view_splayed (c : ctree) (b : bst) l : RB c b -> splayed b l -> exists m, named_entries rk m = l /\ cholds same rk c m.
  Proof.
    intros HB (T & HD & G & HO & HE & <-). destruct (view_w c b T HB HD (tree_wtree _ _ _ (q_at _ _ G)) HO HE) as (m & S1 & S2 & S3). exists m. split; [exact S1|]. split; [exact S2|]. split; [exact S3|].
    intros key. destruct (bounds_view_at b T (rk key) HD (q_at _ _ G) HO) as (lo & hi & E1 & E2 & L1 & L2). rewrite <- S1 in L1, L2.
    destruct (sim_lower same rk same_ok rk_inj c b key HB _ E1) as (lo' & F1 & R1). destruct (sim_upper same rk same_ok rk_inj c b key HB _ E2) as (hi' & F2 & R2). unfold RK in R1, R2. subst. exists lo', hi'. split; [exact F1|]. split; [exact F2|].
    assert (Q : forall (P : Z -> Prop) r, least P (map fst (named_entries rk m)) (option_map rk r) -> cleast rk (fun k => P (rk k)) (map fst m) r).
    { intros P [z|]; cbn [option_map least cleast].
      - intros (A1 & A2 & A3). apply in_named' in A1. split; [exact A1|]. split; [exact A2|]. intros k Hk. apply A3. apply in_named'. exact Hk.
      - intros A k Hk. apply A. apply in_named'. exact Hk. }
    split; [apply (Q (fun z => rk key <= z))|apply (Q (fun z => rk key < z))]; assumption.
  Qed.

  (** ** histories *)
  Lemma csplay_built comp os h : order_of rk comp -> h <> [] -> NoDup (map fst h) ->
    exists c b T, cpp_splay_build same val comp os h = Ret c /\ RB c b /\ pgood b T (named_entries rk h) /\ pow_len b.
  Proof.
    intros HC NE ND.
    destruct (build_gen rk (fun e : K * option D => e) (c_splay_ins same val) (fun b e => splay_insert b (rk (fst e)) (snd e)) (fun b T h => pgood b T h /\ pow_len b) (fun h k => last_data h k = None)) with (comp := comp) (os := os) (h := h) as (b0 & c & b & T & E1 & E2 & HB & G & PL); try assumption.
    { intros b T h0 (G & _). apply (p_grown _ _ _ G). }
    { intros c b [k d] HB HR. apply (sim_splay_insert same val rk same_ok rk_inj); assumption. }
    { intros b T h0 [k d] (H1 & m & Hm & H2) HL. cbn [nm fst snd] in *. destruct (splay_insert_ok b T h0 (rk k) d H1 HL) as (b1 & T1 & F1 & G1 & _). exists b1, T1. split; [exact F1|]. split; [exact G1|].
      destruct H1 as [A B C F]. destruct (q_splay_insert b T h0 (rk k) d (Build_qgood _ _ _ A (grown_gapped _ _ B) C F) HL) as (b2 & T2 & F2 & _ & _ & L2 & _). assert (b2 = b1) by congruence. subst b2. unfold pow_len. rewrite L2. unfold grow. destruct (b_size b =? len (b_mem b)); [exists (m + 1)|exists m]; split; try lia. rewrite Z.pow_add_r by lia. lia. }
    { intros o [k d]. cbn [fst snd nm]. exists (one o (with_isroot true (new_info (Some (rk k)) d))), (N E 0 (with_isroot true (new_info (Some (rk k)) d)) E). split; [apply splay_first|]. split; [apply one_pgood; reflexivity|]. exists 1. split; [lia|reflexivity]. }
    { intros h1 e h2 HE _. apply (nodup_new rk rk_inj (fun e : K * option D => e) h ND h1 e h2 HE). }
    exists c, b, T. split; [unfold cpp_splay_build; rewrite E1; exact E2|]. split; [exact HB|]. split; [exact G|exact PL].
  Qed.
  Lemma room_q (b : bst) T : gapped b T -> room (b_arr b).
  Proof. intros G. apply roomy_room. split; [rewrite (q_last _ _ G), (q_num _ _ G); reflexivity|]. rewrite (q_num _ _ G). apply (q_cap _ _ G). Qed.
  Lemma crun_one_ok c b l o : RB c b -> splayed b l -> valid_one l (snamed rk o) -> exists c' b', crun_one same val c o = Ret c' /\ RB c' b' /\ splayed b' (after_one l (snamed rk o)).
  Proof.
    intros HB HS HV. destruct (run_one_ok b l (snamed rk o) HS HV) as (b' & E1 & S1). destruct o as [k d|x|x]; cbn [snamed run_one crun_one] in *.
    - destruct HS as (T & _ & G & _). destruct (sim_splay_insert same val rk same_ok rk_inj c b k d HB (room_q _ _ G) _ E1) as (c' & F1 & HB'). exists c', b'. auto.
    - destruct (splay_split b (rk x)) as [[b1 r]| |] eqn:Es; try discriminate. destruct (sim_split c b x HB _ Es) as ([c1 r1] & Fs & H1 & H2). cbn [fst snd] in *. rewrite Fs. cbn [bind] in *. injection E1 as <-. exists c1, b1. auto.
    - destruct (splay_split b (rk x)) as [[b1 r]| |] eqn:Es; try discriminate. destruct (sim_split c b x HB _ Es) as ([c1 r1] & Fs & H1 & H2). cbn [fst snd] in *. rewrite Fs. cbn [bind] in *. destruct r as [r|]; [|discriminate]. injection E1 as <-. destruct r1 as [r1|]; [|destruct H2]. exists r1, r. auto.
  Qed.
  Lemma crun_ok ops : forall c b l, RB c b -> splayed b l -> valid l (map (snamed rk) ops) -> exists c' b', crun_splay same val c ops = Ret c' /\ RB c' b' /\ splayed b' (after l (map (snamed rk) ops)).
  Proof.
    induction ops as [|o ops IH]; intros c b l HB HS HV; cbn [map crun_splay valid after] in *; [exists c, b; auto|]. destruct HV as [V1 V2]. destruct (crun_one_ok c b l o HB HS V1) as (c1 & b1 & E1 & HB1 & S1). rewrite E1. cbn [bind]. apply (IH c1 b1); assumption.
  Qed.
  (** ** join *)
  Lemma cjoin_unordered c1 c2 (b1 b2 : bst) T1 T2 h1 h2 k1 k2 : RB c1 b1 -> RB c2 b2 -> pgood b1 T1 h1 -> pgood b2 T2 h2 -> In k1 (map fst (entries T1)) -> In k2 (map fst (entries T2)) -> k2 <= k1 -> c_splay_join val c1 c2 = Raise ValueError.
  Proof.
    intros H1 H2 [D1 G1 C1 N1] [D2 G2 C2 N2] I1 I2 HL. destruct (follow_right _ _ _ (g_at _ _ G1) N1) as (c & l & i & x & EQ1 & HC & F1). destruct (follow_left _ _ _ (g_at _ _ G2) N2) as (c' & r & j & y & EQ2 & HC' & F2).
    destruct (max_key _ _ _ _ _ (proj1 C1) EQ1 HC) as (kx & Ex & _ & Mx). destruct (min_key _ _ _ _ _ (proj1 C2) EQ2 HC') as (ky & Ey & _ & My). assert (HT1 := g_at _ _ G1). assert (HT2 := g_at _ _ G2). rewrite EQ1 in HT1. rewrite EQ2 in HT2.
    rewrite (RB_rt _ _ _ H1) in F1. rewrite (RB_rt _ _ _ H2) in F2. unfold c_splay_join.
    destruct (sim_follow rk _ _ _ (ct_root c1) cn_right n_right (RB_mem _ _ _ H1) (fun _ => eq_refl) _ F1) as (z & Q & ->). rewrite Q. cbn [bind]. clear Q.
    destruct (sim_follow rk _ _ _ (ct_root c2) cn_left n_left (RB_mem _ _ _ H2) (fun _ => eq_refl) _ F2) as (z & Q & ->). rewrite Q. cbn [bind]. clear Q.
    destruct (sim_get rk _ _ _ (Some i) (RB_mem _ _ _ H1) _ (tget_ok _ _ _ (sub_cell _ _ _ _ _ _ _ HT1))) as (n1 & Q & R1). rewrite Q. cbn [bind]. clear Q.
    destruct (sim_get rk _ _ _ (Some j) (RB_mem _ _ _ H2) _ (tget_ok _ _ _ (sub_cell _ _ _ _ _ _ _ HT2))) as (n2 & Q & R2). rewrite Q. cbn [bind]. clear Q.
    unfold RN in R1, R2. assert (K1 : option_map rk (cn_key n1) = Some kx) by (rewrite <- Ex; change (option_map rk (cn_key n1)) with (n_key (dn n1)); rewrite <- R1; reflexivity). assert (K2 : option_map rk (cn_key n2) = Some ky) by (rewrite <- Ey; change (option_map rk (cn_key n2)) with (n_key (dn n2)); rewrite <- R2; reflexivity).
    destruct (sim_comp rk c1 b1 (cn_key n1) (cn_key n2) (Some kx) (Some ky) H1 (eq_sym K1) (eq_sym K2) (kx <? ky)) as (q & Q & ->); [unfold comparator; rewrite D1; reflexivity|]. rewrite Q. cbn [bind]. specialize (Mx k1 I1). specialize (My k2 I2). replace (kx <? ky) with false by lia. reflexivity.
  Qed.
  Lemma splay_roomy (b1 : bst) T mx x b : grown b1 T -> T <> E -> follow n_right (b_mem b1) (b_root b1) = Ret mx -> tget (b_mem b1) mx = Ret x -> splay b1 mx (n_parent x) = Ret b -> roomy (b_arr b).
  Proof.
    intros G HE F1 EX E0. destruct (follow_right _ _ _ (g_at _ _ G) HE) as (c & l & i & y & EQ1 & HC & F2). assert (mx = Some i) by congruence. subst mx T. rewrite (tget_ok _ _ _ (sub_cell _ _ _ _ _ _ _ (g_at _ _ G))) in EX. injection EX as <-. cbn [n_parent] in E0.
    destruct (q_splay_ok b1 c l i y E (grown_gapped _ _ G)) as (b' & l' & r' & E1 & G1 & _ & _). assert (b' = b) by congruence. subst b'. split; [rewrite (q_last _ _ G1), (q_num _ _ G1); reflexivity|]. rewrite (q_num _ _ G1). apply (q_cap _ _ G1).
  Qed.
  Lemma cjoin_ok c1 c2 (b1 b2 : bst) T1 T2 h1 h2 : RB c1 b1 -> RB c2 b2 -> pgood b1 T1 h1 -> pgood b2 T2 h2 -> len (b_mem b1) = b_size b1 -> (forall k1 k2, In k1 (map fst (entries T1)) -> In k2 (map fst (entries T2)) -> k1 < k2) ->
    exists c m v, c_splay_join val c1 c2 = Ret c /\ named_entries rk m = entries T1 ++ entries T2 /\ cfinds same c m /\ c_in_order (ct_mem c) (ct_root c) = Ret v /\ cshows v m.
  Proof.
    intros H1 H2 G1 G2 FU LT. destruct (join_ok b1 b2 T1 T2 h1 h2 G1 G2 FU LT) as (b & T & EJ & DJ & WJ & OJ & NJ & EN).
    destruct (sim_join val rk c1 c2 b1 b2 H1 H2) with (y := b) as (c & FJ & HB); [|exact EJ|].
    - intros mx x b' F1 F2 F3. destruct G1 as [_ G1 _ N1]. eapply splay_roomy; eassumption.
    - destruct (view_w c b T HB DJ WJ OJ NJ) as (m & S1 & S2 & v & S3 & S4). exists c, m, v. split; [exact FJ|]. split; [congruence|]. auto.
  Qed.
  (** ** split *)
  Lemma csplit_ok c b l x : RB c b -> splayed b l ->
    (In (rk x) (map fst l) -> exists c1 o m1 m2, c_splay_split same val c x = Ret (c1, Some o) /\ named_entries rk m1 = upto (rk x) l /\ named_entries rk m2 = above (rk x) l /\ cholds same rk c1 m1 /\ (m2 <> [] -> cholds same rk o m2)) /\
    (~ In (rk x) (map fst l) -> c_splay_split same val c x = Ret (c, None)).
  Proof.
    intros HB HS. split; intros HI.
    - destruct (split_ok b l (rk x) HS HI) as (b' & o & E1 & S1 & _ & _ & S2). destruct (sim_split c b x HB _ E1) as ([c1 r1] & F1 & H1 & H2). cbn [fst snd] in *. destruct r1 as [o1|]; [|destruct H2].
      destruct (view_splayed c1 b' _ H1 S1) as (m1 & M1 & M2). destruct (above (rk x) l) as [|e q] eqn:EA.
      + exists c1, o1, m1, []. split; [exact F1|]. split; [exact M1|]. split; [reflexivity|]. split; [exact M2|]. congruence.
      + destruct (view_splayed o1 o _ H2 (S2 ltac:(discriminate))) as (m2 & M3 & M4). exists c1, o1, m1, m2. auto.
    - assert (E1 := split_absent b l (rk x) HS HI). destruct HS as (T & HD & G & HO & HE & EL). destruct (search_ok b T (rk x) HD (q_at _ _ G) HO HE) as (c0 & S & _ & ES & HK).
      destruct (sim_search_parent same rk same_ok rk_inj c b x HB _ ES) as (q & Fq & ->). unfold c_splay_split. rewrite Fq. cbn [bind]. destruct HK as (ET & _ & [-> | (l0 & i & y & r & -> & Ek)]); [reflexivity|]. exfalso. unfold splay_split in E1. rewrite ES in E1. cbn [bind root] in E1.
      apply HI. rewrite <- EL, ET. unfold entries. rewrite infos_plug. cbn [infos]. rewrite !map_app, !in_app_iff. cbn [map In]. right. left. right. left. unfold entry. cbn [fst]. rewrite Ek. reflexivity.
  Qed.
End J2.
