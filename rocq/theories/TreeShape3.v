(** Proofs: histories of inserts and then deletes against the textbook tree. *)
From Coq Require Import Sorting.Sorted.
From Verif Require Import Base TreeModel TreeModel2 TreeSpec TreeProofs TreeRotate TreeBst TreeTrav TreeQuery TreeLca TreeDel TreeHist TreeDel2 TreeCompact TreeDel5 TreeRbDel2 TreeShapeSpec TreeShape TreeShape2.

Section Shape3.
  Context {D : Type}.
  Notation info := (info D). Notation node := (node D). Notation mem := (mem D). Notation bst := (bst D). Notation bt := (bt D). Notation ctx := (ctx D). Notation stree := (stree D).
  Definition grow_len (n : Z) (m : mem) : Z := if n =? len m then 2 * len m + 1 else len m.
  Lemma append_len (b : bst) T n a : grown b T -> aft_append (b_arr b) (Some n) = Ret a -> len (a_data a) = grow_len (b_size b) (b_mem b).
  Proof.
    intros G. unfold aft_append, grow_len, b_mem. rewrite (g_last _ _ G). replace (b_size b - 1 + 1) with (b_size b) by lia. set (data := if b_size b =? len (a_data (b_arr b)) then _ else _).
    assert (LD : len data = if b_size b =? len (a_data (b_arr b)) then 2 * len (a_data (b_arr b)) + 1 else len (a_data (b_arr b))). { unfold data. destruct (_ =? _); [|reflexivity]. unfold len. rewrite app_length, repeat_length. lia. }
    destruct (aset data (b_size b) (Some n)) as [d| |] eqn:EA; cbn [bind]; try discriminate. apply aset_len in EA. assert (GC := g_cap _ _ G). unfold b_mem in GC. unfold aft_modify. cbn [a_num a_data]. rewrite EA, LD, (g_num _ _ G). rewrite (proj2 (Z.ltb_ge _ _)) by (destruct (Z.eqb_spec (b_size b) (len (a_data (b_arr b)))); lia). cbn [bind]. intros [= <-]. cbn [a_data]. congruence.
  Qed.
  Lemma insert_len (b b' : bst) T k d : grown b T -> ordered (infos T) -> T <> E -> insert b k d = Ret b' ->
    match search b k with Ret (Some _) => len (b_mem b') = len (b_mem b) | Ret None => len (b_mem b') = grow_len (b_size b) (b_mem b) | _ => False end.
  Proof.
    intros G HO HE. unfold insert. destruct (search b k) as [[r|]| |]; cbn [bind]; try discriminate.
    - destruct (tmod (b_mem b) (Some r) _) as [t| |] eqn:E1; cbn [bind]; try discriminate. intros [= <-]. unfold b_mem at 1. cbn [set_mem b_arr a_data]. apply (tmod_used _ _ _ _ E1).
    - destruct (root_keyed b T (g_at _ _ G) HO HE) as (n & k0 & En & Ek). rewrite En. cbn [bind]. rewrite Ek. match goal with |- context [while_loop ?f ?bd ?s] => destruct (while_loop f bd s) as [[b1 w]| |] eqn:EW; cbn [bind]; try discriminate end.
      intros EU. apply update_size_used in EU as (_ & EU & _). rewrite EU. clear EU.
      change (len (b_mem (fst (b1, w))) = grow_len (b_size b) (b_mem b)). revert EW. apply (while_pres (fun _ => True) (fun r => len (b_mem (fst r)) = grow_len (b_size b) (b_mem b))); [|exact I].
      intros [walk prev] x _. destruct (tget (b_mem b) walk) as [m0| |]; cbn [bind]; try discriminate. destruct (comparator b (Some k) (n_key m0)) as [lt| |]; cbn [bind]; try discriminate.
      destruct (negb lt); [destruct (n_right m0)|destruct (n_left m0)]; try (intros [= <-]; exact I).
      all: destruct (aft_append (b_arr b) _) as [a| |] eqn:EA; cbn [bind]; try discriminate; match goal with |- context [tmod (a_data a) ?w ?f] => destruct (tmod (a_data a) w f) as [t| |] eqn:ET; cbn [bind]; try discriminate; destruct (tget t w) as [m1| |] end; cbn [bind]; try discriminate; intros [= <-]; cbn [fst]; unfold b_mem at 1; cbn [set_bsize set_mem set_arr b_arr a_data]; rewrite (proj1 (tmod_used _ _ _ _ ET)); eapply append_len; eassumption.
  Qed.
  Definition shaped (b : bst) (T : bt) (h : list (Z * option D)) (s : sstate D) : Prop := good b T h /\ skel T = s_tree s /\ len (b_mem b) = s_cells s.
  Lemma shape_insert b T h s k d : shaped b T h s -> exists b' T', insert b k d = Ret b' /\ shaped b' T' (h ++ [(k, d)]) (st_insert k d s) /\ b_os b' = b_os b.
  Proof.
    intros (G & SK & SL). destruct (insert_step b T h k d G) as (b' & T' & E1 & G' & OS). exists b', T'. split; [exact E1|]. split; [|exact OS]. split; [exact G'|].
    assert (GG := h_grown _ _ _ G). assert (LN := insert_len _ _ _ _ _ GG (h_ord _ _ _ G) (h_ne _ _ _ G) E1).
    destruct (insert_ok b T k d (h_def _ _ _ G) GG (h_ord _ _ _ G) (h_ne _ _ _ G) (h_sz _ _ _ G)) as (c & S & b2 & (ET & HP & HS) & E2 & _ & _ & _ & HM). rewrite E1 in E2. injection E2 as <-.
    assert (TU : forall T2, grown b' T2 -> T' = T2) by (intros T2 G2; eapply tree_unique; [apply (g_at _ _ (h_grown _ _ _ G'))|apply (g_at _ _ G2)]).
    assert (NS : st_size (s_tree s) = b_size b) by (rewrite <- SK, skel_size; apply (g_nodes _ _ GG)).
    destruct HS as [-> | (l & i & x & r & -> & Ek)].
    - destruct HM as (NT & HZ & G2). rewrite (TU _ G2). assert (F : st_find k (s_tree s) = None) by (rewrite <- SK, ET, skel_plug, find_splug by exact HP; reflexivity).
      unfold st_insert. rewrite F. cbn [s_tree s_cells]. split.
      + assert (Q : skel (addleaf (b_os b) c (b_size b) (new_info (Some k) d)) = skel (plug c (N E (b_size b) (new_info (Some k) d) E))) by (unfold addleaf; destruct (b_os b); [apply skel_up; reflexivity|reflexivity]).
        rewrite Q, <- SK, ET, !skel_plug, put_splug by exact HP. reflexivity.
      + assert (SN : search b k = Ret None). { destruct (search_ok b T k (h_def _ _ _ G) (g_at _ _ GG) (h_ord _ _ _ G) (h_ne _ _ _ G)) as (c3 & S3 & E3 & _ & K3). destruct K3 as (ET3 & P3 & [-> | (l3 & i3 & x3 & r3 & -> & Ek3)]); [exact E3|]. exfalso. rewrite <- SK, ET3, (find_here c3 l3 i3 x3 r3 k Ek3 P3) in F. discriminate. }
        rewrite SN in LN. rewrite LN. unfold grow_len. rewrite NS, SL. reflexivity.
    - destruct HM as (HZ & G2 & SN). rewrite (TU _ G2). assert (F := find_here c l i x r k Ek HP). rewrite <- ET, SK in F. unfold st_insert. rewrite F. cbn [s_tree s_cells]. split; [|rewrite SN in LN; congruence].
      rewrite <- SK, ET, !skel_plug, put_splug by exact HP. cbn [skel st_put]. unfold kk. cbn [with_data k_key k_data]. rewrite Ek, Z.eqb_refl. reflexivity.
  Qed.
  Lemma shape_inserts h : forall b T h0 s, shaped b T h0 s -> exists b' T', insert_all b h = Ret b' /\ shaped b' T' (h0 ++ h) (fold_left (fun s e => st_insert (fst e) (snd e) s) h s) /\ b_os b' = b_os b.
  Proof.
    induction h as [|[k d] h IH]; intros b T h0 s G; cbn [insert_all fold_left]; [exists b, T; rewrite app_nil_r; auto|].
    destruct (shape_insert b T h0 s k d G) as (b1 & T1 & E1 & G1 & O1). rewrite E1. cbn [bind fst snd]. destruct (IH _ _ _ _ G1) as (b2 & T2 & E2 & G2 & O2). exists b2, T2. rewrite <- app_assoc in G2. cbn [app] in G2. split; [exact E2|]. split; [exact G2|congruence].
  Qed.
  Lemma one_shaped (os : bool) k (d : option D) : shaped (mkbst (mkaft [Some (set_inf (with_isroot true) (new_node (Some k) d))] 1 0) (Some 0) 1 None os) (N E 0 (with_isroot true (new_info (Some k) d)) E) [(k, d)] (st_insert k d (mksstate Leaf 1)).
  Proof. split; [apply one_good|]. split; reflexivity. Qed.
  Lemma build_shape start os h : started start ++ h <> [] -> exists b T, build start None os h = Ret b /\ shaped b T (started start ++ h) (st_inserts (started start ++ h)) /\ b_os b = os.
  Proof.
    intros NE. unfold build, st_inserts. destruct start as [[k d]|]; cbn [option_map fst snd bst_new bind started app fold_left] in *.
    - destruct (shape_inserts h _ _ _ _ (one_shaped os k (Some d))) as (b & T & E1 & G & O). exists b, T. cbn [b_os] in O. auto.
    - change (bind _ _) with (insert_all (fresh (D := D) os) h). destruct h as [|[k d] h]; [congruence|]. cbn [insert_all]. change (insert (mkbst _ _ _ _ _) k d) with (insert (fresh (D := D) os) k d). rewrite fresh_insert. cbn [bind fold_left fst snd].
      destruct (shape_inserts h _ _ _ _ (one_shaped os k d)) as (b & T & E1 & G & O). exists b, T. cbn [b_os app] in *. auto.
  Qed.
  Lemma shaped_stands b T h s : shaped b T h s -> stands b s T.
  Proof. intros (G & SK & SL). split; [apply (h_def _ _ _ G)|]. split; [apply grown_snug, (h_grown _ _ _ G)|]. split; [apply (h_ord _ _ _ G)|]. split; [apply (h_ne _ _ _ G)|]. auto. Qed.
  (** the sizes are right, or do not matter *)
  Definition counted (T : bt) : Prop := sized T \/ nodes T = 1.
  Lemma one_alone (T : bt) : nodes T = 1 -> exists i x, T = N E i x E.
  Proof.
    destruct T as [|l i x r]; cbn [nodes]; [lia|]. pose proof (nodes_nonneg l). pose proof (nodes_nonneg r). intros H1. exists i, x. destruct l as [|ll li lx lr]; [|cbn [nodes] in *; pose proof (nodes_nonneg ll); pose proof (nodes_nonneg lr); lia]. destruct r as [|ll li lx lr]; [reflexivity|cbn [nodes] in *; pose proof (nodes_nonneg ll); pose proof (nodes_nonneg lr); lia].
  Qed.
  Lemma counted_step (b b' : bst) s T T' k : stands b s T -> deletable s k = true -> stands b' (st_delete k s) T' -> (sized T -> swaps k s = false -> sized T') -> counted T -> counted T'.
  Proof.
    intros (_ & _ & _ & _ & SK & _) CD (_ & _ & _ & _ & SK' & _) Z1 [HZ|HN].
    - destruct (swaps k s) eqn:SW; [right|left; auto]. rewrite <- skel_size, SK'. unfold swaps in SW. unfold st_delete. destruct (s_tree s) as [|l j d r] eqn:ES; [discriminate|]. apply andb_prop in SW as [S1 S2]. cbn [st_find st_cut]. rewrite !S1. cbn [s_tree]. cbn [st_size] in S2.
      assert (NN : forall t : stree, 0 <= st_size t) by (induction t as [|a IHa q w c IHc]; cbn [st_size]; lia). destruct l as [|l1 lk ld l2], r as [|r1 rk rd r2]; cbn [st_join st_size] in *; try lia. pose proof (NN l1). pose proof (NN l2). pose proof (NN r1). pose proof (NN r2). lia.
    - right. destruct (one_alone T HN) as (i & x & ->). cbn [skel] in SK. unfold deletable, st_delete in *. rewrite <- SK in *. cbn [st_find st_size] in *. destruct (k =? kk x); [cbn in CD; discriminate|]. destruct (k <? kk x); rewrite <- skel_size, SK', <- SK; reflexivity.
  Qed.
  Lemma shape_deletes ks : forall (b : bst) T s s' fs, stands b s T -> st_deletes ks s = Some (s', fs) -> exists (b' : bst) T', delete_all b ks = Ret (b', fs) /\ stands b' s' T' /\ b_os b' = b_os b /\ (b_os b = true -> counted T -> counted T') /\ (b_root b = Some 0 -> b_root b' = Some 0).
  Proof.
    induction ks as [|k ks IH]; intros b T s s' fs G; cbn [st_deletes delete_all]; [intros [= <- <-]; exists b, T; auto 10|].
    destruct (deletable s k) eqn:CD; [|discriminate]. destruct (st_deletes ks (st_delete k s)) as [[s1 fs1]|] eqn:E1; [|discriminate]. intros [= <- <-].
    destruct (shape_delete b T s k G CD) as (b1 & T1 & E2 & G1 & O1 & Z1 & RZ1). rewrite E2. cbn [bind]. destruct (IH _ _ _ _ _ G1 E1) as (b2 & T2 & E3 & G2 & O2 & Z2 & RZ2). rewrite E3. cbn [bind]. exists b2, T2. split; [reflexivity|]. split; [exact G2|]. split; [congruence|].
    split; [|auto]. intros HOS HZ. apply Z2; [congruence|]. exact (counted_step b b1 s T T1 k G CD G1 (Z1 HOS) HZ).
  Qed.
  Lemma os_view_one (b : bst) i x : default b -> tree_at (b_mem b) (b_root b) (N E i x E) -> a_num (b_arr b) = 1 -> ordered (infos (N E i x E)) -> let l := entries (N E i x E) in
    (forall j, 1 <= j <= len l -> exists n e, select b j = Ret (Some n) /\ nth_error l (Z.to_nat (j - 1)) = Some e /\ n_key n = Some (fst e) /\ k_data (n_inf n) = snd e /\ rank b (fst e) = Ret (Some j)) /\
    (forall j, j < 1 \/ len l < j -> select b j = Raise ValueError) /\
    (forall y, ~ In y (map fst l) -> rank b y = Ret None).
  Proof.
    intros HD HT HN HO l. assert (LL : len l = 1) by reflexivity. assert (ER : b_root b = Some i) by apply HT. assert (EC : tget (b_mem b) (Some i) = Ret (mknode x None None None)) by (apply tget_ok, (proj1 (proj1 HT))).
    assert (Ex : exists k, k_key x = Some k) by (destruct HO as [HO _]; apply Forall_inv in HO; unfold kis in HO; destruct (k_key x); [eauto|destruct HO]). destruct Ex as (k & Ek).
    assert (EL : l = [(k, k_data x)]) by (unfold l, entries; cbn [infos app map]; unfold entry; rewrite Ek; reflexivity). assert (FU : exists f, fuel (b_mem b) = Datatypes.S f) by (unfold fuel; eauto). destruct FU as (f & FU).
    assert (WB : forall S1 R1 (body : S1 -> res (ctl S1 R1)) s0 r0, body s0 = Ret (Break r0) -> while_loop (Datatypes.S f) body s0 = Ret r0) by (intros S1 R1 body s0 r0 E0; cbn [while_loop]; rewrite E0; reflexivity).
    rewrite LL. split; [|split].
    - intros j Hj. assert (j = 1) by lia. subst j. exists (mknode x None None None), (k, k_data x). split; [|split; [rewrite EL; reflexivity|split; [exact Ek|split; [reflexivity|]]]].
      + unfold select. rewrite HN, FU, ER. change (1 - 1) with 0. change (0 <? 0) with false. change (1 <=? 0) with false. cbv iota. cbn [while_loop bind]. rewrite EC. cbn [bind left_size n_left]. reflexivity.
      + unfold rank. cbn [fst]. destruct (search_at b Top E i x E k HD HT HO Ek) as [_ ES]. rewrite ES. cbn [bind]. rewrite EC. cbn [bind left_size n_left]. rewrite FU. apply WB. cbv beta iota. rewrite ER, EC. cbn [bind]. unfold n_key. cbn [n_inf]. rewrite Ek. cbn [oeqb]. rewrite Z.eqb_refl. reflexivity.
    - intros j Hj. unfold select. rewrite HN. destruct (Z.ltb_spec (j - 1) 0); [reflexivity|]. rewrite (proj2 (Z.leb_le 1 (j - 1))) by lia. reflexivity.
    - intros y Hy. unfold rank. destruct (search_ok b (N E i x E) y HD HT HO ltac:(discriminate)) as (c0 & S & ES & _ & ET & HP & [-> | (l1 & i1 & x1 & r1 & -> & Ek1)]); rewrite ES; cbn [root bind]; [reflexivity|]. exfalso. apply Hy. rewrite EL. cbn. left.
      assert (HI : In (k_key x1) (map k_key (infos (N E i x E)))) by (rewrite ET, infos_plug; cbn [infos]; rewrite !map_app; cbn [map]; rewrite !in_app_iff; cbn [In]; auto 10). cbn in HI. destruct HI as [HI|[]]. congruence.
  Qed.
  Lemma stands_shows (b : bst) s T : stands b s T -> finds b (st_list (s_tree s)) /\ (exists v : list info, in_order (b_mem b) (b_root b) = Ret v /\ shows v (st_list (s_tree s))) /\ (exists v, pre_order (b_mem b) (b_root b) = Ret v /\ shows v (st_pre (s_tree s))).
  Proof.
    intros (HD & G & HO & HE & SK & SL). assert (HT := sl_at _ _ (sn_slim _ _ G)). assert (W := tree_wtree _ _ _ HT). rewrite <- SK, skel_list, skel_pre. split; [apply wfinds; assumption|]. split; [exists (infos T); split; [apply in_order_w; assumption|apply (ents_okeys T HO)]|].
    exists (pre T). split; [destruct HT as (HR & ND & ER); rewrite ER; destruct T as [|l i x r]; [congruence|]; eapply pre_order_ok; [exact HR|exact ND|reflexivity]|].
    unfold shows. rewrite map_map. apply map_ext_in. intros y Hy. assert (HY : In y (infos T)). { clear - Hy. induction T as [|l IHl i x r IHr]; cbn [pre infos] in *; [exact Hy|]. rewrite in_app_iff. cbn [In]. destruct Hy as [Hy|Hy]; [auto|]. apply in_app_iff in Hy as [Hy|Hy]; auto. }
    destruct HO as [HO _]. rewrite Forall_forall in HO. specialize (HO y HY). unfold kis in HO. unfold entry. cbn [fst snd]. destruct (k_key y); [reflexivity|destruct HO].
  Qed.
End Shape3.
