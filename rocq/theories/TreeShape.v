(** Proofs: after inserts and deletes (the deletes that compact the array included) the tree BinarySearchTree holds is the textbook tree. *)
From Coq Require Import Sorting.Sorted.
From Verif Require Import Base TreeModel TreeModel2 TreeSpec TreeProofs TreeRotate TreeBst TreeTrav TreeQuery TreeLca TreeDel TreeHist TreeBalSpec TreeAvl TreeAvl2 TreeSim TreeTreap TreeSplay TreeRb TreeReins TreeMulti TreeDelSpec TreeDel2 TreeDel3 TreeDel4 TreeCompact TreeDel5 TreeRbDel TreeRbDel2 TreeSplaySpec TreeSplayDel TreeShapeSpec.

Section Shape.
  Context {D : Type}.
  Notation info := (info D). Notation node := (node D). Notation mem := (mem D). Notation bst := (bst D). Notation bt := (bt D). Notation ctx := (ctx D). Notation stree := (stree D).
  Definition kk (x : info) : Z := match k_key x with Some k => k | None => 0 end.
  Fixpoint skel (T : bt) : stree := match T with E => Leaf | N l _ x r => Node (skel l) (kk x) (k_data x) (skel r) end.
  Fixpoint splug (c : ctx) (t : stree) : stree :=
    match c with Top => t | CL c _ x r => splug c (Node t (kk x) (k_data x) (skel r)) | CR c l _ x => splug c (Node (skel l) (kk x) (k_data x) t) end.
  Lemma skel_plug c : forall S, skel (plug c S) = splug c (skel S).
  Proof. induction c as [|c IH i x r|c IH l i x]; intros S; cbn [plug splug]; [reflexivity|..]; rewrite IH; reflexivity. Qed.
  Lemma skel_sim (T : bt) : forall T', sim T T' -> skel T' = skel T.
  Proof. induction T as [|l IHl i x r IHr]; intros [|l' i' x' r']; cbn [sim skel]; try tauto. intros (_ & E1 & A & B). rewrite (IHl _ A), (IHr _ B). injection E1 as E1 E2 _ _. unfold kk. rewrite E1, E2. reflexivity. Qed.
  Lemma skel_ren f (T : bt) : skel (ren f T) = skel T.
  Proof. induction T as [|l IHl i x r IHr]; cbn [ren skel]; [reflexivity|]. rewrite IHl, IHr. reflexivity. Qed.
  Lemma skel_up (c : ctx) : forall S S' : bt, skel S = skel S' -> skel (up c S) = skel (plug c S').
  Proof. induction c as [|c IH i x r|c IH l i x]; intros S S' H; cbn [plug up]; [exact H|..]; apply IH; cbn [skel]; rewrite H; reflexivity. Qed.
  Lemma skel_size (T : bt) : st_size (skel T) = nodes T.
  Proof. induction T as [|l IHl i x r IHr]; cbn [skel st_size nodes]; [reflexivity|]. rewrite IHl, IHr. lia. Qed.
  Lemma skel_list (T : bt) : st_list (skel T) = entries T.
  Proof. induction T as [|l IHl i x r IHr]; cbn [skel st_list infos]; [reflexivity|]. unfold entries in *. cbn [infos]. rewrite map_app. cbn [map]. rewrite IHl, IHr. reflexivity. Qed.
  Lemma skel_pre (T : bt) : st_pre (skel T) = map entry (pre T).
  Proof. induction T as [|l IHl i x r IHr]; cbn [skel st_pre pre]; [reflexivity|]. cbn [map]. rewrite map_app, IHl, IHr. reflexivity. Qed.
  Lemma skel_leaf (T : bt) : is_leaf (skel T) = true <-> T = E.
  Proof. destruct T; cbn; split; congruence. Qed.

  (** ** the specification along a path *)
  Lemma path_CL key c i x r : path_to key (CL c i x r) -> path_to key c /\ key < kk x.
  Proof. intros [P1 P2]. cbn [cl cr] in *. inversion P2 as [|? ? X1 X2]; subst. apply Forall_app in X2 as [_ X2]. split; [split; assumption|]. unfold kis in X1. unfold kk. destruct (k_key x); tauto. Qed.
  Lemma path_CR key c l i x : path_to key (CR c l i x) -> path_to key c /\ kk x < key.
  Proof. intros [P1 P2]. cbn [cl cr] in *. rewrite !Forall_app in P1. destruct P1 as (P1 & _ & P3). inversion P3 as [|? ? X1 X2]; subst. split; [split; assumption|]. unfold kis in X1. unfold kk. destruct (k_key x); tauto. Qed.
  Ltac walk c IH HP := induction c as [|c IH i x r|c IH l i x]; intros t HP; cbn [splug]; [reflexivity|apply path_CL in HP as [HP L]; rewrite IH by exact HP|apply path_CR in HP as [HP L]; rewrite IH by exact HP].
  Lemma find_splug key c : forall t, path_to key c -> st_find key (splug c t) = st_find key t.
  Proof. walk c IH HP; cbn [st_find]; (replace (key =? kk x) with false by lia); [replace (key <? kk x) with true by lia|replace (key <? kk x) with false by lia]; reflexivity. Qed.
  Lemma put_splug key d c : forall t, path_to key c -> st_put key d (splug c t) = splug c (st_put key d t).
  Proof. walk c IH HP; cbn [st_put]; (replace (key =? kk x) with false by lia); [replace (key <? kk x) with true by lia|replace (key <? kk x) with false by lia]; reflexivity. Qed.
  Lemma cut_splug key c : forall t, path_to key c -> st_cut key (splug c t) = splug c (st_cut key t).
  Proof. walk c IH HP; cbn [st_cut]; (replace (key =? kk x) with false by lia); [replace (key <? kk x) with true by lia|replace (key <? kk x) with false by lia]; reflexivity. Qed.
  Lemma pop_plugl fs : forall S, forall m e S', st_pop (skel S) = Some (m, e, S') ->
    st_pop (skel (plugl fs S)) = Some (m, e, fold_left (fun t (f : Z * info * bt) => Node t (kk (snd (fst f))) (k_data (snd (fst f))) (skel (snd f))) fs S').
  Proof.
    induction fs as [|[[i x] r] fs IH]; intros S m e S' E1; cbn [plugl fold_left]; [exact E1|]. apply IH. cbn [skel st_pop fst snd]. rewrite E1. reflexivity.
  Qed.
  Lemma splug_clefts c fs : forall t, splug (clefts c fs) t = splug c (fold_left (fun t (f : Z * info * bt) => Node t (kk (snd (fst f))) (k_data (snd (fst f))) (skel (snd f))) fs t).
  Proof. induction fs as [|[[i x] r] fs IH]; intros t; cbn [clefts splug fold_left fst snd]; [reflexivity|]. apply IH. Qed.
  Lemma skel_taken c l i x r c1 S key : taken c l i x r c1 S -> k_key x = Some key -> path_to key c -> skel (plug c1 S) = st_cut key (skel (plug c (N l i x r))).
  Proof.
    intros T Ek HP. assert (KX : kk x = key) by (unfold kk; rewrite Ek; reflexivity). rewrite (skel_plug c), cut_splug by exact HP. cbn [skel st_cut]. rewrite KX, Z.eqb_refl. destruct T; rewrite ?skel_plug.
    - f_equal. destruct l; reflexivity.
    - reflexivity.
    - reflexivity.
    - reflexivity.
    - rewrite splug_clefts. cbn [splug]. f_equal. assert (P := pop_plugl fs (N E j y s) _ _ _ eq_refl). unfold st_join. destruct l as [|ll li lx lr]; [congruence|]. cbn [skel].
      destruct (skel (plugl fs (N E j y s))) as [|a b d e] eqn:EQ; [discriminate|]. rewrite P. reflexivity.
  Qed.
  Lemma find_here (c : ctx) l i x r key : k_key x = Some key -> path_to key c -> st_find key (skel (plug c (N l i x r))) = Some (skel l, skel r).
  Proof. intros Ek HP. rewrite skel_plug, find_splug by exact HP. cbn [skel st_find]. unfold kk. rewrite Ek, Z.eqb_refl. reflexivity. Qed.
  Lemma ordered_path (c : ctx) l i x r key : ordered (infos (plug c (N l i x r))) -> k_key x = Some key -> path_to key c.
  Proof. intros HO Ek. destruct (ordered_here _ _ _ _ _ HO) as (k & Ek' & _ & _ & F1 & F2). assert (k = key) by congruence. subst k. apply Forall_app in F1 as [F1 _]. apply Forall_app in F2 as [_ F2]. split; assumption. Qed.

  (** ** the length of the array *)
  Lemma forM_pres {A S} (P : S -> Prop) (body : A -> S -> res S) l : (forall a s s', P s -> body a s = Ret s' -> P s') -> forall s r, P s -> forM l body s = Ret r -> P r.
  Proof. intros HB. induction l as [|a l IH]; intros s r HP; cbn [forM]; [intros [= <-]; exact HP|]. destruct (body a s) as [s'| |] eqn:EB; cbn [bind]; try discriminate. apply IH. eapply HB; eassumption. Qed.
  Lemma aset_len {A} (l : list A) i v l' : aset l i v = Ret l' -> len l' = len l.
  Proof. unfold aset. destruct (_ || _); [discriminate|]. intros [= <-]. apply len_zupd. Qed.
  Lemma modify_len (a a' : aft D) di : 0 <= a_num a -> aft_modify a = Ret (a', di) -> if 4 * a_num a <? len (a_data a) then len (a_data a') = 2 * a_num a + 1 else a' = a.
  Proof.
    intros HN. unfold aft_modify. destruct (4 * a_num a <? len (a_data a)); [|intros [= <- <-]; reflexivity].
    destruct (forM (zrange 0 (a_last a + 1)) _ _) as [[[arr d] j]| |] eqn:E1; cbn [bind]; try discriminate.
    match goal with |- context [forM (zrange 0 j) ?bd arr] => destruct (forM (zrange 0 j) bd arr) as [arr2| |] eqn:E2; cbn [bind]; try discriminate end. intros [= <- <-]. cbn [a_data].
    assert (L1 : len arr = 2 * a_num a + 1).
    { eapply (forM_pres (fun st => len (fst (fst st)) = 2 * a_num a + 1)) in E1; [exact E1| |cbn [fst]; unfold len; rewrite repeat_length; lia].
      intros i [[t q] z] s' H. cbn [fst] in *. destruct (aget (a_data a) i) as [[n|]| |]; cbn [bind]; try discriminate; [|intros [= <-]; exact H]. destruct (aset t z (Some n)) as [t2| |] eqn:EA; cbn [bind]; try discriminate. intros [= <-]. cbn [fst]. rewrite (aset_len _ _ _ _ EA). exact H. }
    eapply (forM_pres (fun st => len st = 2 * a_num a + 1)) in E2; [exact E2| |exact L1].
    intros i t s' H. destruct (tget t (Some i)) as [n| |]; cbn [bind]; try discriminate. repeat match goal with |- context [bind ?e _] => lazymatch e with aset _ _ _ => fail | _ => destruct e; cbn [bind]; try discriminate end end. intros EA. rewrite (aset_len _ _ _ _ EA). exact H.
  Qed.
  Definition after_len (n : Z) (m : mem) : Z := if 4 * n <? len m then 2 * n + 1 else len m.
  Lemma delete_len (m : mem) num last j n arr di : 0 <= num - 1 -> 0 <= j <= last -> cell m j = Some n -> aft_delete (mkaft m num last) (Some j) = Ret (arr, di) -> len (a_data arr) = after_len (num - 1) m.
  Proof.
    intros HN HJ HC. unfold aft_delete. cbn [a_last a_data a_num]. replace ((j <=? last) && (0 <=? j)) with true by lia. assert (EA : aget m j = Ret (Some n)). { unfold cell in HC. destruct (aget m j) as [[q|]| |]; congruence. } rewrite EA. cbn [bind].
    destruct (aset m j None) as [m1| |] eqn:ES; cbn [bind]; try discriminate. assert (L := aset_len _ _ _ _ ES). intros EM. assert (Q := fun H => modify_len _ _ _ H EM). specialize (Q HN). cbn [a_num a_data] in Q. unfold after_len. rewrite <- L. destruct (4 * (num - 1) <? len m1); [exact Q|rewrite Q; reflexivity].
  Qed.
  Lemma drop_any0 (b : bst) T T' (m : mem) j n : snug b T -> tree_at m (b_root b) T' -> len m = len (b_mem b) -> (forall i, used m i = used (b_mem b) i) -> cell m j = Some n -> (forall i, In i (idx T) <-> i = j \/ In i (idx T')) -> ~ In j (idx T') -> nodes T' = nodes T - 1 -> ordered (infos T') -> T' <> E ->
    exists arr di, aft_delete (mkaft m (a_num (b_arr b)) (a_last (b_arr b))) (Some j) = Ret (arr, di) /\
      match di with
      | None => snug (set_arr b arr) T'
      | Some d => exists s, snug (set_root (set_arr b arr) (option_map s (b_root b))) (ren s T') /\ (forall c l i x r, T' = plug c (N l i x r) -> odgetE d (k_key x) = Ret (s i)) /\ s 0 = 0
      end.
  Proof.
    intros [SP TI LA] HT HL HU HC HI HN EN HO HE. assert (SN := sl_num _ _ SP). assert (SI := sl_idx _ _ SP). assert (JB : 0 <= j <= a_last (b_arr b)) by (apply SI, HI; auto).
    set (last' := if a_last (b_arr b) =? j then a_last (b_arr b) - 1 else a_last (b_arr b)). assert (IB : inb m j) by (eapply cell_inb; exact HC). set (m1 := zupd m j None).
    assert (E1 : aft_delete (mkaft m (a_num (b_arr b)) (a_last (b_arr b))) (Some j) = aft_modify (mkaft m1 (nodes T') last')).
    { unfold aft_delete. cbn [a_last a_data a_num]. replace ((j <=? a_last (b_arr b)) && (0 <=? j)) with true by lia. assert (EA : aget m j = Ret (Some n)). { unfold cell in HC. destruct (aget m j) as [[q|]| |]; congruence. } rewrite EA. cbn [bind]. rewrite aset_ok by exact IB. cbn [bind]. rewrite SN, <- EN. reflexivity. }
    rewrite E1. assert (F : frame m m1 [j]) by (apply upd_frame; exact IB). assert (U1 : forall i, used m1 i = if i =? j then false else used m i). { intros i. unfold used, m1. rewrite cell_zupd by exact IB. destruct (i =? j); reflexivity. }
    assert (HT1 : tree_at m1 (b_root b) T'). { destruct HT as (A & B & C). split; [|auto]. eapply frame_rep; [exact F| |exact A]. intros i Hi [<-|[]]. exact (HN Hi). }
    assert (LL : -1 <= last' < len m1). { unfold last', m1. rewrite len_zupd, HL. destruct (a_last (b_arr b) =? j); lia. }
    assert (ID : forall i, In i (idx T') <-> 0 <= i <= last' /\ used m1 i = true).
    { intros i. split.
      - intros Hi. assert (NJ : i <> j) by (intros ->; contradiction). assert (B := SI i ltac:(apply HI; auto)). split; [unfold last'; destruct (Z.eqb_spec (a_last (b_arr b)) j); lia|]. apply (rep_used _ _ _ (proj1 HT1) i Hi).
      - intros [B U]. rewrite U1 in U. destruct (Z.eqb_spec i j) as [->|NJ]; [discriminate|]. rewrite HU in U. assert (X : In i (idx T)) by (apply TI; [unfold last' in B; destruct (Z.eqb_spec (a_last (b_arr b)) j); lia|exact U]). apply HI in X as [->|X]; [contradiction|exact X]. }
    assert (CELL : forall i n0, 0 <= i <= last' -> cell m1 i = Some n0 -> exists c l x r, T' = plug c (N l i x r) /\ n0 = mknode x (root l) (root r) (cpar c)).
    { intros i n0 B Ci. assert (Hi : In i (idx T')) by (apply ID; split; [exact B|eapply cell_used; exact Ci]). apply In_plug in Hi as (c & l & x & r & ET). exists c, l, x, r. split; [exact ET|]. assert (HT2 := HT1). rewrite ET in HT2. apply sub_cell in HT2. congruence. }
    destruct (Z_lt_dec (4 * nodes T') (len m1)) as [CO|NC].
    - destruct (modify_ok (mkaft m1 (nodes T') last')) as (m' & d & E2 & Lm & HM); cbn [a_data a_num a_last]; [exact CO|exact LL|apply count_idx; [apply (proj1 (proj2 HT1))|exact ID|lia]| | |].
      + intros i k n1 n2 Bi Bk Ci Ck EK. destruct (CELL i n1 Bi Ci) as (c1 & l1 & x1 & r1 & X1 & ->). destruct (CELL k n2 Bk Ck) as (c2 & l2 & x2 & r2 & X2 & ->). eapply (same_index T' _ _ _ _ _ _ _ _ _ _ _ _ HT1 HO X1 X2). exact EK.
      + intros i n1 Bi Ci. destruct (CELL i n1 Bi Ci) as (c1 & l1 & x1 & r1 & X1 & ->). intros k Hk. cbn [n_left n_right n_parent] in Hk. apply ID. rewrite X1. rewrite cnt_In, cnt_plug. cbn [idx]. rewrite cnt_app, cnt_cons. destruct Hk as [Hk|[Hk|Hk]]; [apply root_In in Hk; rewrite cnt_In in Hk; lia..|].
        assert (Q : In k (cidx c1)) by (destruct c1 as [|c1 i0 x0 r0|c1 l0 i0 x0]; cbn [cpar] in Hk; [discriminate|..]; injection Hk as <-; cbn [cidx]; rewrite ?in_app_iff; cbn [In]; tauto). rewrite cnt_In in Q. lia.
      + cbn [a_data a_num a_last] in *. rewrite E2. exists (mkaft m' (nodes T') (nodes T' - 1)), (Some d). split; [reflexivity|]. exists (sg m1).
        assert (HR : tree_at m' (option_map (sg m1) (b_root b)) (ren (sg m1) T')).
        { destruct HT1 as (A & B & C). split; [|split].
          - apply (ren_rep _ m1 m' T' None); [|exact A]. intros i n1 Hi Ci. apply HM; [apply ID in Hi; tauto|exact Ci].
          - rewrite ren_idx. apply (nodup_map_in (sg m1)); [|exact B]. intros i k Hi Hk EQ. apply ID in Hi as [B1 U2]. apply ID in Hk as [B2 U3]. apply (sg_inj m1); try assumption; lia.
          - rewrite ren_root, C. reflexivity. }
        split; [split; [split| |]|split; [|apply sg_0]].
        * exact HR.
        * cbn [set_root set_arr b_arr a_num]. rewrite ren_nodes. reflexivity.
        * cbn [set_root set_arr b_arr a_last]. intros i Hi. rewrite ren_idx in Hi. apply in_map_iff in Hi as (k & <- & Hk). apply ID in Hk as [B U]. pose proof (sg_nonneg m1 k). assert (Q := sg_lt m1 k (last' + 1) ltac:(lia) U). rewrite (count_idx m1 T' last' (proj1 (proj2 HT1)) ID) in Q by lia. lia.
        * cbn [set_root set_arr b_arr a_last b_mem a_data]. intros q Bq _. rewrite <- (count_idx m1 T' last' (proj1 (proj2 HT1)) ID) in Bq by lia. destruct (sg_onto m1 (last' + 1) q ltac:(lia) ltac:(lia)) as (i & B & U & ->). rewrite ren_idx. apply in_map. apply ID. split; [lia|exact U].
        * unfold b_mem. cbn [set_root set_arr b_arr a_last a_data]. rewrite Lm. pose proof (nodes_nonneg T'). lia.
        * intros c l i x r EQ. assert (HT2 := HT1). rewrite EQ in HT2. apply sub_cell in HT2. assert (Hi : In i (idx T')) by (eapply cnt_sub; exact EQ). apply ID in Hi as [B _]. apply (proj2 (HM i _ B HT2)).
    - unfold aft_modify. cbn [a_num a_data a_last]. replace (4 * nodes T' <? len m1) with false by lia. eexists. eexists. split; [reflexivity|]. split; [split| |]; unfold b_mem; cbn [set_arr b_arr b_root a_data a_num a_last].
      + exact HT1.
      + reflexivity.
      + intros i Hi. apply ID in Hi. tauto.
      + intros i B U. apply ID. auto.
      + apply LL.
  Qed.
  Lemma drop_more (b : bst) T T' (m : mem) j n : snug b T -> tree_at m (b_root b) T' -> len m = len (b_mem b) -> (forall i, used m i = used (b_mem b) i) -> cell m j = Some n -> (forall i, In i (idx T) <-> i = j \/ In i (idx T')) -> ~ In j (idx T') -> nodes T' = nodes T - 1 -> ordered (infos T') -> T' <> E ->
    exists arr di, aft_delete (mkaft m (a_num (b_arr b)) (a_last (b_arr b))) (Some j) = Ret (arr, di) /\ len (a_data arr) = after_len (nodes T - 1) (b_mem b) /\
      match di with
      | None => snug (set_arr b arr) T'
      | Some d => exists s, snug (set_root (set_arr b arr) (option_map s (b_root b))) (ren s T') /\ (forall c l i x r, T' = plug c (N l i x r) -> odgetE d (k_key x) = Ret (s i)) /\ s 0 = 0
      end.
  Proof.
    intros G HT HL HU HC HI HN EN HO HE. destruct (drop_any0 b T T' m j n G HT HL HU HC HI HN EN HO HE) as (arr & di & EA & HA). exists arr, di. split; [exact EA|]. split; [|exact HA].
    apply delete_len with (n := n) in EA; [|rewrite (sl_num _ _ (sn_slim _ _ G)), <- EN; apply nodes_nonneg|apply (sl_idx _ _ (sn_slim _ _ G)), HI; auto|exact HC].
    rewrite EA, (sl_num _ _ (sn_slim _ _ G)). unfold after_len. rewrite HL. reflexivity.
  Qed.
  Lemma sized_ren f (T : bt) : sized T -> sized (ren f T).
  Proof. induction T as [|l IHl i x r IHr]; cbn [ren sized]; [auto|]. intros (A & B & C). rewrite !ren_nodes. auto. Qed.
  Lemma csized_ren f (c : ctx) : csized c -> csized (renc f c).
  Proof. induction c as [|c IH i x r|c IH l i x]; cbn [renc csized]; [auto|..]; intros [A B]; auto using sized_ren. Qed.
  Lemma renc_top f (c : ctx) : c <> Top -> renc f c <> Top.
  Proof. destruct c; [congruence|discriminate..]. Qed.
  (** the end of a delete *)
  Lemma size_end (b b0 : bst) c (S : bt) t L : snug b (plug c S) -> b_comp b = b_comp b0 -> b_os b = b_os b0 -> skel (plug c S) = t -> len (b_mem b) = L ->
    exists b' T', (' (b, a) <- (b2 <- update_size b (cpar c);; Ret (b2, Some (cpar c)));; Ret (b, negb (is_none a))) = Ret (b', true) /\ snug b' T' /\ skel T' = t /\ b_comp b' = b_comp b0 /\ b_os b' = b_os b0 /\ len (b_mem b') = L /\ ents T' = ents (plug c S) /\ (b_os b = true -> c <> Top -> csized c -> sized S -> sized T') /\ b_root b' = b_root b.
  Proof.
    intros [S1 S2 S3] K1 K2 EK EL. destruct (s_update_size b c S S1) as (b2 & c2 & E3 & SP3 & CZ & K). rewrite E3. cbn [bind is_none negb]. destruct (update_size_used _ _ _ E3) as (U1 & U2 & U3). destruct K as (K3 & K4 & _). exists b2, (plug c2 S). assert (SM : sim (plug c S) (plug c2 S)) by (apply sim_plug; [apply cz_sim; exact CZ|apply sim_refl]).
    split; [reflexivity|]. split; [split; [exact SP3| |lia]|].
    - intros k Hk Uk. rewrite U3 in Uk. rewrite U1 in Hk. replace (idx (plug c2 S)) with (idx (plug c S)) by (apply (sim_facts _ _ SM)). apply S2; assumption.
    - split; [rewrite (skel_sim _ _ SM); exact EK|]. split; [congruence|]. split; [congruence|]. split; [congruence|]. split; [symmetry; apply (sim_facts _ _ SM)|]. split; [|destruct (sl_at _ _ SP3) as (_ & _ & Q1); destruct (sl_at _ _ S1) as (_ & _ & Q2); destruct (sim_facts _ _ SM) as (_ & _ & Q3 & _); congruence]. intros HO NT SC SS. assert (HT1 := sl_at _ _ S1). destruct c as [|c1 i x r|c1 l i x]; [congruence|..]; cbn [plug cpar csized] in *.
    + destruct (update_size_ok b c1 S i x r HT1 SS (proj1 SC) (proj2 SC) HO) as (m' & E4 & HT3 & _). rewrite E3 in E4. injection E4 as ->. assert (X := tree_unique _ _ _ _ (sl_at _ _ SP3) HT3). rewrite X. apply sized_up; [|apply SC]. cbn [sized fits with_size k_size]. tauto.
    + destruct (update_size_ok b c1 l i x S HT1 (proj1 SC) SS (proj2 SC) HO) as (m' & E4 & HT3 & _). rewrite E3 in E4. injection E4 as ->. assert (X := tree_unique _ _ _ _ (sl_at _ _ SP3) HT3). rewrite X. apply sized_up; [|apply SC]. cbn [sized fits with_size k_size]. tauto.
  Qed.
End Shape.
