(** Proofs: mixed histories, what all the trees have in common: the base class' insert and delete on an array with empty cells whose last cell is in use. *)
From Coq Require Import Sorting.Sorted.
From Verif Require Import Base TreeModel TreeModel2 TreeSpec TreeProofs TreeRotate TreeBst TreeTrav TreeQuery TreeLca TreeDel TreeHist TreeBalSpec TreeAvl TreeAvl2 TreeSim TreeTreap TreeSplay TreeReins TreeMulti TreeDel2 TreeDel3 TreeDel4 TreeRbDel2 TreeHist2Spec TreeHist2 TreeHist3 TreeMixSpec TreeMix.

Section Mix2.
  Context {D : Type}.
  Notation info := (info D). Notation node := (node D). Notation mem := (mem D). Notation bst := (bst D). Notation bt := (bt D). Notation ctx := (ctx D).
  Lemma zents_zk (T : bt) : zk T = map (fun e => (fst e, fst (snd e))) (zents T).
  Proof. induction T as [|l IHl i x r IHr]; [reflexivity|]. rewrite zk_N, zents_N, map_app. cbn [map fst snd ent]. rewrite IHl, IHr. reflexivity. Qed.
  Record mgood (b : bst) (T : bt) (s : mmap D) : Prop := {
    mg_def : default b;
    mg_h : holed b T;
    mg_ord : ordered (infos T);
    mg_ne : T <> E;
    mg_ents : entries T = m_ents s;
    mg_used : b_size b = m_used s;
    mg_new : In (b_size b - 1, Some (m_newest s)) (zk T) }.
  (** anything that only rearranges the nodes *)
  Lemma m_move b T s b' T' : mgood b T s -> slim b' T' -> zents T' = zents T -> keepsb b b' -> a_last (b_arr b') = a_last (b_arr b) -> mgood b' T' s.
  Proof.
    intros [GD GH GO GE GI GU GN] SP ZE (K1 & K2 & K3 & K4) HL. assert (EN : ents T' = ents T) by (rewrite <- !zents_ents, ZE; reflexivity). assert (EI : idx T' = idx T) by (rewrite <- !zents_idx, ZE; reflexivity).
    assert (NN := ents_nodes _ _ EN). assert (OO : ordered (infos T')) by (eapply ordered_ents; [symmetry; exact EN|exact GO]). destruct GH as [H1 H2 H3 H4 H5 H6]. split.
    - unfold default in *. congruence.
    - split; [apply (sl_at _ _ SP)|apply (sl_num _ _ SP)|congruence|rewrite K3, K4; exact H4|rewrite EI, K3; exact H5|rewrite K3, NN; exact H6].
    - exact OO.
    - eapply ents_ne; [symmetry; exact EN|exact GE].
    - rewrite <- GI. apply okeys_inj. rewrite <- !ents_okeys by assumption. exact EN.
    - congruence.
    - rewrite K3, zents_zk, ZE, <- zents_zk. exact GN.
  Qed.
  Lemma m_one os (x : info) k d : ent x = (Some k, d) -> mgood (one os x) (N E 0 x E) (m_first k d).
  Proof.
    intros Ex. unfold ent in Ex. injection Ex as E1 E2. split; [reflexivity| | |discriminate| |reflexivity|]; cbn.
    - constructor; cbn; try lia. split; [cbn; auto|]. split; [|reflexivity]. constructor; [intros []|constructor].
    - apply (one_cont k d x). unfold ent. congruence.
    - unfold entries, entry. cbn. rewrite E1, E2. reflexivity.
    - left. rewrite E1. reflexivity.
  Qed.
  Lemma m_start os k d (b : bst) : b = mkbst (mkaft [Some (set_inf (with_isroot true) (new_node (Some k) d))] 1 0) (Some 0) 1 None os -> mgood b (N E 0 (with_isroot true (new_info (Some k) d)) E) (m_first k d).
  Proof. intros ->. destruct (hg_start os k d). split; assumption. Qed.

  Lemma cz_zents (c : ctx) : forall c' (S : bt), cz c c' -> zents (plug c' S) = zents (plug c S).
  Proof.
    induction c as [|c IH i x r|c IH l i x]; intros [|c' i' x' r'|c' l' i' x'] S; cbn [cz plug]; try tauto; intros (-> & (z & ->) & -> & H); rewrite IH by exact H; apply zents_plug; reflexivity.
  Qed.
  Lemma m_insert b T s k d : mgood b T s -> exists b1 T1, insert b k d = Ret b1 /\ b_os b1 = b_os b /\ b_root b1 = b_root b /\ mgood b1 T1 (m_put k d s) /\ (b_os b = true -> sized T -> sized T1) /\
    ((is_key (m_ents s) k = false /\ b_size b1 = b_size b + 1 /\ exists c c' z, at_key k T c E /\ c <> Top /\ cz c c' /\ T1 = plug c' (N E (b_size b) (with_size z (new_info (Some k) d)) E)) \/
     (is_key (m_ents s) k = true /\ b_size b1 = b_size b /\ exists c l i x r, T = plug c (N l i x r) /\ k_key x = Some k /\ T1 = plug c (N l i (with_data d x) r))).
  Proof.
    intros [GD GH GO GE GI GU GN]. destruct (search_ok b T k GD (o_at _ _ GH) GO GE) as (c & S & E0 & _ & K). assert (K' := K). destruct K' as (ET & [P1 P2] & HS). destruct HS as [->|(l & i & x & r & -> & Ek)].
    - clear ET P1 P2. destruct (o_insert_pre b T k d c GD GH GO GE K) as (c1 & b1 & K1 & NT & E1 & G1 & N4 & N5 & N6 & N7). clear K. assert (KA := K1). destruct K1 as (ET & [P1 P2] & _). cbn [root] in E0.
      assert (EI : is_key (m_ents s) k = false) by (rewrite <- GI; unfold entries; rewrite ET, infos_plug; rewrite is_key_at by assumption; reflexivity). unfold m_put. rewrite EI.
      set (x0 := new_info (Some k) d) in *. assert (SL := holed_slim _ _ G1). change (plug c1 (N E (b_size b) x0 E)) with (plug (CL c1 (b_size b) x0 E) E) in SL.
      destruct (s_update_size b1 _ _ SL) as (b2 & cc & E2 & SL2 & CZ & KB). destruct cc as [|c2 i2 x2 r2|]; cbn [cz] in CZ; try tauto. destruct CZ as (-> & (z & ->) & -> & CZ). cbn [plug] in SL2. cbn [cpar] in E2.
      assert (LU := last_update_size _ _ _ E2).
      assert (ZE : zents (plug c2 (N E (b_size b) (with_size z x0) E)) = zents (plug c1 (N E (b_size b) x0 E))) by (rewrite (cz_zents c1 c2 _ CZ); apply zents_plug; reflexivity).
      assert (OO : ordered (infos (plug c1 (N E (b_size b) x0 E)))). { rewrite infos_plug. cbn [infos app]. rewrite ET, infos_plug in GO. cbn [infos app] in GO. apply ordered_app in GO as (O1 & O2 & _). apply ordered_mid. split; [exact O1|]. split; [exact O2|]. exists k. auto. }
      assert (M1 : mgood b1 (plug c1 (N E (b_size b) x0 E)) (mkmmap (put k d (m_ents s)) (m_used s + 1) k)).
      { split; cbn [m_ents m_used m_newest]; [unfold default in *; congruence|exact G1|exact OO|apply plug_ne2; exact NT| |lia|].
        - rewrite <- GI. replace (entries T) with (map entry (cl c1 ++ [] ++ cr c1)) by (unfold entries; rewrite ET, infos_plug; reflexivity). rewrite (put_at (cl c1) (cr c1) [] k d P1 P2) by auto. unfold entries. rewrite infos_plug. cbn [infos app]. rewrite map_app. reflexivity.
        - rewrite N6. replace (b_size b + 1 - 1) with (b_size b) by lia. rewrite zk_plug, zk_N. apply in_or_app. right. apply in_or_app. left. left. reflexivity. }
      exists b2, (plug c2 (N E (b_size b) (with_size z x0) E)). split; [congruence|]. assert (KB' := KB). destruct KB as (B1 & B2 & B3 & B4). split; [congruence|].
      split; [unfold update_size in E2; destruct (b_os b1); [destruct (while_loop _ _ _); cbn [bind] in E2; [|discriminate..]|]; injection E2 as <-; exact N7|].
      split; [exact (m_move _ _ _ _ _ M1 SL2 ZE KB' LU)|]. split; [|left; split; [reflexivity|]; split; [congruence|]; exists c1, c2, z; auto].
      intros HO HZ. rewrite ET in HZ. apply sized_plug in HZ as [_ HZ]. destruct (update_size_ok b1 c1 E (b_size b) x0 E (o_at _ _ G1) I I HZ ltac:(congruence)) as (m3 & E3 & HT3 & _). rewrite E2 in E3. injection E3 as ->. assert (X := tree_unique _ _ _ _ (sl_at _ _ SL2) HT3). rewrite X. apply sized_up; [|exact HZ]. cbn [sized fits with_size k_size nodes]. auto.
    - cbn [root] in E0. unfold insert. rewrite E0. cbn [bind]. assert (HT := o_at _ _ GH). rewrite ET in HT. assert (HC := sub_cell _ _ _ _ _ _ _ HT). rewrite (tmod_inf _ _ _ _ HC). cbn [n_inf]. destruct (set_info_ok _ _ _ _ _ _ _ (with_data d x) HT) as (m & Em & HT' & F). rewrite Em. cbn [bind].
      assert (EIx : idx (plug c (N l i (with_data d x) r)) = idx T) by (rewrite ET; apply idx_plug_eq; reflexivity).
      exists (set_mem b m), (plug c (N l i (with_data d x) r)). split; [reflexivity|]. split; [reflexivity|]. split; [reflexivity|].
      assert (GO' := GO). rewrite ET in GO'. rewrite infos_plug in GO'. cbn [infos] in GO'. rewrite <- app_assoc in GO'. cbn [app] in GO'. rewrite app_assoc in GO'. assert (GM := GO'). apply ordered_mid in GM as (O1 & O2 & k1 & Ek1 & F2 & F3). rewrite Ek in Ek1. injection Ek1 as <-.
      assert (EL : forall y, infos (plug c (N l i y r)) = (cl c ++ infos l) ++ [y] ++ (infos r ++ cr c)) by (intros y; rewrite infos_plug; cbn [infos app]; rewrite <- !app_assoc; reflexivity).
      assert (EI : is_key (m_ents s) k = true) by (rewrite <- GI; unfold entries; rewrite ET, EL, is_key_at by assumption; cbn [map existsb]; unfold entry; rewrite Ek; cbn [fst]; rewrite Z.eqb_refl; reflexivity). unfold m_put. rewrite EI.
      assert (OO : ordered (infos (plug c (N l i (with_data d x) r)))). { eapply ordered_keys; [|exact GO]. rewrite ET, !EL, !map_app. reflexivity. }
      assert (NN : nodes (plug c (N l i (with_data d x) r)) = nodes T) by (rewrite !nodes_len, EIx; reflexivity).
      split; [|split].
      + split; cbn [m_ents m_used m_newest]; [exact GD| |exact OO| | |exact GU| ].
        * destruct GH. constructor; cbn [set_mem b_comp b_os b_size b_root b_mem b_arr a_data a_num a_last]; rewrite ?EIx, ?NN; try assumption; unfold b_mem in *; rewrite ?(proj1 F); assumption.
        * intros X. rewrite X in NN. cbn [nodes] in NN. destruct T as [|l0 i0 x0 r0]; [congruence|]. cbn [nodes] in NN. pose proof (nodes_nonneg l0). pose proof (nodes_nonneg r0). lia.
        * rewrite <- GI. replace (entries T) with (map entry ((cl c ++ infos l) ++ [x] ++ (infos r ++ cr c))) by (unfold entries; rewrite ET, EL; reflexivity). unfold entries. rewrite EL. rewrite (put_at (cl c ++ infos l) (infos r ++ cr c) [x] k d F2 F3) by eauto. rewrite map_app. cbn [map app]. replace (entry (with_data d x)) with (k, d); [reflexivity|]. unfold entry. cbn [with_data k_key k_data]. rewrite Ek. reflexivity.
        * cbn [set_mem b_size]. rewrite (zk_eq _ T); [exact GN|exact EIx|]. rewrite ET, !EL, !map_app. reflexivity.
      + intros _ GS. rewrite ET in GS. clear - GS. revert GS. assert (Q : forall S S' : bt, nodes S = nodes S' -> (sized S -> sized S') -> sized (plug c S) -> sized (plug c S')).
        { induction c as [|c IH j y r0|c IH l0 j y]; intros S S' Hn HS; cbn [plug]; [exact HS|..]; apply IH; cbn [nodes sized]; try (rewrite Hn; reflexivity); rewrite Hn; tauto. }
        apply Q; [reflexivity|cbn [sized with_data k_size]; auto].
      + right. split; [reflexivity|]. split; [reflexivity|]. exists c, l, i, x, r. auto.
  Qed.

  Lemma m_absent b T s k : mgood b T s -> is_key (m_ents s) k = false -> exists c : ctx, search_parent b k = Ret (None, cpar c) /\ search b k = Ret None /\ m_take k s = s.
  Proof.
    intros G EI. destruct G as [GD GH GO GE GI GU GN]. destruct (search_ok b T k GD (o_at _ _ GH) GO GE) as (c & S0 & E1 & E0 & ET & [P1 P2] & HS). destruct HS as [->|(l & i & x & r & -> & Ek)].
    - exists c. split; [exact E0|]. split; [exact E1|]. unfold m_take. replace (take_out k (m_ents s)) with (m_ents s); [destruct s; reflexivity|]. symmetry. apply filter_all. apply Forall_forall. intros e He. unfold is_key in EI. destruct (Z.eqb_spec (fst e) k) as [X|]; [|reflexivity].
      exfalso. assert (existsb (fun e => fst e =? k) (m_ents s) = true) by (apply existsb_exists; exists e; split; [exact He|apply Z.eqb_eq; exact X]). congruence.
    - exfalso. assert (is_key (m_ents s) k = true); [|congruence]. rewrite <- GI. apply existsb_exists. exists (entry x). split; [unfold entries; apply in_map; rewrite ET, infos_plug; cbn [infos]; rewrite !in_app_iff; cbn [In]; auto|]. rewrite (fst_entry x k Ek). apply Z.eqb_refl.
  Qed.
  Lemma m_present b T s k : mgood b T s -> is_key (m_ents s) k = true -> exists c l i x r, T = plug c (N l i x r) /\ k_key x = Some k /\ search_parent b k = Ret (Some i, cpar c) /\ search b k = Ret (Some i).
  Proof.
    intros G EI. destruct G as [GD GH GO GE GI GU GN]. destruct (search_ok b T k GD (o_at _ _ GH) GO GE) as (c & S0 & E1 & E0 & ET & [P1 P2] & HS). destruct HS as [->|(l & i & x & r & -> & Ek)].
    - exfalso. rewrite <- GI in EI. unfold entries in EI. rewrite ET, infos_plug in EI. rewrite is_key_at in EI by assumption. discriminate.
    - exists c, l, i, x, r. auto.
  Qed.
  Lemma len_ents_nodes b T s : mgood b T s -> len (m_ents s) = nodes T.
  Proof. intros G. rewrite <- (mg_ents _ _ _ G). apply len_entries. Qed.
  Lemma m_delete_info b T s k c l i x r : mgood b T s -> T = plug c (N l i x r) -> k_key x = Some k -> search_parent b k = Ret (Some i, cpar c) -> k <> m_newest s -> (l <> E -> r <> E -> next_key (m_ents s) k <> Some (m_newest s)) -> 2 <= len (m_ents s) -> m_used s <= 2 * (len (m_ents s) - 1) ->
    (c = Top -> l <> E /\ r <> E) ->
    exists b' c1 S c' j, delete_info b k = Ret (b', Some (cpar c')) /\ taken c l i x r c1 S /\ gone c l i x r c1 S j /\ cz c1 c' /\ b_os b' = b_os b /\ mgood b' (plug c' S) (m_take k s).
  Proof.
    intros G ET Ek E0 HN1 HN2 HL2 HM4 TOP. assert (LN := len_ents_nodes _ _ _ G). destruct G as [GD GH GO GE GI GU GN].
    rewrite LN in HM4. assert (HCAP := o_cap _ _ GH).
    destruct (o_delete_strong b T k c l i x r GD (holed_slim _ _ GH) ltac:(lia) E0 ET TOP) as (b' & c1 & S & c' & j & E1 & TK & CZ & SP & (T1 & T2 & T3 & T4 & T5 & T6) & HG).
    assert (GO' := GO). rewrite ET in GO'. assert (EN1 := taken_ents _ _ _ _ _ _ _ k TK Ek GO'). assert (NN := taken_nodes _ _ _ _ _ _ _ TK).
    assert (EN2 : ents (plug c' S) = ents (plug c1 S)). { destruct (csim_ents _ _ (cz_sim _ _ CZ)) as [X1 X2]. unfold ents. rewrite !infos_plug, !map_app. rewrite X1, X2. reflexivity. }
    assert (NN2 := nodes_ents _ _ EN2). rewrite <- ET in NN, EN1, GO'. assert (EN3 : ents (plug c' S) = without k (ents T)) by congruence.
    assert (OO : ordered (infos (plug c' S))) by (apply (ordered_without k (infos T)); assumption).
    destruct (gone_zk _ _ _ _ _ _ _ _ k HG Ek ltac:(rewrite <- ET; exact GO)) as (kj & J1 & J2 & J3). rewrite <- ET in J1, J2, J3. rewrite GI in J2.
    assert (NJ : m_newest s <> kj).
    { destruct HG as [(_ & EJ & _)|(NL & fs & y & Er & _)].
      - rewrite EJ in J1. assert (Some kj = Some k); [|congruence]. eapply (zk_fun T i); [apply (proj1 (proj2 (o_at _ _ GH)))|exact J1|]. rewrite ET, zk_plug, zk_N, !in_app_iff, Ek. cbn [In]. auto.
      - destruct J2 as [->|J2]; [congruence|]. assert (next_key (m_ents s) k <> Some (m_newest s)); [|congruence]. apply HN2; [exact NL|]. intros X. rewrite X in Er. apply (f_equal nodes) in Er. pose proof (nodes_plugl fs (N E j y S) E) as Q. pose proof (nodes_nonneg (plugl fs E)). pose proof (nodes_nonneg S). cbn [nodes] in *. lia. }
    assert (LJ : a_last (b_arr b') = b_size b - 1). { rewrite T5. unfold last_after. rewrite (o_last _ _ GH). destruct (Z.eqb_spec (b_size b - 1) j) as [X|]; [|reflexivity]. exfalso. rewrite X in GN. assert (Some kj = Some (m_newest s)) by (eapply zk_fun; [|exact J1|exact GN]; apply (o_at _ _ GH)). congruence. }
    exists b', c1, S, c', j. do 5 (split; [assumption|]). pose proof (nodes_nonneg T).
    split; cbn [m_take m_ents m_used m_newest]; [unfold default in *; congruence| |exact OO| | |congruence| ].
    + constructor; rewrite ?T4, ?T1; try (apply GH); [apply (sl_at _ _ SP)|apply (sl_num _ _ SP)|exact LJ|intros z Hz; apply (sl_idx _ _ SP) in Hz; lia|lia].
    + intros X. rewrite X in NN2. cbn [nodes] in NN2. lia.
    + apply okeys_inj. unfold take_out. rewrite <- without_okeys, <- GI. rewrite <- (ents_okeys T GO), <- (ents_okeys (plug c' S) OO). exact EN3.
    + rewrite T4. destruct (cz_zk _ _ CZ) as [Z1 Z2]. rewrite (zk_plug c' S), Z1, Z2, <- zk_plug. apply J3; congruence.
  Qed.
End Mix2.
