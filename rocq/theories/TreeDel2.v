(** Trees in an array with empty cells: rotations and stores, and BinarySearchTree.delete with the parent links it keeps.
    The lemmas on [slim] repeat those on [grown] of TreeAvl.v, TreeAvl2.v and TreeSim.v for arrays from which cells were deleted. *)
From Coq Require Import Sorting.Sorted.
From Verif Require Import Base TreeModel TreeModel2 TreeSpec TreeProofs TreeRotate TreeBst TreeTrav TreeQuery TreeLca TreeDel TreeHist TreeBalSpec TreeAvl TreeAvl2 TreeSim.

Section Slim.
  Context {D : Type}.
  Notation info := (info D). Notation node := (node D). Notation mem := (mem D). Notation bst := (bst D). Notation bt := (bt D). Notation ctx := (ctx D).
  Record slim (b : bst) (T : bt) : Prop := {
    sl_at : tree_at (b_mem b) (b_root b) T;
    sl_num : a_num (b_arr b) = nodes T;
    sl_idx : forall i, In i (idx T) -> 0 <= i <= a_last (b_arr b) }.
  Lemma grown_slim b T : grown b T -> slim b T.
  Proof. intros G. split; [apply (g_at _ _ G)|rewrite (g_num _ _ G), (g_nodes _ _ G); reflexivity|]. intros i Hi. rewrite (g_last _ _ G). assert (H := g_idx _ _ G i Hi). lia. Qed.
  Lemma nodes_cnt (T T' : bt) : (forall z, cnt z (idx T') = cnt z (idx T)) -> nodes T' = nodes T.
  Proof. intros HC. rewrite !nodes_len. unfold len. f_equal. apply Permutation_length. apply (Permutation_count_occ Z.eq_dec). intros z. apply HC. Qed.
  Lemma slim_step (b : bst) T (m' : mem) rt' T' : slim b T -> tree_at m' rt' T' -> len m' = len (b_mem b) -> (forall z, cnt z (idx T') = cnt z (idx T)) -> slim (set_root (set_mem b m') rt') T'.
  Proof.
    intros [G1 G2 G3] HT HL HC. split; unfold b_mem in *; cbn [set_root set_mem b_arr b_root b_size a_data a_num a_last] in *; auto.
    - rewrite (nodes_cnt T T' HC). exact G2.
    - intros i Hi. apply G3. rewrite cnt_In in *. rewrite <- HC. exact Hi.
  Qed.
  Lemma s_tget_at (b : bst) c l i x r : slim b (plug c (N l i x r)) -> tget (b_mem b) (Some i) = Ret (mknode x (root l) (root r) (cpar c)).
  Proof. intros G. apply tget_ok, (sub_cell _ _ _ _ _ _ _ (sl_at _ _ G)). Qed.
  Lemma s_on_mem_info (b : bst) c l i x r f : slim b (plug c (N l i x r)) -> exists b', on_mem (fun t => tmod t (Some i) (set_inf f)) b = Ret b' /\ slim b' (plug c (N l i (f x) r)) /\ keepsb b b' /\ b_root b' = b_root b.
  Proof.
    intros G. assert (HT := sl_at _ _ G). assert (HC := sub_cell _ _ _ _ _ _ _ HT). destruct (set_info_ok _ _ _ _ _ _ _ (f x) HT) as (m' & E1 & HT' & F). unfold on_mem. rewrite (tmod_inf _ _ _ _ HC). cbn [n_inf]. rewrite E1. cbn [bind].
    exists (set_mem b m'). split; [reflexivity|]. split; [|split; [split; [reflexivity|]; split; [reflexivity|]; split; [reflexivity|apply (frame_len _ _ _ F)]|reflexivity]]. rewrite <- set_root_same. eapply slim_step; [exact G|exact HT'|apply (frame_len _ _ _ F)|].
    intros z. rewrite !cnt_plug. reflexivity.
  Qed.
  Lemma s_rot_ok (f : mem -> option Z -> option Z -> option Z -> res (mem * option Z)) (b : bst) j k T T' : slim b T ->
    (tree_at (b_mem b) (b_root b) T -> exists m' rt', f (b_mem b) (b_root b) (Some j) (Some k) = Ret (m', rt') /\ tree_at m' rt' T' /\ frame (b_mem b) m' (idx T)) ->
    (forall z, cnt z (idx T') = cnt z (idx T)) -> exists b', rot f b (Some j) (Some k) = Ret b' /\ slim b' T' /\ keepsb b b'.
  Proof.
    intros G HF HC. destruct (HF (sl_at _ _ G)) as (m' & rt' & E1 & HT & F). unfold rot. rewrite E1. cbn [bind]. exists (set_root (set_mem b m') rt'). split; [reflexivity|]. split; [eapply slim_step; [exact G|exact HT|apply (frame_len _ _ _ F)|exact HC]|]. split; [reflexivity|]. split; [reflexivity|]. split; [reflexivity|apply (frame_len _ _ _ F)].
  Qed.
  Lemma s_rot_right (b : bst) (c : ctx) (a : bt) k xk (v : bt) j xj (d : bt) : slim b (plug c (N (N a k xk v) j xj d)) -> exists b', rot right_rotate b (Some j) (Some k) = Ret b' /\ slim b' (plug c (N a k xk (N v j xj d))) /\ keepsb b b'.
  Proof. intros G. eapply s_rot_ok; [exact G|intros HT; apply (right_rotate_ok _ _ _ _ _ _ _ _ _ _ HT)|]. intros z. cnts. lia. Qed.
  Lemma s_rot_left (b : bst) (c : ctx) (a : bt) k xk (v : bt) j xj (d : bt) : slim b (plug c (N a j xj (N v k xk d))) -> exists b', rot left_rotate b (Some j) (Some k) = Ret b' /\ slim b' (plug c (N (N a j xj v) k xk d)) /\ keepsb b b'.
  Proof. intros G. eapply s_rot_ok; [exact G|intros HT; apply (left_rotate_ok _ _ _ _ _ _ _ _ _ _ HT)|]. intros z. cnts. lia. Qed.
  Lemma s_rot_left_right (b : bst) (c : ctx) (a : bt) k xk (v : bt) i xi (w : bt) j xj (d : bt) : slim b (plug c (N (N a k xk (N v i xi w)) j xj d)) -> exists b', rot left_right_rotate b (Some j) (Some k) = Ret b' /\ slim b' (plug c (N (N a k xk v) i xi (N w j xj d))) /\ keepsb b b'.
  Proof. intros G. eapply s_rot_ok; [exact G|intros HT; apply (left_right_rotate_ok _ _ _ _ _ _ _ _ _ _ _ _ _ HT)|]. intros z. cnts. lia. Qed.
  Lemma s_rot_right_left (b : bst) (c : ctx) (a : bt) k xk (v : bt) i xi (w : bt) j xj (d : bt) : slim b (plug c (N a j xj (N (N v i xi w) k xk d))) -> exists b', rot right_left_rotate b (Some j) (Some k) = Ret b' /\ slim b' (plug c (N (N a j xj v) i xi (N w k xk d))) /\ keepsb b b'.
  Proof. intros G. eapply s_rot_ok; [exact G|intros HT; apply (right_left_rotate_ok _ _ _ _ _ _ _ _ _ _ _ _ _ HT)|]. intros z. cnts. lia. Qed.
  Lemma slim_sub (b : bst) c l i x r : slim b (plug c (N l i x r)) -> rep (b_mem b) l (Some i) /\ rep (b_mem b) r (Some i).
  Proof. intros G. destruct (sl_at _ _ G) as (HR & _). apply rep_plug in HR as (_ & _ & A & B). auto. Qed.
  Lemma s_fixh_ok (b : bst) os c l i x r : slim b (plug c (N l i x r)) -> avl os l -> avl os r ->
    exists b', on_mem (fun t => fix_height t (Some i)) b = Ret b' /\ slim b' (plug c (N l i (with_height (Z.max (height l) (height r) + 1) x) r)) /\ keepsb b b'.
  Proof.
    intros G AL AR. destruct (slim_sub _ _ _ _ _ _ G) as [RL RR]. assert (ET := s_tget_at _ _ _ _ _ _ G).
    destruct (s_on_mem_info b c l i x r (with_height (Z.max (height l) (height r) + 1)) G) as (b' & E1 & G' & K & _). exists b'. split; [|auto]. rewrite <- E1. unfold on_mem, fix_height. rewrite ET. cbn [bind].
    rewrite (lheight _ os l _ _ RL AL) by reflexivity. cbn [bind]. rewrite (rheight _ os r _ _ RR AR) by reflexivity. reflexivity.
  Qed.
  Lemma s_oss_ok (b : bst) os c l i x r : slim b (plug c (N l i x r)) -> b_os b = os -> avl os l -> avl os r ->
    exists b' x', os_size b (Some i) = Ret b' /\ slim b' (plug c (N l i x' r)) /\ keepsb b b' /\ ent x' = ent x /\ k_height x' = k_height x /\ (os = true -> k_size x' = nodes l + nodes r + 1).
  Proof.
    intros G HOS AL AR. unfold os_size. rewrite HOS. destruct os.
    - destruct (s_on_mem_info b c l i x r (with_size (nodes l + nodes r + 1)) G) as (b' & E1 & G' & K & _). exists b', (fits l r x). split; [|split; [exact G'|]; split; [exact K|]; cbn; auto].
      rewrite <- E1. destruct (slim_sub _ _ _ _ _ _ G) as [RL RR]. assert (ET := s_tget_at _ _ _ _ _ _ G). unfold on_mem, fix_size. rewrite ET. cbn [bind]. rewrite (root_size _ l _ RL (avl_sized _ _ AL eq_refl)) by reflexivity. cbn [bind]. rewrite (root_size_r _ r _ RR (avl_sized _ _ AR eq_refl)) by reflexivity. reflexivity.
    - exists b, x. split; [reflexivity|]. split; [exact G|]. split; [apply keepsb_refl|]. split; [reflexivity|]. split; [reflexivity|discriminate].
  Qed.
  Lemma s_touch_ok (b : bst) os c l i x r : slim b (plug c (N l i x r)) -> b_os b = os -> avl os l -> avl os r ->
    exists b' x', (b1 <- on_mem (fun t => fix_height t (Some i)) b ;; os_size b1 (Some i)) = Ret b' /\ slim b' (plug c (N l i x' r)) /\ keepsb b b' /\ ent x' = ent x /\ nodeok os l x' r.
  Proof.
    intros G HOS AL AR. destruct (s_fixh_ok b os c l i x r G AL AR) as (b1 & E1 & G1 & K1). rewrite E1. cbn [bind]. assert (O1 : b_os b1 = os) by (rewrite <- HOS; apply K1).
    destruct (s_oss_ok b1 os _ _ _ _ _ G1 O1 AL AR) as (b2 & x' & E2 & G2 & K2 & X1 & X2 & X3). exists b2, x'. split; [exact E2|]. split; [exact G2|]. split; [eapply keepsb_trans; eassumption|]. split; [exact X1|]. split; [exact X2|exact X3].
  Qed.
  Lemma s_avl_right_ok (b : bst) os (c : ctx) (a : bt) k xk (v : bt) j xj (d : bt) : slim b (plug c (N (N a k xk v) j xj d)) -> b_os b = os -> avl os v -> avl os d ->
    exists b' xj', avl_right_rotate b (Some j) (Some k) = Ret b' /\ slim b' (plug c (N a k xk (N v j xj' d))) /\ keepsb b b' /\ ent xj' = ent xj /\ nodeok os v xj' d.
  Proof.
    intros G HOS AV AD. destruct (s_rot_right b c a k xk v j xj d G) as (b1 & E1 & G1 & K1). unfold avl_right_rotate. rewrite E1. cbn [bind]. assert (O1 : b_os b1 = os) by (rewrite <- HOS; apply K1).
    destruct (s_touch_ok b1 os (CR c a k xk) v j xj d G1 O1 AV AD) as (b2 & x' & E2 & G2 & K2 & X1 & X2). exists b2, x'. split; [exact E2|]. split; [exact G2|]. split; [eapply keepsb_trans; eassumption|]. auto.
  Qed.
  Lemma s_avl_left_ok (b : bst) os (c : ctx) (a : bt) k xk (v : bt) j xj (d : bt) : slim b (plug c (N a j xj (N v k xk d))) -> b_os b = os -> avl os a -> avl os v -> avl os d -> -1 <= height v - height a <= 1 ->
    exists b' xj' xk', avl_left_rotate b (Some j) (Some k) = Ret b' /\ slim b' (plug c (N (N a j xj' v) k xk' d)) /\ keepsb b b' /\ ent xj' = ent xj /\ ent xk' = ent xk /\ nodeok os a xj' v.
  Proof.
    intros G HOS AA AV AD HB. destruct (s_rot_left b c a k xk v j xj d G) as (b1 & E1 & G1 & K1). unfold avl_left_rotate. rewrite E1. cbn [bind]. assert (O1 : b_os b1 = os) by (rewrite <- HOS; apply K1).
    destruct (s_fixh_ok b1 os (CL c k xk d) a j xj v G1 AA AV) as (b2 & E2 & G2 & K2). rewrite E2. cbn [bind].
    set (xj2 := with_height (Z.max (height a) (height v) + 1) xj) in *.
    assert (exists b3 xk3, on_mem (fun t => fix_height t (Some k)) b2 = Ret b3 /\ slim b3 (plug c (N (N a j xj2 v) k xk3 d)) /\ keepsb b2 b3 /\ ent xk3 = ent xk) as (b3 & xk3 & E3 & G3 & K3 & X3).
    { cbn [plug] in G2. destruct (s_fixh_ok b2 false c (N a j xj2 v) k xk d G2) as (b3 & E3 & G3 & K3); [|apply (avl_weak os); exact AD|].
      - cbn [avl]. split; [split; [reflexivity|discriminate]|]. split; [exact HB|]. split; apply (avl_weak os); assumption.
      - exists b3. eexists. split; [exact E3|]. split; [exact G3|]. split; [exact K3|reflexivity]. }
    rewrite E3. cbn [bind]. assert (O3 : b_os b3 = os) by (pose proof (proj1 K2); pose proof (proj1 K3); congruence).
    destruct (s_oss_ok b3 os (CL c k xk3 d) a j xj2 v G3 O3 AA AV) as (b4 & xj4 & E4 & G4 & K4 & X4 & Y4 & Z4). exists b4, xj4, xk3. split; [exact E4|]. split; [exact G4|]. split; [eapply keepsb_trans; [exact K1|]; eapply keepsb_trans; [exact K2|]; eapply keepsb_trans; eassumption|].
    split; [exact X4|]. split; [exact X3|]. split; [exact Y4|exact Z4].
  Qed.
  Lemma s_avl_left_right_ok (b : bst) os (c : ctx) (a : bt) k xk (v : bt) i xi (w : bt) j xj (d : bt) : slim b (plug c (N (N a k xk (N v i xi w)) j xj d)) -> b_os b = os -> avl os a -> avl os v -> avl os w -> avl os d ->
    exists b' xj' xk', avl_left_right_rotate b (Some j) (Some k) = Ret b' /\ slim b' (plug c (N (N a k xk' v) i xi (N w j xj' d))) /\ keepsb b b' /\ ent xj' = ent xj /\ ent xk' = ent xk /\ nodeok os a xk' v /\ nodeok os w xj' d.
  Proof.
    intros G HOS AA AV AW AD. destruct (s_rot_left_right b c a k xk v i xi w j xj d G) as (b1 & E1 & G1 & K1). unfold avl_left_right_rotate. rewrite E1. cbn [bind].
    destruct (s_fixh_ok b1 os (CR c (N a k xk v) i xi) w j xj d G1 AW AD) as (b2 & E2 & G2 & K2). rewrite E2. cbn [bind]. cbn [plug] in G2. set (xj2 := with_height (Z.max (height w) (height d) + 1) xj) in *.
    destruct (s_fixh_ok b2 os (CL c i xi (N w j xj2 d)) a k xk v G2 AA AV) as (b3 & E3 & G3 & K3). rewrite E3. cbn [bind]. cbn [plug] in G3. set (xk3 := with_height (Z.max (height a) (height v) + 1) xk) in *.
    assert (O3 : b_os b3 = os) by (pose proof (proj1 K1); pose proof (proj1 K2); pose proof (proj1 K3); congruence).
    destruct (s_oss_ok b3 os (CR c (N a k xk3 v) i xi) w j xj2 d G3 O3 AW AD) as (b4 & xj4 & E4 & G4 & K4 & X4 & Y4 & Z4). rewrite E4. cbn [bind]. cbn [plug] in G4.
    assert (O4 : b_os b4 = os) by (pose proof (proj1 K4); congruence).
    destruct (s_oss_ok b4 os (CL c i xi (N w j xj4 d)) a k xk3 v G4 O4 AA AV) as (b5 & xk5 & E5 & G5 & K5 & X5 & Y5 & Z5). exists b5, xj4, xk5. split; [exact E5|]. split; [exact G5|].
    split; [eapply keepsb_trans; [exact K1|]; eapply keepsb_trans; [exact K2|]; eapply keepsb_trans; [exact K3|]; eapply keepsb_trans; eassumption|]. split; [exact X4|]. split; [exact X5|]. split; split; assumption.
  Qed.
  Lemma s_avl_right_left_ok (b : bst) os (c : ctx) (a : bt) k xk (v : bt) i xi (w : bt) j xj (d : bt) : slim b (plug c (N a j xj (N (N v i xi w) k xk d))) -> b_os b = os -> avl os a -> avl os v -> avl os w -> avl os d ->
    exists b' xj' xk', avl_right_left_rotate b (Some j) (Some k) = Ret b' /\ slim b' (plug c (N (N a j xj' v) i xi (N w k xk' d))) /\ keepsb b b' /\ ent xj' = ent xj /\ ent xk' = ent xk /\ nodeok os a xj' v /\ nodeok os w xk' d.
  Proof.
    intros G HOS AA AV AW AD. destruct (s_rot_right_left b c a k xk v i xi w j xj d G) as (b1 & E1 & G1 & K1). unfold avl_right_left_rotate. rewrite E1. cbn [bind].
    destruct (s_fixh_ok b1 os (CL c i xi (N w k xk d)) a j xj v G1 AA AV) as (b2 & E2 & G2 & K2). rewrite E2. cbn [bind]. cbn [plug] in G2. set (xj2 := with_height (Z.max (height a) (height v) + 1) xj) in *.
    destruct (s_fixh_ok b2 os (CR c (N a j xj2 v) i xi) w k xk d G2 AW AD) as (b3 & E3 & G3 & K3). rewrite E3. cbn [bind]. cbn [plug] in G3. set (xk3 := with_height (Z.max (height w) (height d) + 1) xk) in *.
    assert (O3 : b_os b3 = os) by (pose proof (proj1 K1); pose proof (proj1 K2); pose proof (proj1 K3); congruence).
    destruct (s_oss_ok b3 os (CL c i xi (N w k xk3 d)) a j xj2 v G3 O3 AA AV) as (b4 & xj4 & E4 & G4 & K4 & X4 & Y4 & Z4). rewrite E4. cbn [bind]. cbn [plug] in G4.
    assert (O4 : b_os b4 = os) by (pose proof (proj1 K4); congruence).
    destruct (s_oss_ok b4 os (CR c (N a j xj4 v) i xi) w k xk3 d G4 O4 AW AD) as (b5 & xk5 & E5 & G5 & K5 & X5 & Y5 & Z5). exists b5, xj4, xk5. split; [exact E5|]. split; [exact G5|].
    split; [eapply keepsb_trans; [exact K1|]; eapply keepsb_trans; [exact K2|]; eapply keepsb_trans; [exact K3|]; eapply keepsb_trans; eassumption|]. split; [exact X4|]. split; [exact X5|]. split; split; assumption.
  Qed.
  Lemma s_bf_ok (b : bst) os c l i x r : slim b (plug c (N l i x r)) -> avl os l -> avl os r -> balance_factor (b_mem b) (mknode x (root l) (root r) (cpar c)) = Ret (height r - height l).
  Proof. intros G AL AR. destruct (slim_sub _ _ _ _ _ _ G) as [RL RR]. unfold balance_factor. rewrite (rheight _ os r _ _ RR AR) by reflexivity. cbn [bind]. rewrite (lheight _ os l _ _ RL AL) by reflexivity. reflexivity. Qed.
  Lemma s_fix_size_any (b : bst) c l i x r : slim b (plug c (N l i x r)) -> exists b' z, on_mem (fun t => fix_size t (Some i)) b = Ret b' /\ slim b' (plug c (N l i (with_size z x) r)) /\ keepsb b b' /\ b_root b' = b_root b.
  Proof.
    intros G. destruct (slim_sub _ _ _ _ _ _ G) as [RL RR]. assert (ET := s_tget_at _ _ _ _ _ _ G).
    destruct (lsize_any _ l _ (mknode x (root l) (root r) (cpar c)) RL eq_refl) as (zl & El). destruct (rsize_any _ r _ (mknode x (root l) (root r) (cpar c)) RR eq_refl) as (zr & Er).
    destruct (s_on_mem_info b c l i x r (with_size (zl + zr + 1)) G) as (b' & E1 & G' & K & R). exists b', (zl + zr + 1). split; [|auto]. rewrite <- E1. unfold on_mem, fix_size. rewrite ET. cbn [bind]. rewrite El. cbn [bind]. rewrite Er. reflexivity.
  Qed.

  (** the stored sizes on a path may change *)
  Fixpoint cz (c c' : ctx) : Prop :=
    match c, c' with
    | Top, Top => True
    | CL c i x r, CL c' i' x' r' => i' = i /\ (exists z, x' = with_size z x) /\ r' = r /\ cz c c'
    | CR c l i x, CR c' l' i' x' => i' = i /\ (exists z, x' = with_size z x) /\ l' = l /\ cz c c'
    | _, _ => False
    end.
  Lemma with_size_id (x : info) : x = with_size (k_size x) x.
  Proof. destruct x. reflexivity. Qed.
  Lemma cz_refl c : cz c c.
  Proof. induction c as [|c IH i x r|c IH l i x]; cbn [cz]; [exact I|..]; (split; [reflexivity|]; split; [exists (k_size x); apply with_size_id|]; split; [reflexivity|exact IH]). Qed.
  Lemma cz_sim c : forall c', cz c c' -> csim c c'.
  Proof.
    induction c as [|c IH i x r|c IH l i x]; intros [|c' i' x' r'|c' l' i' x']; cbn [cz csim]; try tauto; intros (-> & (z & ->) & -> & H); (split; [reflexivity|]; split; [reflexivity|]; split; [apply sim_refl|apply IH; exact H]).
  Qed.
  Lemma cz_avl os c : forall c' H, cz c c' -> cavl os c H -> cavl os c' H.
  Proof.
    induction c as [|c IH i x r|c IH l i x]; intros [|c' i' x' r'|c' l' i' x'] H; cbn [cz cavl]; try tauto; intros (-> & (z & ->) & -> & HC) (A & B & C); (split; [exact A|]; split; [exact B|apply IH; assumption]).
  Qed.
  Lemma cz_flags c : forall c', cz c c' -> cflag c' = cflag c /\ (ctail c -> ctail c').
  Proof.
    induction c as [|c IH i x r|c IH l i x]; intros [|c' i' x' r'|c' l' i' x']; cbn [cz cflag ctail]; try tauto; intros (-> & (z & ->) & -> & HC); destruct (IH _ HC) as [A B]; cbn [with_size k_isroot]; rewrite A; (split; [reflexivity|]); assert (HT := proj1 (proj2 (proj2 (csim_facts c c' (cz_sim _ _ HC))))); tauto.
  Qed.
  Lemma s_size_loop (c : ctx) : forall (f : nat) (b : bst) (S : bt), slim b (plug c S) -> (clen c < f)%nat ->
    exists b' c', while_loop f size_body (b_mem b, cpar c) = Ret (b_mem b') /\ slim b' (plug c' S) /\ cz c c' /\ keepsb b b' /\ b' = set_mem b (b_mem b').
  Proof.
    induction c as [|c IH i x r|c IH l i x]; intros f b S G Hf; (destruct f as [|f]; [lia|]); cbn [while_loop size_body cpar].
    - exists b, Top. split; [reflexivity|]. split; [exact G|]. split; [exact I|]. split; [apply keepsb_refl|]. destruct b as [[a1 a2 a3] ? ? ? ?]. reflexivity.
    - cbn [plug clen] in *. destruct (s_fix_size_any b c S i x r G) as (b1 & z & E1 & G1 & K1 & R1). unfold on_mem in E1. destruct (fix_size (b_mem b) (Some i)) as [t| |] eqn:E2; cbn [bind] in E1; [|discriminate..]. injection E1 as E1.
      cbn [bind]. assert (Et : t = b_mem b1) by (rewrite <- E1; reflexivity). rewrite Et. rewrite (s_tget_at _ _ _ _ _ _ G1). cbn [bind n_parent]. destruct (IH f b1 (N S i (with_size z x) r) G1 ltac:(lia)) as (b2 & c2 & E3 & G3 & C3 & K3 & M3).
      exists b2, (CL c2 i (with_size z x) r). cbn [plug cz]. split; [exact E3|]. split; [exact G3|]. split; [eauto 10|]. split; [eapply keepsb_trans; eassumption|]. rewrite M3, <- E1. reflexivity.
    - cbn [plug clen] in *. destruct (s_fix_size_any b c l i x S G) as (b1 & z & E1 & G1 & K1 & R1). unfold on_mem in E1. destruct (fix_size (b_mem b) (Some i)) as [t| |] eqn:E2; cbn [bind] in E1; [|discriminate..]. injection E1 as E1.
      cbn [bind]. assert (Et : t = b_mem b1) by (rewrite <- E1; reflexivity). rewrite Et. rewrite (s_tget_at _ _ _ _ _ _ G1). cbn [bind n_parent]. destruct (IH f b1 (N l i (with_size z x) S) G1 ltac:(lia)) as (b2 & c2 & E3 & G3 & C3 & K3 & M3).
      exists b2, (CR c2 l i (with_size z x)). cbn [plug cz]. split; [exact E3|]. split; [exact G3|]. split; [eauto 10|]. split; [eapply keepsb_trans; eassumption|]. rewrite M3, <- E1. reflexivity.
  Qed.
  (** _update_size from the node above a subtree *)
  Lemma s_update_size (b : bst) c (S : bt) : slim b (plug c S) -> exists b' c', update_size b (cpar c) = Ret b' /\ slim b' (plug c' S) /\ cz c c' /\ keepsb b b'.
  Proof.
    intros G. unfold update_size. destruct (b_os b) eqn:Eos; [|exists b, c; auto using cz_refl, keepsb_refl].
    change (while_loop (fuel (b_mem b)) _ _) with (while_loop (fuel (b_mem b)) size_body (b_mem b, cpar c)).
    assert (HF : (clen c < fuel (b_mem b))%nat). { assert (HN := nodes_mem _ _ _ (proj1 (sl_at _ _ G)) (proj1 (proj2 (sl_at _ _ G)))). rewrite nodes_len in HN. unfold len in HN. rewrite len_idx_plug in HN. pose proof (clen_le c). unfold fuel. lia. }
    destruct (s_size_loop c _ b S G HF) as (b1 & c1 & E1 & G1 & C1 & K1 & M1). rewrite E1. cbn [bind]. exists b1, c1. split; [rewrite M1; reflexivity|]. auto.
  Qed.
  (** bypassing a node: its place is taken by S, one of its subtrees when the other is empty *)
  Lemma bypass_ok (m : mem) rt (c : ctx) (l : bt) j y (r S : bt) : tree_at m rt (plug c (N l j y r)) -> c <> Top -> rep m S (Some j) -> (forall z, cnt z (idx S) = (cnt z (idx l) + cnt z (idx r))%nat) ->
    exists m1 m2, relink m (cpar c) (Some j) (root S) = Ret m1 /\ (match root S with Some _ => tmod m1 (root S) (set_parent (cpar c)) | None => Ret m1 end) = Ret m2 /\
      tree_at m2 rt (plug c S) /\ len m1 = len m /\ len m2 = len m /\ cell m1 j = cell m j /\ cell m2 j = cell m j.
  Proof.
    intros (HR & ND & ->) NT HS HC. apply rep_plug in HR as (C & A & _). destruct (nodup_sub _ _ ND) as [NDc _]. assert (ND' := ND). rewrite nodup_cnt in ND'.
    assert (NJ : ~ In j (cidx c)). { intros H. specialize (ND' j). rewrite cnt_plug in ND'. cbn [idx] in ND'. rewrite cnt_app, cnt_cons, Z.eqb_refl in ND'. apply cnt_In in H. lia. }
    assert (NS : ~ In j (idx S)). { intros H. specialize (ND' j). rewrite cnt_plug in ND'. cbn [idx] in ND'. rewrite cnt_app, cnt_cons, Z.eqb_refl in ND'. apply cnt_In in H. rewrite HC in H. lia. }
    assert (DC : forall i, In i (idx S) -> ~ In i (cidx c)). { intros i Hi Hc. specialize (ND' i). rewrite cnt_plug in ND'. cbn [idx] in ND'. rewrite cnt_app, cnt_cons in ND'. rewrite cnt_In in Hi, Hc. rewrite HC in Hi. lia. }
    assert (NDS : NoDup (idx S)). { apply nodup_cnt. intros z. rewrite HC. specialize (ND' z). rewrite cnt_plug in ND'. cbn [idx] in ND'. rewrite cnt_app, cnt_cons in ND'. lia. }
    destruct (relink_ok m c j (root S) C NDc NJ) as (m1 & E1 & C1 & F1). destruct (cpar_ne c NT) as (jp & Ejp). rewrite Ejp in E1.
    assert (HS1 : rep m1 S (Some j)) by (eapply frame_rep; [exact F1|exact DC|exact HS]).
    destruct (setpar_ok m1 S (Some j) (cpar c) HS1 NDS) as (m2 & E2 & HS2 & F2).
    exists m1, m2. rewrite Ejp in *. split; [exact E1|]. split; [exact E2|]. split; [split; [|split]|].
    - apply rep_plug. split; [|rewrite Ejp; exact HS2]. eapply frame_crep; [exact F2| |exact C1]. intros i Hi Hs. exact (DC i Hs Hi).
    - apply nodup_cnt. intros z. specialize (ND' z). specialize (HC z). rewrite cnt_plug in *. cbn [idx] in ND'. rewrite cnt_app, cnt_cons in ND'. lia.
    - apply root_plug. congruence.
    - split; [apply F1|]. split; [rewrite (frame_len _ _ _ F2); apply F1|]. split; [apply F1; exact NJ|]. rewrite (proj2 F2 j NS). apply F1. exact NJ.
  Qed.
  Lemma s_aft_delete (a : aft D) i n : cell (a_data a) i = Some n -> i <= a_last a -> len (a_data a) <= 4 * (a_num a - 1) ->
    exists m', aft_delete a (Some i) = Ret (mkaft m' (a_num a - 1) (if a_last a =? i then a_last a - 1 else a_last a), None) /\ frame (a_data a) m' [i].
  Proof.
    intros HC HI HL. unfold aft_delete. assert (HB := cell_inb _ _ _ HC). unfold inb in HB. replace ((i <=? a_last a) && (0 <=? i)) with true by lia.
    assert (EA : aget (a_data a) i = Ret (Some n)). { unfold cell in HC. destruct (aget (a_data a) i) as [[q|]| |]; congruence. }
    rewrite EA. cbn [bind]. rewrite aset_ok by lia. cbn [bind]. unfold aft_modify. cbn [a_num a_data a_last]. rewrite len_zupd. replace (4 * (a_num a - 1) <? len (a_data a)) with false by lia.
    exists (zupd (a_data a) i None). split; [reflexivity|]. apply upd_frame. exact HB.
  Qed.
  Lemma s_drop_ok (b : bst) (T T' : bt) (m : mem) j n : slim b T -> tree_at m (b_root b) T' -> len m = len (b_mem b) -> cell m j = Some n -> In j (idx T) -> ~ In j (idx T') -> (forall i, In i (idx T') -> In i (idx T)) -> nodes T' = nodes T - 1 ->
    len (b_mem b) <= 4 * (nodes T - 1) ->
    exists arr, aft_delete (mkaft m (a_num (b_arr b)) (a_last (b_arr b))) (Some j) = Ret (arr, None) /\ slim (set_arr b arr) T' /\ len (a_data arr) = len (b_mem b).
  Proof.
    intros SP HW HL HC HJ HN HI EN HF. assert (SN := sl_num _ _ SP). assert (SI := sl_idx _ _ SP).
    destruct (s_aft_delete (mkaft m (a_num (b_arr b)) (a_last (b_arr b))) j n HC) as (m' & E1 & F); cbn [a_data a_num a_last] in *; [apply SI; exact HJ|rewrite HL, SN; exact HF|].
    eexists. split; [exact E1|]. split; [|cbn [a_data]; rewrite (proj1 F); exact HL]. constructor; cbn [set_arr b_mem b_arr b_root a_data a_num a_last].
    - destruct HW as (A & B & C). split; [|auto]. eapply frame_rep; [exact F| |exact A]. intros i Hi [<-|[]]. exact (HN Hi).
    - rewrite SN, EN. reflexivity.
    - intros i Hi. assert (H1 := SI i (HI i Hi)). destruct (Z.eqb_spec (a_last (b_arr b)) j) as [Ej|]; [|exact H1]. assert (i <> j) by (intros ->; contradiction). lia.
  Qed.
End Slim.
