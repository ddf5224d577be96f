(** AVLTree: insertions keep balance, stored heights and sizes. *)
From Coq Require Import Sorting.Sorted.
From Verif Require Import Base TreeModel TreeModel2 TreeSpec TreeProofs TreeRotate TreeBst TreeTrav TreeQuery TreeLca TreeDel TreeHist TreeBalSpec.

Section Cont.
  Context {D : Type}.
  Notation info := (info D). Notation node := (node D). Notation mem := (mem D). Notation bst := (bst D). Notation bt := (bt D). Notation ctx := (ctx D).
  (** contents *)
  Definition cont (T : bt) (h : list (Z * option D)) : Prop := ordered (infos T) /\ forall k d, In (Some k, d) (ents T) <-> last_data h k = Some d.
  Lemma cont_ents T T' h : ents T = ents T' -> cont T h -> cont T' h.
  Proof. intros E1 [H1 H2]. split; [apply (ordered_ents T); assumption|]. intros k d. rewrite <- E1. apply H2. Qed.
  Definition kl (S : bt) : list info := match S with E => [] | N l _ _ _ => infos l end.
  Definition kr (S : bt) : list info := match S with E => [] | N _ _ _ r => infos r end.
  Lemma insert_cont (T T' : bt) h key d c (S : bt) : cont T h -> at_key key T c S -> ents T' = map ent (cl c ++ kl S) ++ (Some key, d) :: map ent (kr S ++ cr c) -> cont T' (h ++ [(key, d)]).
  Proof.
    intros [HO HI] (ET & [P1 P2] & HS) EN.
    assert (exists e, (e = [] \/ exists dd, e = [(Some key, dd)]) /\ ents T = map ent (cl c ++ kl S) ++ e ++ map ent (kr S ++ cr c) /\ Forall (kis (fun k => k < key)) (cl c ++ kl S) /\ Forall (kis (fun k => key < k)) (kr S ++ cr c) /\ ordered (cl c ++ kl S) /\ ordered (kr S ++ cr c)) as (e & He & EE & F1 & F2 & O1 & O2).
    { unfold ents. rewrite ET in *. rewrite infos_plug in *. destruct HS as [-> | (l & i & x & r & -> & Ek)]; cbn [kl kr infos app] in *.
      - exists []. split; [auto|]. rewrite app_nil_r, map_app. split; [reflexivity|]. apply ordered_app in HO as (O1 & O2 & _). auto.
      - exists [(Some key, k_data x)]. split; [eauto|]. rewrite <- !app_assoc in *. cbn [app] in *. rewrite app_assoc in HO. apply ordered_mid in HO as (O1 & O2 & k1 & Ek1 & F1 & F2). rewrite Ek in Ek1. injection Ek1 as <-.
        split; [|auto]. rewrite !map_app. cbn [map]. rewrite !map_app. unfold ent at 3. rewrite Ek. rewrite <- !app_assoc. reflexivity. }
    split.
    - set (y := new_info (Some key) d). assert (OO : ordered ((cl c ++ kl S) ++ y :: (kr S ++ cr c))) by (apply ordered_mid; split; [exact O1|]; split; [exact O2|]; exists key; auto).
      eapply ordered_keys; [|exact OO]. assert (Q : map fst (ents T') = map k_key (infos T')) by (unfold ents; rewrite map_map; reflexivity). rewrite <- Q, EN. rewrite !map_app. cbn [map]. rewrite !map_app, !map_map. reflexivity.
    - intros k0 d0. rewrite EN, last_app. pose proof (put_in (cl c ++ kl S) e (kr S ++ cr c) key d k0 d0 He F1 F2) as Q. rewrite <- EE in Q. rewrite Q. destruct (k0 =? key); [split; congruence|apply HI].
  Qed.
  Lemma plug_E c (S : bt) : S <> E -> plug c S <> E.
  Proof. intros H X. apply (f_equal nodes) in X. pose proof (nodes_plug_le c S). destruct S as [|l i x r]; [congruence|]. cbn [nodes] in *. pose proof (nodes_nonneg l). pose proof (nodes_nonneg r). lia. Qed.
  (** one insertion of the base class *)
  Lemma insert_gen (b : bst) T h key d : default b -> grown b T -> cont T h -> T <> E -> (b_os b = true -> sized T) ->
    exists c S b', at_key key T c S /\ insert b key d = Ret b' /\ b_comp b' = b_comp b /\ b_os b' = b_os b /\ b_root b' = b_root b /\
      match S with
      | E => c <> Top /\ b_size b' = b_size b + 1 /\ grown b' (addleaf (b_os b) c (b_size b) (new_info (Some key) d)) /\ cont (addleaf (b_os b) c (b_size b) (new_info (Some key) d)) (h ++ [(key, d)])
      | N l i x r => b_size b' = b_size b /\ grown b' (plug c (N l i (with_data d x) r)) /\ cont (plug c (N l i (with_data d x) r)) (h ++ [(key, d)])
      end.
  Proof.
    intros HD G C HE HS. destruct (insert_ok b T key d HD G (proj1 C) HE HS) as (c & S & b' & K & E1 & H1 & H2 & H3 & HM). exists c, S, b'. do 5 (split; [assumption|]). destruct S as [|l i x r].
    - destruct HM as (NT & Hs & G'). do 3 (split; [assumption|]). apply (insert_cont T _ h key d c E C K). cbn [kl kr app]. rewrite app_nil_r. apply ents_addleaf.
    - destruct HM as (Hs & G' & _). do 2 (split; [assumption|]). apply (insert_cont T _ h key d c _ C K). cbn [kl kr]. destruct K as (_ & _ & [K|(l' & i' & x' & r' & [= <- <- <- <-] & Ek)]); [discriminate|].
      unfold ents. rewrite infos_plug. cbn [infos]. rewrite !map_app. cbn [map]. change (ent (with_data d x)) with (k_key x, d). rewrite Ek. rewrite <- !app_assoc. reflexivity.
  Qed.
  Lemma grown_step (b : bst) T (m' : mem) rt' T' : grown b T -> tree_at m' rt' T' -> len m' = len (b_mem b) -> (forall z, cnt z (idx T') = cnt z (idx T)) -> grown (set_root (set_mem b m') rt') T'.
  Proof.
    intros G HT HL HC. destruct G as [G1 G2 G3 G4 G5 G6]. split; unfold b_mem in *; cbn [set_root set_mem b_arr b_root b_size a_data a_num a_last] in *; auto.
    - rewrite HL. exact G4.
    - intros i Hi. apply G5. rewrite cnt_In in *. rewrite <- HC. exact Hi.
    - rewrite <- G6, !nodes_len. unfold len. f_equal. apply Permutation_length. apply (Permutation_count_occ Z.eq_dec). intros z. apply HC.
  Qed.
  Lemma set_root_same (b : bst) m : set_root (set_mem b m) (b_root b) = set_mem b m.
  Proof. reflexivity. Qed.
  Definition keepsb (b b' : bst) : Prop := b_os b' = b_os b /\ b_comp b' = b_comp b /\ b_size b' = b_size b /\ len (b_mem b') = len (b_mem b).
  Lemma keepsb_refl b : keepsb b b.
  Proof. unfold keepsb. auto. Qed.
  Lemma keepsb_trans a b c : keepsb a b -> keepsb b c -> keepsb a c.
  Proof. unfold keepsb. intros (A1 & A2 & A3 & A4) (B1 & B2 & B3 & B4). rewrite B1, B2, B3, B4. auto. Qed.
  Lemma tget_at (b : bst) c l i x r : grown b (plug c (N l i x r)) -> tget (b_mem b) (Some i) = Ret (mknode x (root l) (root r) (cpar c)).
  Proof. intros G. apply tget_ok, (sub_cell _ _ _ _ _ _ _ (g_at _ _ G)). Qed.
  (** a store into the fields of one node *)
  Lemma on_mem_info (b : bst) c l i x r f : grown b (plug c (N l i x r)) -> exists b', on_mem (fun t => tmod t (Some i) (set_inf f)) b = Ret b' /\ grown b' (plug c (N l i (f x) r)) /\ keepsb b b' /\ b_root b' = b_root b.
  Proof.
    intros G. assert (HT := g_at _ _ G). assert (HC := sub_cell _ _ _ _ _ _ _ HT). destruct (set_info_ok _ _ _ _ _ _ _ (f x) HT) as (m' & E1 & HT' & F). unfold on_mem. rewrite (tmod_inf _ _ _ _ HC). cbn [n_inf]. rewrite E1. cbn [bind].
    exists (set_mem b m'). split; [reflexivity|]. split; [|split; [split; [reflexivity|]; split; [reflexivity|]; split; [reflexivity|apply (frame_len _ _ _ F)]|reflexivity]]. rewrite <- set_root_same. eapply grown_step; [exact G|exact HT'|apply (frame_len _ _ _ F)|].
    intros z. rewrite !cnt_plug. reflexivity.
  Qed.
  Lemma rot_ok (f : mem -> option Z -> option Z -> option Z -> res (mem * option Z)) (b : bst) j k T T' : grown b T ->
    (tree_at (b_mem b) (b_root b) T -> exists m' rt', f (b_mem b) (b_root b) (Some j) (Some k) = Ret (m', rt') /\ tree_at m' rt' T' /\ frame (b_mem b) m' (idx T)) ->
    (forall z, cnt z (idx T') = cnt z (idx T)) -> exists b', rot f b (Some j) (Some k) = Ret b' /\ grown b' T' /\ keepsb b b'.
  Proof.
    intros G HF HC. destruct (HF (g_at _ _ G)) as (m' & rt' & E1 & HT & F). unfold rot. rewrite E1. cbn [bind]. exists (set_root (set_mem b m') rt'). split; [reflexivity|]. split; [eapply grown_step; [exact G|exact HT|apply (frame_len _ _ _ F)|exact HC]|]. split; [reflexivity|]. split; [reflexivity|]. split; [reflexivity|apply (frame_len _ _ _ F)].
  Qed.
  Lemma rot_right (b : bst) (c : ctx) (a : bt) k xk (v : bt) j xj (d : bt) : grown b (plug c (N (N a k xk v) j xj d)) -> exists b', rot right_rotate b (Some j) (Some k) = Ret b' /\ grown b' (plug c (N a k xk (N v j xj d))) /\ keepsb b b'.
  Proof. intros G. eapply rot_ok; [exact G|intros HT; apply (right_rotate_ok _ _ _ _ _ _ _ _ _ _ HT)|]. intros z. cnts. lia. Qed.
  Lemma rot_left (b : bst) (c : ctx) (a : bt) k xk (v : bt) j xj (d : bt) : grown b (plug c (N a j xj (N v k xk d))) -> exists b', rot left_rotate b (Some j) (Some k) = Ret b' /\ grown b' (plug c (N (N a j xj v) k xk d)) /\ keepsb b b'.
  Proof. intros G. eapply rot_ok; [exact G|intros HT; apply (left_rotate_ok _ _ _ _ _ _ _ _ _ _ HT)|]. intros z. cnts. lia. Qed.
  Lemma rot_left_right (b : bst) (c : ctx) (a : bt) k xk (v : bt) i xi (w : bt) j xj (d : bt) : grown b (plug c (N (N a k xk (N v i xi w)) j xj d)) -> exists b', rot left_right_rotate b (Some j) (Some k) = Ret b' /\ grown b' (plug c (N (N a k xk v) i xi (N w j xj d))) /\ keepsb b b'.
  Proof. intros G. eapply rot_ok; [exact G|intros HT; apply (left_right_rotate_ok _ _ _ _ _ _ _ _ _ _ _ _ _ HT)|]. intros z. cnts. lia. Qed.
  Lemma rot_right_left (b : bst) (c : ctx) (a : bt) k xk (v : bt) i xi (w : bt) j xj (d : bt) : grown b (plug c (N a j xj (N (N v i xi w) k xk d))) -> exists b', rot right_left_rotate b (Some j) (Some k) = Ret b' /\ grown b' (plug c (N (N a j xj v) i xi (N w k xk d))) /\ keepsb b b'.
  Proof. intros G. eapply rot_ok; [exact G|intros HT; apply (right_left_rotate_ok _ _ _ _ _ _ _ _ _ _ _ _ _ HT)|]. intros z. cnts. lia. Qed.
  Lemma grown_neq (b : bst) T : grown b T -> forall z, (cnt z (idx T) <= 1)%nat.
  Proof. intros G. apply nodup_cnt. apply (proj1 (proj2 (g_at _ _ G))). Qed.
  Lemma all_idx (b : bst) T i : grown b T -> 0 <= i < b_size b -> In i (idx T).
  Proof.
    intros G Hi. assert (ND := proj1 (proj2 (g_at _ _ G))). assert (HN := g_nodes _ _ G). rewrite nodes_len in HN.
    apply (NoDup_length_incl ND (l' := zrange 0 (b_size b))); [|intros z Hz; apply zrange_in; apply (g_idx _ _ G); exact Hz|apply zrange_in; lia].
    unfold len in HN. assert (length (zrange 0 (b_size b)) = Z.to_nat (b_size b)) by (unfold zrange; rewrite map_length, seq_length; lia). lia.
  Qed.
  Lemma plug_plug (c2 : ctx) : forall c1, exists c3, forall U : bt, plug c3 U = plug c1 (plug c2 U).
  Proof. induction c2 as [|c2 IH j0 y0 q0|c2 IH q0 j0 y0]; intros c1; [exists c1; reflexivity|..]; destruct (IH c1) as (c3 & H3); [exists (CL c3 j0 y0 q0)|exists (CR c3 q0 j0 y0)]; intros U; cbn [plug]; apply H3. Qed.
  Lemma In_plug (T : bt) i : In i (idx T) -> exists c l x r, T = plug c (N l i x r).
  Proof.
    induction T as [|l IHl j x r IHr]; cbn [idx]; [intros []|]. intros H. apply in_app_or in H as [H|[H|H]].
    - destruct (IHl H) as (c & l0 & x0 & r0 & ->). destruct (plug_plug c (CL Top j x r)) as (c3 & H3). exists c3, l0, x0, r0. rewrite H3. reflexivity.
    - subst j. exists Top, l, x, r. reflexivity.
    - destruct (IHr H) as (c & l0 & x0 & r0 & ->). destruct (plug_plug c (CR Top l j x)) as (c3 & H3). exists c3, l0, x0, r0. rewrite H3. reflexivity.
  Qed.
End Cont.

Section Avl.
  Context {D : Type}.
  Notation info := (info D). Notation node := (node D). Notation mem := (mem D). Notation bst := (bst D). Notation bt := (bt D). Notation ctx := (ctx D).
  Definition nodeok (os : bool) (l : bt) (x : info) (r : bt) : Prop := k_height x = Z.max (height l) (height r) + 1 /\ (os = true -> k_size x = nodes l + nodes r + 1).
  Fixpoint avl (os : bool) (T : bt) : Prop :=
    match T with E => True | N l _ x r => nodeok os l x r /\ -1 <= height r - height l <= 1 /\ avl os l /\ avl os r end.
  (** the context of a hole that is balanced when the hole has height h *)
  Fixpoint cavl (os : bool) (c : ctx) (h : Z) : Prop :=
    match c with
    | Top => True
    | CL c _ _ r => avl os r /\ -1 <= height r - h <= 1 /\ cavl os c (Z.max h (height r) + 1)
    | CR c l _ _ => avl os l /\ -1 <= height l - h <= 1 /\ cavl os c (Z.max (height l) h + 1)
    end.
  Lemma avl_plug os c : forall S, avl os (plug c S) -> avl os S /\ cavl os c (height S).
  Proof. induction c as [|c IH i x r|c IH l i x]; intros S H; cbn [plug cavl] in *; [auto|..]; apply IH in H as [H1 H2]; cbn [avl height] in *; destruct H1 as (A & B & C & F); split; try assumption; (split; [assumption|]); (split; [lia|assumption]). Qed.
  Lemma height_ge (T : bt) : -1 <= height T.
  Proof. induction T as [|l IHl i x r IHr]; cbn [height]; lia. Qed.
  Lemma height_0 (T : bt) : 0 <= height T -> exists l i x r, T = N l i x r.
  Proof. destruct T as [|l i x r]; cbn [height]; [lia|]. eauto. Qed.
  Lemma avl_sized os T : avl os T -> os = true -> sized T.
  Proof. induction T as [|l IHl i x r IHr]; cbn [avl sized]; [auto|]. intros ((_ & A) & _ & B & C) Ho. auto. Qed.
  Lemma avl_weak os T : avl os T -> avl false T.
  Proof. induction T as [|l IHl i x r IHr]; cbn [avl]; [auto|]. intros ((A & _) & B & C & F). split; [split; [exact A|discriminate]|]. auto. Qed.
  (** fields that are heights of subtrees *)
  Lemma lheight (m : mem) os T p n : rep m T p -> avl os T -> n_left n = root T -> left_height m n = Ret (height T).
  Proof. intros HR HA En. unfold left_height. rewrite En. destruct T as [|l i x r]; cbn [root]; [reflexivity|]. destruct HR as (A & _). rewrite (tget_ok _ _ _ A). cbn [bind n_inf]. destruct HA as ((-> & _) & _). reflexivity. Qed.
  Lemma rheight (m : mem) os T p n : rep m T p -> avl os T -> n_right n = root T -> right_height m n = Ret (height T).
  Proof. intros HR HA En. unfold right_height. rewrite En. destruct T as [|l i x r]; cbn [root]; [reflexivity|]. destruct HR as (A & _). rewrite (tget_ok _ _ _ A). cbn [bind n_inf]. destruct HA as ((-> & _) & _). reflexivity. Qed.
  Lemma grown_sub (b : bst) c l i x r : grown b (plug c (N l i x r)) -> rep (b_mem b) l (Some i) /\ rep (b_mem b) r (Some i).
  Proof. intros G. destruct (g_at _ _ G) as (HR & _). apply rep_plug in HR as (_ & _ & A & B). auto. Qed.
  Lemma fixh_ok (b : bst) os c l i x r : grown b (plug c (N l i x r)) -> avl os l -> avl os r ->
    exists b', on_mem (fun t => fix_height t (Some i)) b = Ret b' /\ grown b' (plug c (N l i (with_height (Z.max (height l) (height r) + 1) x) r)) /\ keepsb b b'.
  Proof.
    intros G AL AR. destruct (grown_sub _ _ _ _ _ _ G) as [RL RR]. assert (ET := tget_at _ _ _ _ _ _ G).
    destruct (on_mem_info b c l i x r (with_height (Z.max (height l) (height r) + 1)) G) as (b' & E1 & G' & K & _). exists b'. split; [|auto]. rewrite <- E1. unfold on_mem, fix_height. rewrite ET. cbn [bind].
    rewrite (lheight _ os l _ _ RL AL) by reflexivity. cbn [bind]. rewrite (rheight _ os r _ _ RR AR) by reflexivity. reflexivity.
  Qed.
  Lemma oss_ok (b : bst) os c l i x r : grown b (plug c (N l i x r)) -> b_os b = os -> avl os l -> avl os r ->
    exists b' x', os_size b (Some i) = Ret b' /\ grown b' (plug c (N l i x' r)) /\ keepsb b b' /\ ent x' = ent x /\ k_height x' = k_height x /\ (os = true -> k_size x' = nodes l + nodes r + 1).
  Proof.
    intros G HOS AL AR. unfold os_size. rewrite HOS. destruct os.
    - destruct (on_mem_info b c l i x r (with_size (nodes l + nodes r + 1)) G) as (b' & E1 & G' & K & _). exists b', (fits l r x). split; [|split; [exact G'|]; split; [exact K|]; cbn; auto].
      rewrite <- E1. destruct (grown_sub _ _ _ _ _ _ G) as [RL RR]. assert (ET := tget_at _ _ _ _ _ _ G). unfold on_mem, fix_size. rewrite ET. cbn [bind]. rewrite (root_size _ l _ RL (avl_sized _ _ AL eq_refl)) by reflexivity. cbn [bind]. rewrite (root_size_r _ r _ RR (avl_sized _ _ AR eq_refl)) by reflexivity. reflexivity.
    - exists b, x. split; [reflexivity|]. split; [exact G|]. split; [apply keepsb_refl|]. split; [reflexivity|]. split; [reflexivity|discriminate].
  Qed.
  (** the height and size of one node recomputed *)
  Lemma touch_ok (b : bst) os c l i x r : grown b (plug c (N l i x r)) -> b_os b = os -> avl os l -> avl os r ->
    exists b' x', (b1 <- on_mem (fun t => fix_height t (Some i)) b ;; os_size b1 (Some i)) = Ret b' /\ grown b' (plug c (N l i x' r)) /\ keepsb b b' /\ ent x' = ent x /\ nodeok os l x' r.
  Proof.
    intros G HOS AL AR. destruct (fixh_ok b os c l i x r G AL AR) as (b1 & E1 & G1 & K1). rewrite E1. cbn [bind]. assert (O1 : b_os b1 = os) by (rewrite <- HOS; apply K1).
    destruct (oss_ok b1 os _ _ _ _ _ G1 O1 AL AR) as (b2 & x' & E2 & G2 & K2 & X1 & X2 & X3). exists b2, x'. split; [exact E2|]. split; [exact G2|]. split; [eapply keepsb_trans; eassumption|]. split; [exact X1|]. split; [exact X2|exact X3].
  Qed.
  Lemma avl_right_ok (b : bst) os (c : ctx) (a : bt) k xk (v : bt) j xj (d : bt) : grown b (plug c (N (N a k xk v) j xj d)) -> b_os b = os -> avl os v -> avl os d ->
    exists b' xj', avl_right_rotate b (Some j) (Some k) = Ret b' /\ grown b' (plug c (N a k xk (N v j xj' d))) /\ keepsb b b' /\ ent xj' = ent xj /\ nodeok os v xj' d.
  Proof.
    intros G HOS AV AD. destruct (rot_right b c a k xk v j xj d G) as (b1 & E1 & G1 & K1). unfold avl_right_rotate. rewrite E1. cbn [bind]. assert (O1 : b_os b1 = os) by (rewrite <- HOS; apply K1).
    destruct (touch_ok b1 os (CR c a k xk) v j xj d G1 O1 AV AD) as (b2 & x' & E2 & G2 & K2 & X1 & X2). exists b2, x'. split; [exact E2|]. split; [exact G2|]. split; [eapply keepsb_trans; eassumption|]. auto.
  Qed.
  Lemma avl_left_ok (b : bst) os (c : ctx) (a : bt) k xk (v : bt) j xj (d : bt) : grown b (plug c (N a j xj (N v k xk d))) -> b_os b = os -> avl os a -> avl os v -> avl os d -> -1 <= height v - height a <= 1 ->
    exists b' xj' xk', avl_left_rotate b (Some j) (Some k) = Ret b' /\ grown b' (plug c (N (N a j xj' v) k xk' d)) /\ keepsb b b' /\ ent xj' = ent xj /\ ent xk' = ent xk /\ nodeok os a xj' v.
  Proof.
    intros G HOS AA AV AD HB. destruct (rot_left b c a k xk v j xj d G) as (b1 & E1 & G1 & K1). unfold avl_left_rotate. rewrite E1. cbn [bind]. assert (O1 : b_os b1 = os) by (rewrite <- HOS; apply K1).
    destruct (fixh_ok b1 os (CL c k xk d) a j xj v G1 AA AV) as (b2 & E2 & G2 & K2). rewrite E2. cbn [bind].
    set (xj2 := with_height (Z.max (height a) (height v) + 1) xj) in *.
    assert (exists b3 xk3, on_mem (fun t => fix_height t (Some k)) b2 = Ret b3 /\ grown b3 (plug c (N (N a j xj2 v) k xk3 d)) /\ keepsb b2 b3 /\ ent xk3 = ent xk) as (b3 & xk3 & E3 & G3 & K3 & X3).
    { cbn [plug] in G2. destruct (fixh_ok b2 false c (N a j xj2 v) k xk d G2) as (b3 & E3 & G3 & K3); [|apply (avl_weak os); exact AD|].
      - cbn [avl]. split; [split; [reflexivity|discriminate]|]. split; [exact HB|]. split; apply (avl_weak os); assumption.
      - exists b3. eexists. split; [exact E3|]. split; [exact G3|]. split; [exact K3|reflexivity]. }
    rewrite E3. cbn [bind]. assert (O3 : b_os b3 = os) by (pose proof (proj1 K2); pose proof (proj1 K3); congruence).
    destruct (oss_ok b3 os (CL c k xk3 d) a j xj2 v G3 O3 AA AV) as (b4 & xj4 & E4 & G4 & K4 & X4 & Y4 & Z4). exists b4, xj4, xk3. split; [exact E4|]. split; [exact G4|]. split; [eapply keepsb_trans; [exact K1|]; eapply keepsb_trans; [exact K2|]; eapply keepsb_trans; eassumption|].
    split; [exact X4|]. split; [exact X3|]. split; [exact Y4|exact Z4].
  Qed.
End Avl.
