(** AVLTree: the loop of insertion. *)
From Coq Require Import Sorting.Sorted.
From Verif Require Import Base TreeModel TreeModel2 TreeSpec TreeProofs TreeRotate TreeBst TreeTrav TreeQuery TreeLca TreeDel TreeHist TreeBalSpec TreeAvl.

Section Avl2.
  Context {D : Type}.
  Notation info := (info D). Notation node := (node D). Notation mem := (mem D). Notation bst := (bst D). Notation bt := (bt D). Notation ctx := (ctx D).
  Lemma avl_left_right_ok (b : bst) os (c : ctx) (a : bt) k xk (v : bt) i xi (w : bt) j xj (d : bt) : grown b (plug c (N (N a k xk (N v i xi w)) j xj d)) -> b_os b = os -> avl os a -> avl os v -> avl os w -> avl os d ->
    exists b' xj' xk', avl_left_right_rotate b (Some j) (Some k) = Ret b' /\ grown b' (plug c (N (N a k xk' v) i xi (N w j xj' d))) /\ keepsb b b' /\ ent xj' = ent xj /\ ent xk' = ent xk /\ nodeok os a xk' v /\ nodeok os w xj' d.
  Proof.
    intros G HOS AA AV AW AD. destruct (rot_left_right b c a k xk v i xi w j xj d G) as (b1 & E1 & G1 & K1). unfold avl_left_right_rotate. rewrite E1. cbn [bind].
    destruct (fixh_ok b1 os (CR c (N a k xk v) i xi) w j xj d G1 AW AD) as (b2 & E2 & G2 & K2). rewrite E2. cbn [bind]. cbn [plug] in G2. set (xj2 := with_height (Z.max (height w) (height d) + 1) xj) in *.
    destruct (fixh_ok b2 os (CL c i xi (N w j xj2 d)) a k xk v G2 AA AV) as (b3 & E3 & G3 & K3). rewrite E3. cbn [bind]. cbn [plug] in G3. set (xk3 := with_height (Z.max (height a) (height v) + 1) xk) in *.
    assert (O3 : b_os b3 = os) by (pose proof (proj1 K1); pose proof (proj1 K2); pose proof (proj1 K3); congruence).
    destruct (oss_ok b3 os (CR c (N a k xk3 v) i xi) w j xj2 d G3 O3 AW AD) as (b4 & xj4 & E4 & G4 & K4 & X4 & Y4 & Z4). rewrite E4. cbn [bind]. cbn [plug] in G4.
    assert (O4 : b_os b4 = os) by (pose proof (proj1 K4); congruence).
    destruct (oss_ok b4 os (CL c i xi (N w j xj4 d)) a k xk3 v G4 O4 AA AV) as (b5 & xk5 & E5 & G5 & K5 & X5 & Y5 & Z5). exists b5, xj4, xk5. split; [exact E5|]. split; [exact G5|].
    split; [eapply keepsb_trans; [exact K1|]; eapply keepsb_trans; [exact K2|]; eapply keepsb_trans; [exact K3|]; eapply keepsb_trans; eassumption|]. split; [exact X4|]. split; [exact X5|]. split; split; assumption.
  Qed.
  Lemma avl_right_left_ok (b : bst) os (c : ctx) (a : bt) k xk (v : bt) i xi (w : bt) j xj (d : bt) : grown b (plug c (N a j xj (N (N v i xi w) k xk d))) -> b_os b = os -> avl os a -> avl os v -> avl os w -> avl os d ->
    exists b' xj' xk', avl_right_left_rotate b (Some j) (Some k) = Ret b' /\ grown b' (plug c (N (N a j xj' v) i xi (N w k xk' d))) /\ keepsb b b' /\ ent xj' = ent xj /\ ent xk' = ent xk /\ nodeok os a xj' v /\ nodeok os w xk' d.
  Proof.
    intros G HOS AA AV AW AD. destruct (rot_right_left b c a k xk v i xi w j xj d G) as (b1 & E1 & G1 & K1). unfold avl_right_left_rotate. rewrite E1. cbn [bind].
    destruct (fixh_ok b1 os (CL c i xi (N w k xk d)) a j xj v G1 AA AV) as (b2 & E2 & G2 & K2). rewrite E2. cbn [bind]. cbn [plug] in G2. set (xj2 := with_height (Z.max (height a) (height v) + 1) xj) in *.
    destruct (fixh_ok b2 os (CR c (N a j xj2 v) i xi) w k xk d G2 AW AD) as (b3 & E3 & G3 & K3). rewrite E3. cbn [bind]. cbn [plug] in G3. set (xk3 := with_height (Z.max (height w) (height d) + 1) xk) in *.
    assert (O3 : b_os b3 = os) by (pose proof (proj1 K1); pose proof (proj1 K2); pose proof (proj1 K3); congruence).
    destruct (oss_ok b3 os (CL c i xi (N w k xk3 d)) a j xj2 v G3 O3 AA AV) as (b4 & xj4 & E4 & G4 & K4 & X4 & Y4 & Z4). rewrite E4. cbn [bind]. cbn [plug] in G4.
    assert (O4 : b_os b4 = os) by (pose proof (proj1 K4); congruence).
    destruct (oss_ok b4 os (CR c (N a j xj4 v) i xi) w k xk3 d G4 O4 AW AD) as (b5 & xk5 & E5 & G5 & K5 & X5 & Y5 & Z5). exists b5, xj4, xk5. split; [exact E5|]. split; [exact G5|].
    split; [eapply keepsb_trans; [exact K1|]; eapply keepsb_trans; [exact K2|]; eapply keepsb_trans; [exact K3|]; eapply keepsb_trans; eassumption|]. split; [exact X4|]. split; [exact X5|]. split; split; assumption.
  Qed.

  (** the state of the walk: everything below the hole of c is right, c is right for a hole of height H; [S] may be one higher than H *)
  Definition taller (S : bt) (last l2l : option Z) : Prop :=
    last = root S /\ (1 <= height S -> exists a k x b, S = N a k x b /\ ((l2l = root a /\ height a = height b + 1) \/ (l2l = root b /\ height b = height a + 1))).
  Definition walks (os : bool) (c : ctx) (S : bt) (last l2l : option Z) (n : nat) : Prop :=
    avl os S /\ exists H, cavl os c H /\ ((height S = H /\ n = clen c) \/ (height S = H + 1 /\ taller S last l2l /\ n = Datatypes.S (clen c))).
  (** what one step does to a node whose subtrees are right: untouched or rotated *)
  Lemma step_settled os (c : ctx) (S : bt) l2l lst n : walks os c S lst l2l n -> c = Top -> avl os (plug c S).
  Proof. intros (A & _) ->. exact A. Qed.
  Lemma ents_N (l : bt) i x r : ents (N l i x r) = ents l ++ ent x :: ents r.
  Proof. unfold ents. cbn [infos]. rewrite map_app. reflexivity. Qed.
  Lemma hangs_no (m : mem) x last f l2l : x <> last -> hangs m x last f l2l = Ret false.
  Proof. intros H. unfold hangs. destruct x as [x|]; [|reflexivity]. destruct (oeqb_spec (Some x) last); [contradiction|reflexivity]. Qed.
  Lemma hangs_at (m : mem) x f l2l n : cell m x = Some n -> hangs m (Some x) (Some x) f l2l = Ret (oeqb (f n) l2l).
  Proof. intros H. unfold hangs. cbn [oeqb]. rewrite Z.eqb_refl, (tget_ok _ _ _ H). reflexivity. Qed.
  Lemma bf_ok (b : bst) os c l i x r : grown b (plug c (N l i x r)) -> avl os l -> avl os r -> balance_factor (b_mem b) (mknode x (root l) (root r) (cpar c)) = Ret (height r - height l).
  Proof. intros G AL AR. destruct (grown_sub _ _ _ _ _ _ G) as [RL RR]. unfold balance_factor. rewrite (rheight _ os r _ _ RR AR) by reflexivity. cbn [bind]. rewrite (lheight _ os l _ _ RL AL) by reflexivity. reflexivity. Qed.
  Lemma oeqb_no a b : a <> b -> oeqb a b = false.
  Proof. destruct (oeqb_spec a b); [contradiction|reflexivity]. Qed.
  Lemma oeqb_yes a : oeqb a a = true.
  Proof. destruct (oeqb_spec a a); [reflexivity|contradiction]. Qed.

  Lemma root_neq_l (b : bst) (c : ctx) (l : bt) i x (r : bt) z : grown b (plug c (N l i x r)) -> In z (idx l) -> root r <> Some z.
  Proof. intros G Hz X. apply root_In in X. assert (ND := grown_neq _ _ G). dj ND. Qed.
  Lemma root_neq_r (b : bst) (c : ctx) (l : bt) i x (r : bt) z : grown b (plug c (N l i x r)) -> In z (idx r) -> root l <> Some z.
  Proof. intros G Hz X. apply root_In in X. assert (ND := grown_neq _ _ G). dj ND. Qed.
  Lemma idx_here (l : bt) i x r : In i (idx (N l i x r)).
  Proof. cbn [idx]. apply in_or_app. right. left. reflexivity. Qed.

  Lemma rebalance_none (b : bst) os c l i x r last l2l : grown b (plug c (N l i x r)) -> avl os l -> avl os r -> -1 <= height r - height l <= 1 -> rebalance b (Some i) last l2l = Ret b.
  Proof.
    intros G AL AR HB. unfold rebalance. rewrite (tget_at _ _ _ _ _ _ G). cbn [bind]. rewrite (bf_ok _ os _ _ _ _ _ G AL AR). cbn [bind].
    destruct (Z.eqb_spec (height r - height l) 1), (Z.eqb_spec (height r - height l) 0), (Z.eqb_spec (height r - height l) (-1)); try lia; reflexivity.
  Qed.
  Ltac start_off G AL AR os := unfold rebalance; rewrite (tget_at _ _ _ _ _ _ G); cbn [bind]; rewrite (bf_ok _ os _ _ _ _ _ G AL AR); cbn [bind n_left n_right];
    match goal with |- context [negb ((?u =? 1) || (?u =? 0) || (?u =? -1))] => destruct (Z.eqb_spec u 1), (Z.eqb_spec u 0), (Z.eqb_spec u (-1)); try lia end; cbn [orb negb].
  Lemma rebalance_LL (b : bst) os (c : ctx) (a : bt) k xk (v : bt) i x (d : bt) : grown b (plug c (N (N a k xk v) i x d)) -> b_os b = os -> avl os (N a k xk v) -> avl os d -> height a = height v + 1 -> height a = height d + 1 ->
    exists b' xi', rebalance b (Some i) (Some k) (root a) = Ret b' /\ grown b' (plug c (N a k xk (N v i xi' d))) /\ keepsb b b' /\ ent xi' = ent x /\ nodeok os v xi' d.
  Proof.
    intros G HOS AL AD H1 H2. assert (ND := grown_neq _ _ G). assert (AL' := AL). destruct AL' as (_ & _ & AA & AV). start_off G AL AD os; try (cbn [height] in *; lia).
    cbn [root]. rewrite (hangs_at _ k n_left (root a) (mknode xk (root a) (root v) (Some i))) by (apply (sub_cell _ _ (CL c i x d) _ _ _ _ (g_at _ _ G))). cbn [n_left bind]. rewrite oeqb_yes.
    destruct (avl_right_ok b os c a k xk v i x d G HOS AV AD) as (b1 & xi & E1 & G1 & K1 & X1 & X2). rewrite E1. cbn [bind]. rewrite (tget_at b1 (CR c a k xk) v i xi d G1). cbn [bind n_right].
    rewrite (hangs_no _ (root d)) by (intros X; apply root_In in X; dj ND). cbn [bind].
    rewrite (hangs_at _ k n_right (root a) (mknode xk (root a) (Some i) (cpar c))) by (apply (sub_cell _ _ c _ _ _ _ (g_at _ _ G1))). cbn [n_right bind]. rewrite oeqb_no by (intros X; symmetry in X; apply root_In in X; dj ND). cbn [bind].
    rewrite (hangs_no _ (root d)) by (intros X; apply root_In in X; dj ND). cbn [bind]. exists b1, xi. auto.
  Qed.
  Lemma rebalance_RR (b : bst) os (c : ctx) (a : bt) k xk (v : bt) i x (d : bt) : grown b (plug c (N d i x (N v k xk a))) -> b_os b = os -> avl os (N v k xk a) -> avl os d -> height a = height v + 1 -> height a = height d + 1 ->
    exists b' xi' xk', rebalance b (Some i) (Some k) (root a) = Ret b' /\ grown b' (plug c (N (N d i xi' v) k xk' a)) /\ keepsb b b' /\ ent xi' = ent x /\ ent xk' = ent xk /\ nodeok os d xi' v.
  Proof.
    intros G HOS AL AD H1 H2. assert (ND := grown_neq _ _ G). assert (AL' := AL). destruct AL' as (_ & _ & AV & AA). start_off G AD AL os; try (cbn [height] in *; lia).
    rewrite (hangs_no _ (root d)) by (intros X; apply root_In in X; dj ND). cbn [bind]. rewrite (tget_at _ _ _ _ _ _ G). cbn [bind n_right root].
    rewrite (hangs_at _ k n_right (root a) (mknode xk (root v) (root a) (Some i))) by (apply (sub_cell _ _ (CR c d i x) _ _ _ _ (g_at _ _ G))). cbn [n_right bind]. rewrite oeqb_yes.
    destruct (avl_left_ok b os c d k xk v i x a G HOS AD AV AA ltac:(lia)) as (b1 & xi & xk1 & E1 & G1 & K1 & X1 & X2 & X3). rewrite E1. cbn [bind].
    rewrite (hangs_no _ (root d)) by (intros X; apply root_In in X; dj ND). cbn [bind].
    rewrite (hangs_at _ k n_left (root a) (mknode xk1 (Some i) (root a) (cpar c))) by (apply (sub_cell _ _ c _ _ _ _ (g_at _ _ G1))). cbn [n_left bind]. rewrite oeqb_no by (intros X; symmetry in X; apply root_In in X; dj ND). cbn [bind].
    exists b1, xi, xk1. auto 10.
  Qed.
  Lemma rebalance_LR (b : bst) os (c : ctx) (a : bt) k xk (v : bt) j xj (w : bt) i x (d : bt) : grown b (plug c (N (N a k xk (N v j xj w)) i x d)) -> b_os b = os -> avl os (N a k xk (N v j xj w)) -> avl os d ->
    height (N v j xj w) = height a + 1 -> height (N v j xj w) = height d + 1 ->
    exists b' xi' xk', rebalance b (Some i) (Some k) (Some j) = Ret b' /\ grown b' (plug c (N (N a k xk' v) j xj (N w i xi' d))) /\ keepsb b b' /\ ent xi' = ent x /\ ent xk' = ent xk /\ nodeok os a xk' v /\ nodeok os w xi' d.
  Proof.
    intros G HOS AL AD H1 H2. assert (ND := grown_neq _ _ G). assert (AL' := AL). destruct AL' as (_ & _ & AA & (_ & _ & AV & AW)). start_off G AL AD os; try (cbn [height] in *; lia).
    cbn [root]. assert (HK := sub_cell _ _ (CL c i x d) _ _ _ _ (g_at _ _ G)). rewrite (hangs_at _ _ _ _ _ HK). cbn [n_left bind]. rewrite oeqb_no by (intros X; apply root_In in X; dj ND). cbn [bind]. rewrite (tget_at _ _ _ _ _ _ G). cbn [bind n_right root].
    rewrite (hangs_no _ (root d)) by (intros X; apply root_In in X; dj ND). cbn [bind].
    rewrite (hangs_at _ _ _ _ _ HK). cbn [n_right root bind]. rewrite oeqb_yes.
    destruct (avl_left_right_ok b os c a k xk v j xj w i x d G HOS AA AV AW AD) as (b1 & xi & xk1 & E1 & G1 & K1 & X1 & X2 & X3 & X4). rewrite E1. cbn [bind].
    rewrite (hangs_no _ (root d)) by (intros X; apply root_In in X; dj ND). cbn [bind]. exists b1, xi, xk1. auto 10.
  Qed.
  Lemma rebalance_RL (b : bst) os (c : ctx) (a : bt) k xk (v : bt) j xj (w : bt) i x (d : bt) : grown b (plug c (N d i x (N (N v j xj w) k xk a))) -> b_os b = os -> avl os (N (N v j xj w) k xk a) -> avl os d ->
    height (N v j xj w) = height a + 1 -> height (N v j xj w) = height d + 1 ->
    exists b' xi' xk', rebalance b (Some i) (Some k) (Some j) = Ret b' /\ grown b' (plug c (N (N d i xi' v) j xj (N w k xk' a))) /\ keepsb b b' /\ ent xi' = ent x /\ ent xk' = ent xk /\ nodeok os d xi' v /\ nodeok os w xk' a.
  Proof.
    intros G HOS AL AD H1 H2. assert (ND := grown_neq _ _ G). assert (AL' := AL). destruct AL' as (_ & _ & (_ & _ & AV & AW) & AA). start_off G AD AL os; try (cbn [height] in *; lia).
    rewrite (hangs_no _ (root d)) by (intros X; apply root_In in X; dj ND). cbn [bind]. rewrite (tget_at _ _ _ _ _ _ G). cbn [bind n_right root].
    assert (HK := sub_cell _ _ (CR c d i x) _ _ _ _ (g_at _ _ G)). rewrite (hangs_at _ _ _ _ _ HK). cbn [n_right bind]. rewrite oeqb_no by (intros X; apply root_In in X; dj ND). cbn [bind].
    rewrite (hangs_no _ (root d)) by (intros X; apply root_In in X; dj ND). cbn [bind].
    rewrite (hangs_at _ _ _ _ _ HK). cbn [n_left root bind]. rewrite oeqb_yes.
    destruct (avl_right_left_ok b os c d k xk v j xj w i x a G HOS AD AV AW AA) as (b1 & xi & xk1 & E1 & G1 & K1 & X1 & X2 & X3 & X4). rewrite E1. cbn [bind]. exists b1, xi, xk1. auto 10.
  Qed.
  Ltac ents_eq EN := rewrite <- EN; cbn [plug]; apply ents_plug; rewrite ?ents_N; repeat match goal with H : ent _ = ent _ |- _ => rewrite H; clear H end; rewrite <- ?app_assoc; cbn [app]; rewrite <- ?app_assoc; reflexivity.
  Lemma walk_up os (c : ctx) (S : bt) i last n : avl os S -> forall H, cavl os c H -> height S = H -> (clen c < n)%nat -> exists n', (n' < n)%nat /\ walks os c S (Some i) last n'.
  Proof. intros AS H HC HS Hn. exists (clen c). split; [exact Hn|]. split; [exact AS|]. exists H. auto. Qed.
  Lemma balance_insertion_ok (b : bst) os (c : ctx) (S : bt) last l2l n : grown b (plug c S) -> b_os b = os -> walks os c S last l2l n -> cpar c = l2l ->
    exists b' T', balance_insertion b last l2l = Ret b' /\ grown b' T' /\ keepsb b b' /\ ents T' = ents (plug c S) /\ avl os T'.
  Proof.
    intros G HOS HW EP. unfold balance_insertion. remember (ents (plug c S)) as EN eqn:EEN.
    match goal with |- context [while_loop ?f ?bd ?s] => assert (W : wp (while_loop f bd s) (fun b' => exists T', grown b' T' /\ keepsb b b' /\ ents T' = EN /\ avl os T')) end.
    { eapply (wp_while_g (fun n s => exists c S last l2l, snd (fst s) = cpar c /\ snd s = [last; l2l] /\ grown (fst (fst s)) (plug c S) /\ keepsb b (fst (fst s)) /\ ents (plug c S) = EN /\ walks os c S last l2l n)) with (n := n).
      - clear c S last l2l n G HW EP EEN. intros n [[b0 walk] path] (c & S & last & l2l & Ew & Ep & G & K & EN0 & HW). cbn [fst snd] in *. subst walk path.
        assert (HO0 : b_os b0 = os) by (rewrite <- HOS; apply K).
        destruct c as [|c i x r|c l i x]; cbn [cpar plug] in *.
        + cbn [wp]. exists S. destruct HW as (A & _). auto.
        + destruct HW as (AS & H & (AR & HD & HC) & HH).
          destruct (touch_ok b0 os c S i x r G HO0 AS AR) as (b1 & x1 & E1 & G1 & K1 & X1 & X2).
          destruct (on_mem (fun t => fix_height t (Some i)) b0) as [b0'| |] eqn:E0; cbn [bind] in E1 |- *; [|discriminate..]. rewrite E1. cbn [bind].
          assert (HO1 : b_os b1 = os) by (pose proof (proj1 K1); congruence). assert (K2 := keepsb_trans _ _ _ K K1).
          assert (NONE : -1 <= height r - height S <= 1 -> (exists n', (n' < n)%nat /\ walks os c (N S i x1 r) (Some i) last n') -> wp (b2 <- rebalance b1 (Some i) last l2l ;; n0 <- tget (b_mem b2) (Some i) ;; Ret (Next (b2, n_parent n0, [] ++ [Some i; last])))
               (fun r0 => match r0 with Next s' => exists n', (n' < n)%nat /\ exists c S last l2l, snd (fst s') = cpar c /\ snd s' = [last; l2l] /\ grown (fst (fst s')) (plug c S) /\ keepsb b (fst (fst s')) /\ ents (plug c S) = EN /\ walks os c S last l2l n' | Break b' => exists T', grown b' T' /\ keepsb b b' /\ ents T' = EN /\ avl os T' end)).
          { intros HB (n' & L & HW). rewrite (rebalance_none b1 os c S i x1 r last l2l G1 AS AR HB). cbn [bind]. rewrite (tget_at _ _ _ _ _ _ G1). cbn [bind n_parent wp app fst snd]. exists n'. split; [exact L|]. exists c, (N S i x1 r), (Some i), last. do 2 (split; [reflexivity|]). split; [exact G1|]. split; [exact K2|]. split; [|exact HW]. ents_eq EN0. }
          destruct HH as [[HS ->] | (HS & (EL & HT) & ->)]; cbn [clen] in *.
          * apply NONE; [lia|]. eapply walk_up; [split; [exact X2|]; split; [lia|]; auto|exact HC|cbn [height]; lia|lia].
          * destruct (Z.eq_dec (height r) (H - 1)) as [HR|HR].
            -- clear NONE. destruct HT as (a & k & xk & v & -> & HT); [pose proof (height_ge r); lia|]. cbn [height] in HS. rewrite EL in *. cbn [root] in *.
               destruct HT as [[-> Hav] | [-> Hva]].
               ++ destruct (rebalance_LL b1 os c a k xk v i x1 r G1 HO1 AS AR Hav ltac:(lia)) as (b2 & xi & E2 & G2 & K3 & X3 & X4). rewrite E2. cbn [bind]. rewrite (tget_at b2 (CR c a k xk) v i xi r G2). cbn [bind n_parent wp app fst snd cpar].
                  exists (Datatypes.S (clen c)). split; [lia|]. exists (CR c a k xk), (N v i xi r), (Some i), (Some k). do 2 (split; [reflexivity|]). split; [exact G2|]. split; [eapply keepsb_trans; eassumption|]. split; [ents_eq EN0|].
                  destruct AS as (_ & _ & AA & AV). split; [split; [exact X4|]; split; [lia|]; auto|]. exists H. cbn [cavl height clen]. split; [split; [exact AA|]; split; [lia|]|left; split; [lia|reflexivity]]. replace (Z.max (height a) H + 1) with (Z.max H (height r) + 1) by lia. exact HC.
               ++ destruct v as [|v j xj w]; [cbn [height] in Hva; pose proof (height_ge a); lia|].
                  destruct (rebalance_LR b1 os c a k xk v j xj w i x1 r G1 HO1 AS AR Hva ltac:(lia)) as (b2 & xi & xk2 & E2 & G2 & K3 & X3 & X4 & X5 & X6). cbn [root]. rewrite E2. cbn [bind]. rewrite (tget_at b2 (CR c (N a k xk2 v) j xj) w i xi r G2). cbn [bind n_parent wp app fst snd cpar].
                  exists (Datatypes.S (clen c)). split; [lia|]. exists (CR c (N a k xk2 v) j xj), (N w i xi r), (Some i), (Some k). do 2 (split; [reflexivity|]). split; [exact G2|]. split; [eapply keepsb_trans; eassumption|]. split; [ents_eq EN0|].
                  destruct AS as (_ & _ & AA & _ & HB & AV & AW). cbn [height] in *. split; [split; [exact X6|]; split; [lia|]; auto|]. exists H. cbn [cavl height clen avl]. split; [split; [split; [exact X5|]; split; [lia|]; auto|]; split; [lia|]|left; split; [lia|reflexivity]]. replace (Z.max _ H + 1) with (Z.max H (height r) + 1) by lia. exact HC.
            -- apply NONE; [lia|]. destruct (Z.eq_dec (height r) H) as [HR0|HR0].
               ++ exists (Datatypes.S (clen c)). split; [lia|]. split; [split; [exact X2|]; split; [lia|]; auto|]. exists (Z.max H (height r) + 1). split; [exact HC|]. right. cbn [height]. split; [lia|]. split; [|reflexivity]. split; [reflexivity|]. intros _. exists S, i, x1, r. split; [reflexivity|]. left. split; [exact EL|lia].
               ++ eapply walk_up; [split; [exact X2|]; split; [lia|]; auto|exact HC|cbn [height]; lia|lia].
        + destruct HW as (AS & H & (AR & HD & HC) & HH).
          destruct (touch_ok b0 os c l i x S G HO0 AR AS) as (b1 & x1 & E1 & G1 & K1 & X1 & X2).
          destruct (on_mem (fun t => fix_height t (Some i)) b0) as [b0'| |] eqn:E0; cbn [bind] in E1 |- *; [|discriminate..]. rewrite E1. cbn [bind].
          assert (HO1 : b_os b1 = os) by (pose proof (proj1 K1); congruence). assert (K2 := keepsb_trans _ _ _ K K1).
          assert (NONE : -1 <= height S - height l <= 1 -> (exists n', (n' < n)%nat /\ walks os c (N l i x1 S) (Some i) last n') -> wp (b2 <- rebalance b1 (Some i) last l2l ;; n0 <- tget (b_mem b2) (Some i) ;; Ret (Next (b2, n_parent n0, [] ++ [Some i; last])))
               (fun r0 => match r0 with Next s' => exists n', (n' < n)%nat /\ exists c S last l2l, snd (fst s') = cpar c /\ snd s' = [last; l2l] /\ grown (fst (fst s')) (plug c S) /\ keepsb b (fst (fst s')) /\ ents (plug c S) = EN /\ walks os c S last l2l n' | Break b' => exists T', grown b' T' /\ keepsb b b' /\ ents T' = EN /\ avl os T' end)).
          { intros HB (n' & L & HW). rewrite (rebalance_none b1 os c l i x1 S last l2l G1 AR AS HB). cbn [bind]. rewrite (tget_at _ _ _ _ _ _ G1). cbn [bind n_parent wp app fst snd]. exists n'. split; [exact L|]. exists c, (N l i x1 S), (Some i), last. do 2 (split; [reflexivity|]). split; [exact G1|]. split; [exact K2|]. split; [|exact HW]. ents_eq EN0. }
          destruct HH as [[HS ->] | (HS & (EL & HT) & ->)]; cbn [clen] in *.
          * apply NONE; [lia|]. eapply walk_up; [split; [exact X2|]; split; [lia|]; auto|exact HC|cbn [height]; lia|lia].
          * destruct (Z.eq_dec (height l) (H - 1)) as [HR|HR].
            -- clear NONE. destruct HT as (v & k & xk & a & -> & HT); [pose proof (height_ge l); lia|]. cbn [height] in HS. rewrite EL in *. cbn [root] in *.
               destruct HT as [[-> Hav] | [-> Hva]].
               ++ destruct v as [|v j xj w]; [cbn [height] in Hav; pose proof (height_ge a); lia|].
                  destruct (rebalance_RL b1 os c a k xk v j xj w i x1 l G1 HO1 AS AR Hav ltac:(lia)) as (b2 & xi & xk2 & E2 & G2 & K3 & X3 & X4 & X5 & X6). cbn [root]. rewrite E2. cbn [bind]. rewrite (tget_at b2 (CL c j xj (N w k xk2 a)) l i xi v G2). cbn [bind n_parent wp app fst snd cpar].
                  exists (Datatypes.S (clen c)). split; [lia|]. exists (CL c j xj (N w k xk2 a)), (N l i xi v), (Some i), (Some k). do 2 (split; [reflexivity|]). split; [exact G2|]. split; [eapply keepsb_trans; eassumption|]. split; [ents_eq EN0|].
                  destruct AS as (_ & _ & (_ & HB & AV & AW) & AA). cbn [height] in *. split; [split; [exact X5|]; split; [lia|]; auto|]. exists H. cbn [cavl height clen avl]. split; [split; [split; [exact X6|]; split; [lia|]; auto|]; split; [lia|]|left; split; [lia|reflexivity]]. replace (Z.max H _ + 1) with (Z.max (height l) H + 1) by lia. exact HC.
               ++ destruct (rebalance_RR b1 os c a k xk v i x1 l G1 HO1 AS AR Hva ltac:(lia)) as (b2 & xi & xk2 & E2 & G2 & K3 & X3 & X4 & X5). rewrite E2. cbn [bind]. rewrite (tget_at b2 (CL c k xk2 a) l i xi v G2). cbn [bind n_parent wp app fst snd cpar].
                  exists (Datatypes.S (clen c)). split; [lia|]. exists (CL c k xk2 a), (N l i xi v), (Some i), (Some k). do 2 (split; [reflexivity|]). split; [exact G2|]. split; [eapply keepsb_trans; eassumption|]. split; [ents_eq EN0|].
                  destruct AS as (_ & _ & AV & AA). split; [split; [exact X5|]; split; [lia|]; auto|]. exists H. cbn [cavl height clen]. split; [split; [exact AA|]; split; [lia|]|left; split; [lia|reflexivity]]. replace (Z.max H (height a) + 1) with (Z.max (height l) H + 1) by lia. exact HC.
            -- apply NONE; [lia|]. destruct (Z.eq_dec (height l) H) as [HR0|HR0].
               ++ exists (Datatypes.S (clen c)). split; [lia|]. split; [split; [exact X2|]; split; [lia|]; auto|]. exists (Z.max (height l) H + 1). split; [exact HC|]. right. cbn [height]. split; [lia|]. split; [|reflexivity]. split; [reflexivity|]. intros _. exists l, i, x1, S. split; [reflexivity|]. right. split; [exact EL|lia].
               ++ eapply walk_up; [split; [exact X2|]; split; [lia|]; auto|exact HC|cbn [height]; lia|lia].
      - exists c, S, last, l2l. cbn [fst snd]. split; [symmetry; exact EP|]. split; [reflexivity|]. split; [exact G|]. split; [apply keepsb_refl|]. split; [symmetry; exact EEN|exact HW].
      - assert (Hn : (n <= Datatypes.S (clen c))%nat) by (destruct HW as (_ & H & _ & [(_ & ->) | (_ & _ & ->)]); lia). pose proof (nodes_mem _ _ _ (proj1 (g_at _ _ G)) (proj1 (proj2 (g_at _ _ G)))) as HN. rewrite nodes_len in HN. unfold len in HN. rewrite len_idx_plug in HN. pose proof (clen_le c). unfold fuel. lia. }
    apply wp_ex in W as (b' & E1 & T' & H). rewrite E1. exists b', T'. tauto.
  Qed.

  (** the context above a new leaf, with the sizes of the base class *)
  Fixpoint cup (c : ctx) (S : bt) : ctx :=
    match c with Top => Top | CL c i x r => CL (cup c (N S i (fits S r x) r)) i (fits S r x) r | CR c l i x => CR (cup c (N l i (fits l S x) S)) l i (fits l S x) end.
  Lemma cup_ok os (c : ctx) : forall S : bt, up c S = plug (cup c S) S /\ cpar (cup c S) = cpar c /\ clen (cup c S) = clen c /\ forall H, cavl os c H -> cavl os (cup c S) H.
  Proof.
    induction c as [|c IH i x r|c IH l i x]; intros S; cbn [up cup plug cpar clen cavl]; [auto|..]; [destruct (IH (N S i (fits S r x) r)) as (A & B & C & F)|destruct (IH (N l i (fits l S x) S)) as (A & B & C & F)]; (split; [exact A|]; split; [reflexivity|]; split; [congruence|]; intros H (U & V & W); auto).
  Qed.
  Lemma addleaf_ctx os (c : ctx) s x : exists c', addleaf os c s x = plug c' (N E s x E) /\ cpar c' = cpar c /\ forall H, cavl os c H -> cavl os c' H.
  Proof. unfold addleaf. destruct os; [|exists c; auto]. destruct (cup_ok true c (N E s x E)) as (A & B & _ & F). exists (cup c (N E s x E)). auto. Qed.
  Lemma avl_data os (c : ctx) : forall (l : bt) i x d (r : bt), avl os (plug c (N l i x r)) -> avl os (plug c (N l i (with_data d x) r)).
  Proof.
    intros l i x d r. assert (Q : forall S S' : bt, nodes S = nodes S' -> height S = height S' -> (avl os S -> avl os S') -> avl os (plug c S) -> avl os (plug c S')).
    { induction c as [|c IH j y r0|c IH l0 j y]; intros S S' Hn Hh HS; cbn [plug]; [exact HS|..]; apply IH; cbn [nodes height avl]; unfold nodeok; rewrite ?Hn, ?Hh; try reflexivity; tauto. }
    apply Q; [reflexivity|reflexivity|]. cbn [avl]. unfold nodeok. cbn [with_data k_height k_size]. tauto.
  Qed.
  Record agood (b : bst) (T : bt) (h : list (Z * option D)) : Prop := { a_def : default b; a_grown : grown b T; a_cont : cont T h; a_ne : T <> E; a_avl : avl (b_os b) T }.
  Lemma avl_insert_ok (b : bst) T h k d : agood b T h -> exists b' T', avl_insert b k d = Ret b' /\ agood b' T' (h ++ [(k, d)]) /\ b_os b' = b_os b.
  Proof.
    intros [AD AG AC AN AA]. destruct (insert_gen b T h k d AD AG AC AN (avl_sized _ _ AA)) as (c & S & b1 & HK & E1 & B1 & B2 & B3 & HM). unfold avl_insert. rewrite E1. cbn [bind].
    assert (FIN : forall c' S' last n, grown b1 (plug c' S') -> cont (plug c' S') (h ++ [(k, d)]) -> walks (b_os b1) c' S' last (cpar c') n -> exists b' T', balance_insertion b1 last (cpar c') = Ret b' /\ agood b' T' (h ++ [(k, d)]) /\ b_os b' = b_os b).
    { intros c' S' last n G' C' W'. destruct (balance_insertion_ok b1 (b_os b1) c' S' last (cpar c') n G' eq_refl W' eq_refl) as (b' & T' & E2 & G2 & K2 & X2 & A2). exists b', T'. split; [exact E2|]. destruct K2 as (K2 & K3 & K4 & K5). split; [|congruence]. split; [unfold default in *; congruence|exact G2|apply (cont_ents (plug c' S')); [symmetry; exact X2|exact C']| |rewrite K2; exact A2].
      intros X. rewrite X in G2. assert (GN := g_nodes _ _ G2). cbn [nodes] in GN. assert (GC := g_nodes _ _ G'). destruct AN as [].
      destruct T as [|l0 i0 x0 r0]; [reflexivity|]. exfalso. assert (N0 := g_nodes _ _ AG). pose proof (nodes_nonneg l0). pose proof (nodes_nonneg r0). cbn [nodes] in N0. destruct S; [destruct HM as (_ & HM & _)|destruct HM as (HM & _)]; lia. }
    destruct S as [|l i x r].
    - destruct HM as (NT & Hs & G1 & C1). rewrite Hs. replace (b_size b + 1 - 1) with (b_size b) by lia. destruct (addleaf_ctx (b_os b) c (b_size b) (new_info (Some k) d)) as (c' & EA & EP & HC). rewrite EA in *.
      rewrite (tget_at _ _ _ _ _ _ G1). cbn [bind n_parent]. eapply FIN; [exact G1|exact C1|]. rewrite B2. destruct HK as (ET & _). rewrite ET in AA. apply avl_plug in AA as [_ AA]. split.
      + cbn [avl]. unfold nodeok. cbn. split; [split; [reflexivity|intros _; reflexivity]|]. split; [lia|auto].
      + exists (-1). split; [apply HC; exact AA|]. right. cbn [height]. split; [reflexivity|]. split; [|reflexivity]. split; [reflexivity|]. cbn [height]. lia.
    - destruct HM as (Hs & G1 & C1). destruct HK as (ET & _). rewrite ET in AA. apply (avl_data _ _ _ _ _ d) in AA. set (T1 := plug c (N l i (with_data d x) r)) in *.
      assert (HI : In (b_size b1 - 1) (idx T1)). { apply (all_idx b1 T1 _ G1). assert (GN := g_nodes _ _ G1). pose proof (nodes_plug_le c (N l i (with_data d x) r)) as Q. fold T1 in Q. cbn [nodes] in Q. pose proof (nodes_nonneg l). pose proof (nodes_nonneg r). lia. }
      destruct (In_plug T1 _ HI) as (c' & l' & x' & r' & ET'). rewrite ET' in *. rewrite (tget_at _ _ _ _ _ _ G1). cbn [bind n_parent]. apply avl_plug in AA as [A1 A2]. eapply FIN; [exact G1|exact C1|]. rewrite B2. split; [exact A1|]. eexists. split; [exact A2|]. left. auto.
  Qed.
  Lemma avl_all_ok h : forall (b : bst) T h0, agood b T h0 -> exists b' T', insert_with avl_insert b h = Ret b' /\ agood b' T' (h0 ++ h) /\ b_os b' = b_os b.
  Proof.
    induction h as [|[k d] h IH]; intros b T h0 G; cbn [insert_with]; [exists b, T; rewrite app_nil_r; auto|].
    destruct (avl_insert_ok b T h0 k d G) as (b1 & T1 & E1 & G1 & O1). rewrite E1. cbn [bind]. destruct (IH _ _ _ G1) as (b2 & T2 & E2 & G2 & O2). exists b2, T2. rewrite <- app_assoc in G2. split; [exact E2|]. split; [exact G2|congruence].
  Qed.
  Lemma one_cont k d x : ent x = (Some k, d) -> cont (N E 0 x (@E D)) [(k, d)].
  Proof.
    intros Ex. split; [split; [constructor; [unfold kis; injection Ex as -> _; exact I|constructor]|constructor; constructor]|]. intros k0 d0. unfold ents. cbn [infos app map last_data In]. rewrite Ex. destruct (Z.eqb_spec k0 k); subst; split; try (intros [H|[]]); intros; try congruence; try discriminate. left. congruence.
  Qed.
  Lemma one_agood (os : bool) k (d : option D) : agood (mkbst (mkaft [Some (set_inf (with_isroot true) (new_node (Some k) d))] 1 0) (Some 0) 1 None os) (N E 0 (with_isroot true (new_info (Some k) d)) E) [(k, d)].
  Proof.
    assert (G := one_good os k d). split; [reflexivity|apply (h_grown _ _ _ G)|apply one_cont; reflexivity|discriminate|]. cbn. unfold nodeok. cbn. split; [split; [reflexivity|intros _; reflexivity]|]. split; [lia|auto].
  Qed.
  Lemma avl_build_ok start os h : started start ++ h <> [] -> exists b T, build_with avl_insert start os h = Ret b /\ agood b T (started start ++ h) /\ b_os b = os.
  Proof.
    intros NE. unfold build_with. destruct start as [[k d]|]; cbn [option_map fst snd bst_new bind started app] in *.
    - destruct (avl_all_ok h _ _ _ (one_agood os k (Some d))) as (b & T & E1 & G & O). exists b, T. cbn [b_os] in O. auto.
    - change (bind _ _) with (insert_with avl_insert (fresh os) h). destruct h as [|[k d] h]; [congruence|]. cbn [insert_with].
      fold (fresh (D := D) os). assert (EF : avl_insert (fresh os) k d = Ret (mkbst (mkaft [Some (set_inf (with_isroot true) (new_node (Some k) d))] 1 0) (Some 0) 1 None os)) by reflexivity. rewrite EF. cbn [bind].
      destruct (avl_all_ok h _ _ _ (one_agood os k d)) as (b & T & E1 & G & O). exists b, T. cbn [b_os app] in *. auto.
  Qed.
  Lemma avl_spec os (T : bt) : avl os T -> balanced T /\ heights_stored T /\ (os = true -> sizes_stored T).
  Proof.
    induction T as [|l IHl i x r IHr]; cbn [avl balanced heights_stored sizes_stored]; [auto|]. intros ((H1 & H2) & H3 & H4 & H5). destruct (IHl H4) as (A1 & A2 & A3). destruct (IHr H5) as (B1 & B2 & B3). cbn [height nodes]. auto 10.
  Qed.
  Lemma cont_map (T : bt) h : cont T h -> sorted_map (entries T) h.
  Proof. intros [C1 C2]. destruct (entries_ok (infos T) C1) as [A B]. split; [exact A|]. intros k d. rewrite <- (C2 k d). unfold ents. rewrite B, okeys_In. reflexivity. Qed.
End Avl2.
