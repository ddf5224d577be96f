(** AVLTree on an array with empty cells: the loops of insertion and deletion. They repeat those of TreeAvl2.v and TreeDel4.v and keep track of the cells. *)
From Coq Require Import Sorting.Sorted.
From Verif Require Import Base TreeModel TreeModel2 TreeSpec TreeProofs TreeRotate TreeBst TreeTrav TreeQuery TreeLca TreeDel TreeHist TreeBalSpec TreeAvl TreeAvl2 TreeSim TreeDel2 TreeDel3 TreeDel4.

Section Mix.
  Context {D : Type}.
  Notation info := (info D). Notation node := (node D). Notation mem := (mem D). Notation bst := (bst D). Notation bt := (bt D). Notation ctx := (ctx D).
  (** cells and entries in order *)
  Fixpoint zents (T : bt) : list (Z * (option Z * option D)) := match T with E => [] | N l i x r => zents l ++ (i, ent x) :: zents r end.
  Lemma zents_N (l : bt) i x r : zents (N l i x r) = zents l ++ (i, ent x) :: zents r.
  Proof. reflexivity. Qed.
  Lemma zents_plug (c : ctx) : forall S S' : bt, zents S = zents S' -> zents (plug c S) = zents (plug c S').
  Proof. induction c as [|c IH i x r|c IH l i x]; intros S S' H; cbn [plug]; [exact H|..]; apply IH; cbn [zents]; rewrite H; reflexivity. Qed.
  Lemma zents_ents (T : bt) : map snd (zents T) = ents T.
  Proof. unfold ents. induction T as [|l IHl i x r IHr]; [reflexivity|]. cbn [zents infos]. rewrite !map_app. cbn [map snd]. rewrite IHl, IHr. reflexivity. Qed.
  Lemma zents_idx (T : bt) : map fst (zents T) = idx T.
  Proof. induction T as [|l IHl i x r IHr]; [reflexivity|]. cbn [zents idx]. rewrite !map_app. cbn [map fst]. rewrite IHl, IHr. reflexivity. Qed.
  Lemma slim_neq (b : bst) T : slim b T -> forall z, (cnt z (idx T) <= 1)%nat.
  Proof. intros G. apply nodup_cnt. apply (proj1 (proj2 (sl_at _ _ G))). Qed.
  Lemma z_rebalance_none (b : bst) os c l i x r last l2l : slim b (plug c (N l i x r)) -> avl os l -> avl os r -> -1 <= height r - height l <= 1 -> rebalance b (Some i) last l2l = Ret b.
  Proof.
    intros G AL AR HB. unfold rebalance. rewrite (s_tget_at _ _ _ _ _ _ G). cbn [bind]. rewrite (s_bf_ok _ os _ _ _ _ _ G AL AR). cbn [bind].
    destruct (Z.eqb_spec (height r - height l) 1), (Z.eqb_spec (height r - height l) 0), (Z.eqb_spec (height r - height l) (-1)); try lia; reflexivity.
  Qed.
  Ltac start_off G AL AR os := unfold rebalance; rewrite (s_tget_at _ _ _ _ _ _ G); cbn [bind]; rewrite (s_bf_ok _ os _ _ _ _ _ G AL AR); cbn [bind n_left n_right];
    match goal with |- context [negb ((?u =? 1) || (?u =? 0) || (?u =? -1))] => destruct (Z.eqb_spec u 1), (Z.eqb_spec u 0), (Z.eqb_spec u (-1)); try lia end; cbn [orb negb].
  Lemma z_rebalance_LL (b : bst) os (c : ctx) (a : bt) k xk (v : bt) i x (d : bt) : slim b (plug c (N (N a k xk v) i x d)) -> b_os b = os -> avl os (N a k xk v) -> avl os d -> height a = height v + 1 -> height a = height d + 1 ->
    exists b' xi', rebalance b (Some i) (Some k) (root a) = Ret b' /\ slim b' (plug c (N a k xk (N v i xi' d))) /\ keepsb b b' /\ ent xi' = ent x /\ nodeok os v xi' d.
  Proof.
    intros G HOS AL AD H1 H2. assert (ND := slim_neq _ _ G). assert (AL' := AL). destruct AL' as (_ & _ & AA & AV). start_off G AL AD os; try (cbn [height] in *; lia).
    cbn [root]. rewrite (hangs_at _ k n_left (root a) (mknode xk (root a) (root v) (Some i))) by (apply (sub_cell _ _ (CL c i x d) _ _ _ _ (sl_at _ _ G))). cbn [n_left bind]. rewrite oeqb_yes.
    destruct (s_avl_right_ok b os c a k xk v i x d G HOS AV AD) as (b1 & xi & E1 & G1 & K1 & X1 & X2). rewrite E1. cbn [bind]. rewrite (s_tget_at b1 (CR c a k xk) v i xi d G1). cbn [bind n_right].
    rewrite (hangs_no _ (root d)) by (intros X; apply root_In in X; dj ND). cbn [bind].
    rewrite (hangs_at _ k n_right (root a) (mknode xk (root a) (Some i) (cpar c))) by (apply (sub_cell _ _ c _ _ _ _ (sl_at _ _ G1))). cbn [n_right bind]. rewrite oeqb_no by (intros X; symmetry in X; apply root_In in X; dj ND). cbn [bind].
    rewrite (hangs_no _ (root d)) by (intros X; apply root_In in X; dj ND). cbn [bind]. exists b1, xi. auto.
  Qed.
  Lemma z_rebalance_RR (b : bst) os (c : ctx) (a : bt) k xk (v : bt) i x (d : bt) : slim b (plug c (N d i x (N v k xk a))) -> b_os b = os -> avl os (N v k xk a) -> avl os d -> height a = height v + 1 -> height a = height d + 1 ->
    exists b' xi' xk', rebalance b (Some i) (Some k) (root a) = Ret b' /\ slim b' (plug c (N (N d i xi' v) k xk' a)) /\ keepsb b b' /\ ent xi' = ent x /\ ent xk' = ent xk /\ nodeok os d xi' v.
  Proof.
    intros G HOS AL AD H1 H2. assert (ND := slim_neq _ _ G). assert (AL' := AL). destruct AL' as (_ & _ & AV & AA). start_off G AD AL os; try (cbn [height] in *; lia).
    rewrite (hangs_no _ (root d)) by (intros X; apply root_In in X; dj ND). cbn [bind]. rewrite (s_tget_at _ _ _ _ _ _ G). cbn [bind n_right root].
    rewrite (hangs_at _ k n_right (root a) (mknode xk (root v) (root a) (Some i))) by (apply (sub_cell _ _ (CR c d i x) _ _ _ _ (sl_at _ _ G))). cbn [n_right bind]. rewrite oeqb_yes.
    destruct (s_avl_left_ok b os c d k xk v i x a G HOS AD AV AA ltac:(lia)) as (b1 & xi & xk1 & E1 & G1 & K1 & X1 & X2 & X3). rewrite E1. cbn [bind].
    rewrite (hangs_no _ (root d)) by (intros X; apply root_In in X; dj ND). cbn [bind].
    rewrite (hangs_at _ k n_left (root a) (mknode xk1 (Some i) (root a) (cpar c))) by (apply (sub_cell _ _ c _ _ _ _ (sl_at _ _ G1))). cbn [n_left bind]. rewrite oeqb_no by (intros X; symmetry in X; apply root_In in X; dj ND). cbn [bind].
    exists b1, xi, xk1. auto 10.
  Qed.
  Lemma z_rebalance_LR (b : bst) os (c : ctx) (a : bt) k xk (v : bt) j xj (w : bt) i x (d : bt) : slim b (plug c (N (N a k xk (N v j xj w)) i x d)) -> b_os b = os -> avl os (N a k xk (N v j xj w)) -> avl os d ->
    height (N v j xj w) = height a + 1 -> height (N v j xj w) = height d + 1 ->
    exists b' xi' xk', rebalance b (Some i) (Some k) (Some j) = Ret b' /\ slim b' (plug c (N (N a k xk' v) j xj (N w i xi' d))) /\ keepsb b b' /\ ent xi' = ent x /\ ent xk' = ent xk /\ nodeok os a xk' v /\ nodeok os w xi' d.
  Proof.
    intros G HOS AL AD H1 H2. assert (ND := slim_neq _ _ G). assert (AL' := AL). destruct AL' as (_ & _ & AA & (_ & _ & AV & AW)). start_off G AL AD os; try (cbn [height] in *; lia).
    cbn [root]. assert (HK := sub_cell _ _ (CL c i x d) _ _ _ _ (sl_at _ _ G)). rewrite (hangs_at _ _ _ _ _ HK). cbn [n_left bind]. rewrite oeqb_no by (intros X; apply root_In in X; dj ND). cbn [bind]. rewrite (s_tget_at _ _ _ _ _ _ G). cbn [bind n_right root].
    rewrite (hangs_no _ (root d)) by (intros X; apply root_In in X; dj ND). cbn [bind].
    rewrite (hangs_at _ _ _ _ _ HK). cbn [n_right root bind]. rewrite oeqb_yes.
    destruct (s_avl_left_right_ok b os c a k xk v j xj w i x d G HOS AA AV AW AD) as (b1 & xi & xk1 & E1 & G1 & K1 & X1 & X2 & X3 & X4). rewrite E1. cbn [bind].
    rewrite (hangs_no _ (root d)) by (intros X; apply root_In in X; dj ND). cbn [bind]. exists b1, xi, xk1. auto 10.
  Qed.
  Lemma z_rebalance_RL (b : bst) os (c : ctx) (a : bt) k xk (v : bt) j xj (w : bt) i x (d : bt) : slim b (plug c (N d i x (N (N v j xj w) k xk a))) -> b_os b = os -> avl os (N (N v j xj w) k xk a) -> avl os d ->
    height (N v j xj w) = height a + 1 -> height (N v j xj w) = height d + 1 ->
    exists b' xi' xk', rebalance b (Some i) (Some k) (Some j) = Ret b' /\ slim b' (plug c (N (N d i xi' v) j xj (N w k xk' a))) /\ keepsb b b' /\ ent xi' = ent x /\ ent xk' = ent xk /\ nodeok os d xi' v /\ nodeok os w xk' a.
  Proof.
    intros G HOS AL AD H1 H2. assert (ND := slim_neq _ _ G). assert (AL' := AL). destruct AL' as (_ & _ & (_ & _ & AV & AW) & AA). start_off G AD AL os; try (cbn [height] in *; lia).
    rewrite (hangs_no _ (root d)) by (intros X; apply root_In in X; dj ND). cbn [bind]. rewrite (s_tget_at _ _ _ _ _ _ G). cbn [bind n_right root].
    assert (HK := sub_cell _ _ (CR c d i x) _ _ _ _ (sl_at _ _ G)). rewrite (hangs_at _ _ _ _ _ HK). cbn [n_right bind]. rewrite oeqb_no by (intros X; apply root_In in X; dj ND). cbn [bind].
    rewrite (hangs_no _ (root d)) by (intros X; apply root_In in X; dj ND). cbn [bind].
    rewrite (hangs_at _ _ _ _ _ HK). cbn [n_left root bind]. rewrite oeqb_yes.
    destruct (s_avl_right_left_ok b os c d k xk v j xj w i x a G HOS AD AV AW AA) as (b1 & xi & xk1 & E1 & G1 & K1 & X1 & X2 & X3 & X4). rewrite E1. cbn [bind]. exists b1, xi, xk1. auto 10.
  Qed.
  Ltac zents_eq EN := rewrite <- EN; cbn [plug]; apply zents_plug; rewrite ?zents_N; repeat match goal with H : ent _ = ent _ |- _ => rewrite H; clear H end; rewrite <- ?app_assoc; cbn [app]; rewrite <- ?app_assoc; reflexivity.
  Lemma walk_up os (c : ctx) (S : bt) i last n : avl os S -> forall H, cavl os c H -> height S = H -> (clen c < n)%nat -> exists n', (n' < n)%nat /\ walks os c S (Some i) last n'.
  Proof. intros AS H HC HS Hn. exists (clen c). split; [exact Hn|]. split; [exact AS|]. exists H. auto. Qed.
  Lemma z_balance_insertion_ok (b : bst) os (c : ctx) (S : bt) last l2l n : slim b (plug c S) -> b_os b = os -> walks os c S last l2l n -> cpar c = l2l ->
    exists b' T', balance_insertion b last l2l = Ret b' /\ slim b' T' /\ keepsb b b' /\ zents T' = zents (plug c S) /\ avl os T'.
  Proof.
    intros G HOS HW EP. unfold balance_insertion. remember (zents (plug c S)) as EN eqn:EEN.
    match goal with |- context [while_loop ?f ?bd ?s] => assert (W : wp (while_loop f bd s) (fun b' => exists T', slim b' T' /\ keepsb b b' /\ zents T' = EN /\ avl os T')) end.
    { eapply (wp_while_g (fun n s => exists c S last l2l, snd (fst s) = cpar c /\ snd s = [last; l2l] /\ slim (fst (fst s)) (plug c S) /\ keepsb b (fst (fst s)) /\ zents (plug c S) = EN /\ walks os c S last l2l n)) with (n := n).
      - clear c S last l2l n G HW EP EEN. intros n [[b0 walk] path] (c & S & last & l2l & Ew & Ep & G & K & EN0 & HW). cbn [fst snd] in *. subst walk path.
        assert (HO0 : b_os b0 = os) by (rewrite <- HOS; apply K).
        destruct c as [|c i x r|c l i x]; cbn [cpar plug] in *.
        + cbn [wp]. exists S. destruct HW as (A & _). auto.
        + destruct HW as (AS & H & (AR & HD & HC) & HH).
          destruct (s_touch_ok b0 os c S i x r G HO0 AS AR) as (b1 & x1 & E1 & G1 & K1 & X1 & X2).
          destruct (on_mem (fun t => fix_height t (Some i)) b0) as [b0'| |] eqn:E0; cbn [bind] in E1 |- *; [|discriminate..]. rewrite E1. cbn [bind].
          assert (HO1 : b_os b1 = os) by (pose proof (proj1 K1); congruence). assert (K2 := keepsb_trans _ _ _ K K1).
          assert (NONE : -1 <= height r - height S <= 1 -> (exists n', (n' < n)%nat /\ walks os c (N S i x1 r) (Some i) last n') -> wp (b2 <- rebalance b1 (Some i) last l2l ;; n0 <- tget (b_mem b2) (Some i) ;; Ret (Next (b2, n_parent n0, [] ++ [Some i; last])))
               (fun r0 => match r0 with Next s' => exists n', (n' < n)%nat /\ exists c S last l2l, snd (fst s') = cpar c /\ snd s' = [last; l2l] /\ slim (fst (fst s')) (plug c S) /\ keepsb b (fst (fst s')) /\ zents (plug c S) = EN /\ walks os c S last l2l n' | Break b' => exists T', slim b' T' /\ keepsb b b' /\ zents T' = EN /\ avl os T' end)).
          { intros HB (n' & L & HW). rewrite (z_rebalance_none b1 os c S i x1 r last l2l G1 AS AR HB). cbn [bind]. rewrite (s_tget_at _ _ _ _ _ _ G1). cbn [bind n_parent wp app fst snd]. exists n'. split; [exact L|]. exists c, (N S i x1 r), (Some i), last. do 2 (split; [reflexivity|]). split; [exact G1|]. split; [exact K2|]. split; [|exact HW]. zents_eq EN0. }
          destruct HH as [[HS ->] | (HS & (EL & HT) & ->)]; cbn [clen] in *.
          * apply NONE; [lia|]. eapply walk_up; [split; [exact X2|]; split; [lia|]; auto|exact HC|cbn [height]; lia|lia].
          * destruct (Z.eq_dec (height r) (H - 1)) as [HR|HR].
            -- clear NONE. destruct HT as (a & k & xk & v & -> & HT); [pose proof (height_ge r); lia|]. cbn [height] in HS. rewrite EL in *. cbn [root] in *.
               destruct HT as [[-> Hav] | [-> Hva]].
               ++ destruct (z_rebalance_LL b1 os c a k xk v i x1 r G1 HO1 AS AR Hav ltac:(lia)) as (b2 & xi & E2 & G2 & K3 & X3 & X4). rewrite E2. cbn [bind]. rewrite (s_tget_at b2 (CR c a k xk) v i xi r G2). cbn [bind n_parent wp app fst snd cpar].
                  exists (Datatypes.S (clen c)). split; [lia|]. exists (CR c a k xk), (N v i xi r), (Some i), (Some k). do 2 (split; [reflexivity|]). split; [exact G2|]. split; [eapply keepsb_trans; eassumption|]. split; [zents_eq EN0|].
                  destruct AS as (_ & _ & AA & AV). split; [split; [exact X4|]; split; [lia|]; auto|]. exists H. cbn [cavl height clen]. split; [split; [exact AA|]; split; [lia|]|left; split; [lia|reflexivity]]. replace (Z.max (height a) H + 1) with (Z.max H (height r) + 1) by lia. exact HC.
               ++ destruct v as [|v j xj w]; [cbn [height] in Hva; pose proof (height_ge a); lia|].
                  destruct (z_rebalance_LR b1 os c a k xk v j xj w i x1 r G1 HO1 AS AR Hva ltac:(lia)) as (b2 & xi & xk2 & E2 & G2 & K3 & X3 & X4 & X5 & X6). cbn [root]. rewrite E2. cbn [bind]. rewrite (s_tget_at b2 (CR c (N a k xk2 v) j xj) w i xi r G2). cbn [bind n_parent wp app fst snd cpar].
                  exists (Datatypes.S (clen c)). split; [lia|]. exists (CR c (N a k xk2 v) j xj), (N w i xi r), (Some i), (Some k). do 2 (split; [reflexivity|]). split; [exact G2|]. split; [eapply keepsb_trans; eassumption|]. split; [zents_eq EN0|].
                  destruct AS as (_ & _ & AA & _ & HB & AV & AW). cbn [height] in *. split; [split; [exact X6|]; split; [lia|]; auto|]. exists H. cbn [cavl height clen avl]. split; [split; [split; [exact X5|]; split; [lia|]; auto|]; split; [lia|]|left; split; [lia|reflexivity]]. replace (Z.max _ H + 1) with (Z.max H (height r) + 1) by lia. exact HC.
            -- apply NONE; [lia|]. destruct (Z.eq_dec (height r) H) as [HR0|HR0].
               ++ exists (Datatypes.S (clen c)). split; [lia|]. split; [split; [exact X2|]; split; [lia|]; auto|]. exists (Z.max H (height r) + 1). split; [exact HC|]. right. cbn [height]. split; [lia|]. split; [|reflexivity]. split; [reflexivity|]. intros _. exists S, i, x1, r. split; [reflexivity|]. left. split; [exact EL|lia].
               ++ eapply walk_up; [split; [exact X2|]; split; [lia|]; auto|exact HC|cbn [height]; lia|lia].
        + destruct HW as (AS & H & (AR & HD & HC) & HH).
          destruct (s_touch_ok b0 os c l i x S G HO0 AR AS) as (b1 & x1 & E1 & G1 & K1 & X1 & X2).
          destruct (on_mem (fun t => fix_height t (Some i)) b0) as [b0'| |] eqn:E0; cbn [bind] in E1 |- *; [|discriminate..]. rewrite E1. cbn [bind].
          assert (HO1 : b_os b1 = os) by (pose proof (proj1 K1); congruence). assert (K2 := keepsb_trans _ _ _ K K1).
          assert (NONE : -1 <= height S - height l <= 1 -> (exists n', (n' < n)%nat /\ walks os c (N l i x1 S) (Some i) last n') -> wp (b2 <- rebalance b1 (Some i) last l2l ;; n0 <- tget (b_mem b2) (Some i) ;; Ret (Next (b2, n_parent n0, [] ++ [Some i; last])))
               (fun r0 => match r0 with Next s' => exists n', (n' < n)%nat /\ exists c S last l2l, snd (fst s') = cpar c /\ snd s' = [last; l2l] /\ slim (fst (fst s')) (plug c S) /\ keepsb b (fst (fst s')) /\ zents (plug c S) = EN /\ walks os c S last l2l n' | Break b' => exists T', slim b' T' /\ keepsb b b' /\ zents T' = EN /\ avl os T' end)).
          { intros HB (n' & L & HW). rewrite (z_rebalance_none b1 os c l i x1 S last l2l G1 AR AS HB). cbn [bind]. rewrite (s_tget_at _ _ _ _ _ _ G1). cbn [bind n_parent wp app fst snd]. exists n'. split; [exact L|]. exists c, (N l i x1 S), (Some i), last. do 2 (split; [reflexivity|]). split; [exact G1|]. split; [exact K2|]. split; [|exact HW]. zents_eq EN0. }
          destruct HH as [[HS ->] | (HS & (EL & HT) & ->)]; cbn [clen] in *.
          * apply NONE; [lia|]. eapply walk_up; [split; [exact X2|]; split; [lia|]; auto|exact HC|cbn [height]; lia|lia].
          * destruct (Z.eq_dec (height l) (H - 1)) as [HR|HR].
            -- clear NONE. destruct HT as (v & k & xk & a & -> & HT); [pose proof (height_ge l); lia|]. cbn [height] in HS. rewrite EL in *. cbn [root] in *.
               destruct HT as [[-> Hav] | [-> Hva]].
               ++ destruct v as [|v j xj w]; [cbn [height] in Hav; pose proof (height_ge a); lia|].
                  destruct (z_rebalance_RL b1 os c a k xk v j xj w i x1 l G1 HO1 AS AR Hav ltac:(lia)) as (b2 & xi & xk2 & E2 & G2 & K3 & X3 & X4 & X5 & X6). cbn [root]. rewrite E2. cbn [bind]. rewrite (s_tget_at b2 (CL c j xj (N w k xk2 a)) l i xi v G2). cbn [bind n_parent wp app fst snd cpar].
                  exists (Datatypes.S (clen c)). split; [lia|]. exists (CL c j xj (N w k xk2 a)), (N l i xi v), (Some i), (Some k). do 2 (split; [reflexivity|]). split; [exact G2|]. split; [eapply keepsb_trans; eassumption|]. split; [zents_eq EN0|].
                  destruct AS as (_ & _ & (_ & HB & AV & AW) & AA). cbn [height] in *. split; [split; [exact X5|]; split; [lia|]; auto|]. exists H. cbn [cavl height clen avl]. split; [split; [split; [exact X6|]; split; [lia|]; auto|]; split; [lia|]|left; split; [lia|reflexivity]]. replace (Z.max H _ + 1) with (Z.max (height l) H + 1) by lia. exact HC.
               ++ destruct (z_rebalance_RR b1 os c a k xk v i x1 l G1 HO1 AS AR Hva ltac:(lia)) as (b2 & xi & xk2 & E2 & G2 & K3 & X3 & X4 & X5). rewrite E2. cbn [bind]. rewrite (s_tget_at b2 (CL c k xk2 a) l i xi v G2). cbn [bind n_parent wp app fst snd cpar].
                  exists (Datatypes.S (clen c)). split; [lia|]. exists (CL c k xk2 a), (N l i xi v), (Some i), (Some k). do 2 (split; [reflexivity|]). split; [exact G2|]. split; [eapply keepsb_trans; eassumption|]. split; [zents_eq EN0|].
                  destruct AS as (_ & _ & AV & AA). split; [split; [exact X5|]; split; [lia|]; auto|]. exists H. cbn [cavl height clen]. split; [split; [exact AA|]; split; [lia|]|left; split; [lia|reflexivity]]. replace (Z.max H (height a) + 1) with (Z.max (height l) H + 1) by lia. exact HC.
            -- apply NONE; [lia|]. destruct (Z.eq_dec (height l) H) as [HR0|HR0].
               ++ exists (Datatypes.S (clen c)). split; [lia|]. split; [split; [exact X2|]; split; [lia|]; auto|]. exists (Z.max (height l) H + 1). split; [exact HC|]. right. cbn [height]. split; [lia|]. split; [|reflexivity]. split; [reflexivity|]. intros _. exists l, i, x1, S. split; [reflexivity|]. right. split; [exact EL|lia].
               ++ eapply walk_up; [split; [exact X2|]; split; [lia|]; auto|exact HC|cbn [height]; lia|lia].
      - exists c, S, last, l2l. cbn [fst snd]. split; [symmetry; exact EP|]. split; [reflexivity|]. split; [exact G|]. split; [apply keepsb_refl|]. split; [symmetry; exact EEN|exact HW].
      - assert (Hn : (n <= Datatypes.S (clen c))%nat) by (destruct HW as (_ & H & _ & [(_ & ->) | (_ & _ & ->)]); lia). pose proof (nodes_mem _ _ _ (proj1 (sl_at _ _ G)) (proj1 (proj2 (sl_at _ _ G)))) as HN. rewrite nodes_len in HN. unfold len in HN. rewrite len_idx_plug in HN. pose proof (clen_le c). unfold fuel. lia. }
    apply wp_ex in W as (b' & E1 & T' & H). rewrite E1. exists b', T'. tauto.
  Qed.

  (** the context above a new leaf, with the sizes of the base class *)
  Lemma z_balance_deletion_ok (b : bst) os (c : ctx) (S : bt) n : slim b (plug c S) -> b_os b = os -> shrunk os c S n ->
    exists b' T', balance_deletion b (cpar c) = Ret b' /\ slim b' T' /\ keepsb b b' /\ zents T' = zents (plug c S) /\ avl os T'.
  Proof.
    intros G HOS HW. unfold balance_deletion. remember (zents (plug c S)) as EN eqn:EEN.
    match goal with |- context [while_loop ?f ?bd ?s] => assert (W : wp (while_loop f bd s) (fun b' => exists T', slim b' T' /\ keepsb b b' /\ zents T' = EN /\ avl os T')) end.
    { eapply (wp_while_g (fun n s => exists c S, snd s = cpar c /\ slim (fst s) (plug c S) /\ keepsb b (fst s) /\ zents (plug c S) = EN /\ shrunk os c S n)) with (n := n).
      - clear c S n G HW EEN. intros n [b0 walk] (c & S & Ew & G & K & EN0 & HW). cbn [fst snd] in *. subst walk.
        assert (HO0 : b_os b0 = os) by (rewrite <- HOS; apply K).
        destruct c as [|c i x r|c l i x]; cbn [cpar plug] in *.
        + cbn [wp]. exists S. destruct HW as (A & _). auto.
        + destruct HW as (AS & H & (AR & HD & HC) & HH & HN). cbn [clen] in HN.
          destruct (s_touch_ok b0 os c S i x r G HO0 AS AR) as (b1 & x1 & E1 & G1 & K1 & X1 & X2).
          destruct (on_mem (fun t => fix_height t (Some i)) b0) as [b0'| |] eqn:E0; cbn [bind] in E1 |- *; [|discriminate..]. rewrite E1. cbn [bind].
          assert (HO1 : b_os b1 = os) by (pose proof (proj1 K1); congruence). assert (K2 := keepsb_trans _ _ _ K K1).
          rewrite (s_tget_at _ _ _ _ _ _ G1). cbn [bind n_left n_right]. rewrite (s_bf_ok b1 os c S i x1 r G1 AS AR). cbn [bind].
          destruct (Z_le_gt_dec (height r - height S) 1) as [LE|GT].
          * replace (negb _) with false by lia. cbn [bind]. rewrite (s_tget_at _ _ _ _ _ _ G1). cbn [bind n_parent wp]. exists (2 * clen c)%nat. split; [lia|]. exists c, (N S i x1 r). cbn [fst snd]. split; [reflexivity|]. split; [exact G1|]. split; [exact K2|]. split; [zents_eq EN0|].
            split; [split; [exact X2|]; split; [lia|]; auto|]. exists (Z.max H (height r) + 1). split; [exact HC|]. cbn [height]. split; [lia|]. left. reflexivity.
          * replace (negb _) with true by lia. replace (height r - height S <? 0) with false by lia. destruct r as [|v k xk d]; [cbn [height] in *; pose proof (height_ge S); lia|]. cbn [root]. cbn [height] in *.
            assert (AR' := AR). destruct AR as (_ & HB & AV & AD).
            assert (TK : tget (b_mem b1) (Some k) = Ret (mknode xk (root v) (root d) (Some i))) by (apply (s_tget_at b1 (CR c S i x1)); exact G1). rewrite TK. cbn [bind].
            assert (BF : balance_factor (b_mem b1) (mknode xk (root v) (root d) (Some i)) = Ret (height d - height v)) by (apply (s_bf_ok b1 os (CR c S i x1) v k xk d); assumption). rewrite BF. cbn [bind].
            destruct (Z.leb_spec 0 (height d - height v)) as [L|L].
            -- destruct (s_avl_left_ok b1 os c S k xk v i x1 d G1 HO1 AS AV AD ltac:(lia)) as (b2 & xi & xk2 & E2 & G2 & K3 & X3 & X4 & X5). rewrite E2. cbn [bind]. rewrite (s_tget_at b2 (CL c k xk2 d) S i xi v G2). cbn [bind n_parent wp cpar].
               exists (2 * clen c + 1)%nat. split; [lia|]. exists (CL c k xk2 d), (N S i xi v). cbn [fst snd]. split; [reflexivity|]. split; [exact G2|]. split; [eapply keepsb_trans; eassumption|]. split; [zents_eq EN0|].
               split; [split; [exact X5|]; split; [lia|]; auto|]. exists (H + 1). cbn [cavl height clen]. split; [split; [exact AD|]; split; [lia|]|split; [lia|right; split; lia]]. replace (Z.max (H + 1) _ + 1) with (Z.max H (Z.max (height v) (height d) + 1) + 1) by lia. exact HC.
            -- destruct v as [|v j xj w]; [cbn [height] in *; pose proof (height_ge d); lia|]. destruct AV as (NJ & HB2 & AV & AW). cbn [height] in *.
               destruct (s_avl_right_left_ok b1 os c S k xk v j xj w i x1 d G1 HO1 AS AV AW AD) as (b2 & xi & xk2 & E2 & G2 & K3 & X3 & X4 & X5 & X6). rewrite E2. cbn [bind]. rewrite (s_tget_at b2 (CL c j xj (N w k xk2 d)) S i xi v G2). cbn [bind n_parent wp cpar].
               exists (2 * clen c + 1)%nat. split; [lia|]. exists (CL c j xj (N w k xk2 d)), (N S i xi v). cbn [fst snd]. split; [reflexivity|]. split; [exact G2|]. split; [eapply keepsb_trans; eassumption|]. split; [zents_eq EN0|].
               split; [split; [exact X5|]; split; [lia|]; auto|]. exists (H + 1). cbn [cavl height clen avl]. split; [split; [split; [exact X6|]; split; [lia|]; auto|]; split; [lia|]|split; [lia|right; split; lia]].
               match goal with |- cavl _ _ ?z => match type of HC with cavl _ _ ?y => replace z with y by lia end end. exact HC.
        + destruct HW as (AS & H & (AR & HD & HC) & HH & HN). cbn [clen] in HN.
          destruct (s_touch_ok b0 os c l i x S G HO0 AR AS) as (b1 & x1 & E1 & G1 & K1 & X1 & X2).
          destruct (on_mem (fun t => fix_height t (Some i)) b0) as [b0'| |] eqn:E0; cbn [bind] in E1 |- *; [|discriminate..]. rewrite E1. cbn [bind].
          assert (HO1 : b_os b1 = os) by (pose proof (proj1 K1); congruence). assert (K2 := keepsb_trans _ _ _ K K1).
          rewrite (s_tget_at _ _ _ _ _ _ G1). cbn [bind n_left n_right]. rewrite (s_bf_ok b1 os c l i x1 S G1 AR AS). cbn [bind].
          destruct (Z_le_gt_dec (height l - height S) 1) as [LE|GT].
          * replace (negb _) with false by lia. cbn [bind]. rewrite (s_tget_at _ _ _ _ _ _ G1). cbn [bind n_parent wp]. exists (2 * clen c)%nat. split; [lia|]. exists c, (N l i x1 S). cbn [fst snd]. split; [reflexivity|]. split; [exact G1|]. split; [exact K2|]. split; [zents_eq EN0|].
            split; [split; [exact X2|]; split; [lia|]; auto|]. exists (Z.max (height l) H + 1). split; [exact HC|]. cbn [height]. split; [lia|]. left. reflexivity.
          * replace (negb _) with true by lia. replace (height S - height l <? 0) with true by lia. destruct l as [|a k xk v]; [cbn [height] in *; pose proof (height_ge S); lia|]. cbn [root]. cbn [height] in *.
            assert (AR' := AR). destruct AR as (_ & HB & AA & AV).
            assert (TK : tget (b_mem b1) (Some k) = Ret (mknode xk (root a) (root v) (Some i))) by (apply (s_tget_at b1 (CL c i x1 S)); exact G1). rewrite TK. cbn [bind].
            assert (BF : balance_factor (b_mem b1) (mknode xk (root a) (root v) (Some i)) = Ret (height v - height a)) by (apply (s_bf_ok b1 os (CL c i x1 S) a k xk v); assumption). rewrite BF. cbn [bind].
            destruct (Z.leb_spec (height v - height a) 0) as [L|L].
            -- destruct (s_avl_right_ok b1 os c a k xk v i x1 S G1 HO1 AV AS) as (b2 & xi & E2 & G2 & K3 & X3 & X5). rewrite E2. cbn [bind]. rewrite (s_tget_at b2 (CR c a k xk) v i xi S G2). cbn [bind n_parent wp cpar].
               exists (2 * clen c + 1)%nat. split; [lia|]. exists (CR c a k xk), (N v i xi S). cbn [fst snd]. split; [reflexivity|]. split; [exact G2|]. split; [eapply keepsb_trans; eassumption|]. split; [zents_eq EN0|].
               split; [split; [exact X5|]; split; [lia|]; auto|]. exists (H + 1). cbn [cavl height clen]. split; [split; [exact AA|]; split; [lia|]|split; [lia|right; split; lia]].
               match goal with |- cavl _ _ ?z => match type of HC with cavl _ _ ?y => replace z with y by lia end end. exact HC.
            -- destruct v as [|v j xj w]; [cbn [height] in *; pose proof (height_ge a); lia|]. destruct AV as (NJ & HB2 & AV & AW). cbn [height] in *.
               destruct (s_avl_left_right_ok b1 os c a k xk v j xj w i x1 S G1 HO1 AA AV AW AS) as (b2 & xi & xk2 & E2 & G2 & K3 & X3 & X4 & X5 & X6). rewrite E2. cbn [bind]. rewrite (s_tget_at b2 (CR c (N a k xk2 v) j xj) w i xi S G2). cbn [bind n_parent wp cpar].
               exists (2 * clen c + 1)%nat. split; [lia|]. exists (CR c (N a k xk2 v) j xj), (N w i xi S). cbn [fst snd]. split; [reflexivity|]. split; [exact G2|]. split; [eapply keepsb_trans; eassumption|]. split; [zents_eq EN0|].
               split; [split; [exact X6|]; split; [lia|]; auto|]. exists (H + 1). cbn [cavl height clen avl]. split; [split; [split; [exact X5|]; split; [lia|]; auto|]; split; [lia|]|split; [lia|right; split; lia]].
               match goal with |- cavl _ _ ?z => match type of HC with cavl _ _ ?y => replace z with y by lia end end. exact HC.
      - exists c, S. cbn [fst snd]. split; [reflexivity|]. split; [exact G|]. split; [apply keepsb_refl|]. split; [symmetry; exact EEN|exact HW].
      - assert (Hn : (n <= 2 * clen c)%nat) by (destruct HW as (_ & H & _ & _ & [-> | [? _]]); lia). pose proof (nodes_mem _ _ _ (proj1 (sl_at _ _ G)) (proj1 (proj2 (sl_at _ _ G)))) as HN. rewrite nodes_len in HN. unfold len in HN. rewrite len_idx_plug in HN. pose proof (clen_le c). unfold fuel. lia. }
    apply wp_ex in W as (b' & E1 & T' & H). rewrite E1. exists b', T'. tauto.
  Qed.
End Mix.
