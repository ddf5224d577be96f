(** Proofs: AVLTree.delete keeps the tree balanced, with its stored heights and sizes right. *)
From Coq Require Import Sorting.Sorted.
From Verif Require Import Base TreeModel TreeModel2 TreeSpec TreeProofs TreeRotate TreeBst TreeTrav TreeQuery TreeLca TreeDel TreeHist TreeBalSpec TreeAvl TreeAvl2 TreeSim TreeMulti TreeDelSpec TreeDel2 TreeDel3.

Ltac ents_eq EN := rewrite <- EN; cbn [plug]; apply ents_plug; rewrite ?ents_N; repeat match goal with H : ent _ = ent _ |- _ => rewrite H; clear H end; rewrite <- ?app_assoc; cbn [app]; rewrite <- ?app_assoc; reflexivity.

Section Del4.
  Context {D : Type}.
  Notation info := (info D). Notation node := (node D). Notation mem := (mem D). Notation bst := (bst D). Notation bt := (bt D). Notation ctx := (ctx D).
  (** the walk up after a delete: below c a subtree as high as c expects, or one lower; n bounds the steps left *)
  Definition shrunk (os : bool) (c : ctx) (S : bt) (n : nat) : Prop :=
    avl os S /\ exists H, cavl os c H /\ (height S = H \/ height S = H - 1) /\
      (n = (2 * clen c)%nat \/ Datatypes.S n = (2 * clen c)%nat /\ match c with Top => True | CL _ _ _ r => -1 <= height r - height S <= 1 | CR _ l _ _ => -1 <= height S - height l <= 1 end).
  Lemma balance_deletion_ok (b : bst) os (c : ctx) (S : bt) n : slim b (plug c S) -> b_os b = os -> shrunk os c S n ->
    exists b' T', balance_deletion b (cpar c) = Ret b' /\ slim b' T' /\ keepsb b b' /\ ents T' = ents (plug c S) /\ avl os T'.
  Proof.
    intros G HOS HW. unfold balance_deletion. remember (ents (plug c S)) as EN eqn:EEN.
    match goal with |- context [while_loop ?f ?bd ?s] => assert (W : wp (while_loop f bd s) (fun b' => exists T', slim b' T' /\ keepsb b b' /\ ents T' = EN /\ avl os T')) end.
    { eapply (wp_while_g (fun n s => exists c S, snd s = cpar c /\ slim (fst s) (plug c S) /\ keepsb b (fst s) /\ ents (plug c S) = EN /\ shrunk os c S n)) with (n := n).
      - clear c S n G HW EEN. intros n [b0 walk] (c & S & Ew & G & K & EN0 & HW). cbn [fst snd] in *. subst walk.
        assert (HO0 : b_os b0 = os) by (rewrite <- HOS; apply K).
        destruct c as [|c i x r|c l i x]; cbn [cpar plug] in *.
        + cbn [wp]. exists S. destruct HW as (A & _). auto.
        + destruct HW as (AS & H & (AR & HD & HC) & HH & HN). cbn [clen] in HN.
          destruct (s_touch_ok b0 os c S i x r G HO0 AS AR) as (b1 & x1 & E1 & G1 & K1 & X1 & X2).
          destruct (on_mem (fun t => fix_height t (Some i)) b0) as [b0'| |] eqn:E0; cbn [bind] in E1 |- *; [|discriminate..]. rewrite E1. cbn [bind].
          assert (HO1 : b_os b1 = os) by (pose proof (proj1 K1); congruence). assert (K2 := keepsb_trans _ _ _ K K1).
          rewrite (s_tget_at _ _ _ _ _ _ G1). cbn [bind n_left n_right]. rewrite (s_bf_ok b1 os c S i x1 r G1 AS AR). cbn [bind].
          destruct (Z_le_gt_dec (height r - height S) 1) as [LE|GT].
          * replace (negb _) with false by lia. cbn [bind]. rewrite (s_tget_at _ _ _ _ _ _ G1). cbn [bind n_parent wp]. exists (2 * clen c)%nat. split; [lia|]. exists c, (N S i x1 r). cbn [fst snd]. split; [reflexivity|]. split; [exact G1|]. split; [exact K2|]. split; [ents_eq EN0|].
            split; [split; [exact X2|]; split; [lia|]; auto|]. exists (Z.max H (height r) + 1). split; [exact HC|]. cbn [height]. split; [lia|]. left. reflexivity.
          * replace (negb _) with true by lia. replace (height r - height S <? 0) with false by lia. destruct r as [|v k xk d]; [cbn [height] in *; pose proof (height_ge S); lia|]. cbn [root]. cbn [height] in *.
            assert (AR' := AR). destruct AR as (_ & HB & AV & AD).
            assert (TK : tget (b_mem b1) (Some k) = Ret (mknode xk (root v) (root d) (Some i))) by (apply (s_tget_at b1 (CR c S i x1)); exact G1). rewrite TK. cbn [bind].
            assert (BF : balance_factor (b_mem b1) (mknode xk (root v) (root d) (Some i)) = Ret (height d - height v)) by (apply (s_bf_ok b1 os (CR c S i x1) v k xk d); assumption). rewrite BF. cbn [bind].
            destruct (Z.leb_spec 0 (height d - height v)) as [L|L].
            -- destruct (s_avl_left_ok b1 os c S k xk v i x1 d G1 HO1 AS AV AD ltac:(lia)) as (b2 & xi & xk2 & E2 & G2 & K3 & X3 & X4 & X5). rewrite E2. cbn [bind]. rewrite (s_tget_at b2 (CL c k xk2 d) S i xi v G2). cbn [bind n_parent wp cpar].
               exists (2 * clen c + 1)%nat. split; [lia|]. exists (CL c k xk2 d), (N S i xi v). cbn [fst snd]. split; [reflexivity|]. split; [exact G2|]. split; [eapply keepsb_trans; eassumption|]. split; [ents_eq EN0|].
               split; [split; [exact X5|]; split; [lia|]; auto|]. exists (H + 1). cbn [cavl height clen]. split; [split; [exact AD|]; split; [lia|]|split; [lia|right; split; lia]]. replace (Z.max (H + 1) _ + 1) with (Z.max H (Z.max (height v) (height d) + 1) + 1) by lia. exact HC.
            -- destruct v as [|v j xj w]; [cbn [height] in *; pose proof (height_ge d); lia|]. destruct AV as (NJ & HB2 & AV & AW). cbn [height] in *.
               destruct (s_avl_right_left_ok b1 os c S k xk v j xj w i x1 d G1 HO1 AS AV AW AD) as (b2 & xi & xk2 & E2 & G2 & K3 & X3 & X4 & X5 & X6). rewrite E2. cbn [bind]. rewrite (s_tget_at b2 (CL c j xj (N w k xk2 d)) S i xi v G2). cbn [bind n_parent wp cpar].
               exists (2 * clen c + 1)%nat. split; [lia|]. exists (CL c j xj (N w k xk2 d)), (N S i xi v). cbn [fst snd]. split; [reflexivity|]. split; [exact G2|]. split; [eapply keepsb_trans; eassumption|]. split; [ents_eq EN0|].
               split; [split; [exact X5|]; split; [lia|]; auto|]. exists (H + 1). cbn [cavl height clen avl]. split; [split; [split; [exact X6|]; split; [lia|]; auto|]; split; [lia|]|split; [lia|right; split; lia]].
               match goal with |- cavl _ _ ?z => match type of HC with cavl _ _ ?y => replace z with y by lia end end. exact HC.
        + destruct HW as (AS & H & (AR & HD & HC) & HH & HN). cbn [clen] in HN.
          destruct (s_touch_ok b0 os c l i x S G HO0 AR AS) as (b1 & x1 & E1 & G1 & K1 & X1 & X2).
          destruct (on_mem (fun t => fix_height t (Some i)) b0) as [b0'| |] eqn:E0; cbn [bind] in E1 |- *; [|discriminate..]. rewrite E1. cbn [bind].
          assert (HO1 : b_os b1 = os) by (pose proof (proj1 K1); congruence). assert (K2 := keepsb_trans _ _ _ K K1).
          rewrite (s_tget_at _ _ _ _ _ _ G1). cbn [bind n_left n_right]. rewrite (s_bf_ok b1 os c l i x1 S G1 AR AS). cbn [bind].
          destruct (Z_le_gt_dec (height l - height S) 1) as [LE|GT].
          * replace (negb _) with false by lia. cbn [bind]. rewrite (s_tget_at _ _ _ _ _ _ G1). cbn [bind n_parent wp]. exists (2 * clen c)%nat. split; [lia|]. exists c, (N l i x1 S). cbn [fst snd]. split; [reflexivity|]. split; [exact G1|]. split; [exact K2|]. split; [ents_eq EN0|].
            split; [split; [exact X2|]; split; [lia|]; auto|]. exists (Z.max (height l) H + 1). split; [exact HC|]. cbn [height]. split; [lia|]. left. reflexivity.
          * replace (negb _) with true by lia. replace (height S - height l <? 0) with true by lia. destruct l as [|a k xk v]; [cbn [height] in *; pose proof (height_ge S); lia|]. cbn [root]. cbn [height] in *.
            assert (AR' := AR). destruct AR as (_ & HB & AA & AV).
            assert (TK : tget (b_mem b1) (Some k) = Ret (mknode xk (root a) (root v) (Some i))) by (apply (s_tget_at b1 (CL c i x1 S)); exact G1). rewrite TK. cbn [bind].
            assert (BF : balance_factor (b_mem b1) (mknode xk (root a) (root v) (Some i)) = Ret (height v - height a)) by (apply (s_bf_ok b1 os (CL c i x1 S) a k xk v); assumption). rewrite BF. cbn [bind].
            destruct (Z.leb_spec (height v - height a) 0) as [L|L].
            -- destruct (s_avl_right_ok b1 os c a k xk v i x1 S G1 HO1 AV AS) as (b2 & xi & E2 & G2 & K3 & X3 & X5). rewrite E2. cbn [bind]. rewrite (s_tget_at b2 (CR c a k xk) v i xi S G2). cbn [bind n_parent wp cpar].
               exists (2 * clen c + 1)%nat. split; [lia|]. exists (CR c a k xk), (N v i xi S). cbn [fst snd]. split; [reflexivity|]. split; [exact G2|]. split; [eapply keepsb_trans; eassumption|]. split; [ents_eq EN0|].
               split; [split; [exact X5|]; split; [lia|]; auto|]. exists (H + 1). cbn [cavl height clen]. split; [split; [exact AA|]; split; [lia|]|split; [lia|right; split; lia]].
               match goal with |- cavl _ _ ?z => match type of HC with cavl _ _ ?y => replace z with y by lia end end. exact HC.
            -- destruct v as [|v j xj w]; [cbn [height] in *; pose proof (height_ge a); lia|]. destruct AV as (NJ & HB2 & AV & AW). cbn [height] in *.
               destruct (s_avl_left_right_ok b1 os c a k xk v j xj w i x1 S G1 HO1 AA AV AW AS) as (b2 & xi & xk2 & E2 & G2 & K3 & X3 & X4 & X5 & X6). rewrite E2. cbn [bind]. rewrite (s_tget_at b2 (CR c (N a k xk2 v) j xj) w i xi S G2). cbn [bind n_parent wp cpar].
               exists (2 * clen c + 1)%nat. split; [lia|]. exists (CR c (N a k xk2 v) j xj), (N w i xi S). cbn [fst snd]. split; [reflexivity|]. split; [exact G2|]. split; [eapply keepsb_trans; eassumption|]. split; [ents_eq EN0|].
               split; [split; [exact X6|]; split; [lia|]; auto|]. exists (H + 1). cbn [cavl height clen avl]. split; [split; [split; [exact X5|]; split; [lia|]; auto|]; split; [lia|]|split; [lia|right; split; lia]].
               match goal with |- cavl _ _ ?z => match type of HC with cavl _ _ ?y => replace z with y by lia end end. exact HC.
      - exists c, S. cbn [fst snd]. split; [reflexivity|]. split; [exact G|]. split; [apply keepsb_refl|]. split; [symmetry; exact EEN|exact HW].
      - assert (Hn : (n <= 2 * clen c)%nat) by (destruct HW as (_ & H & _ & _ & [-> | [? _]]); lia). pose proof (nodes_mem _ _ _ (proj1 (sl_at _ _ G)) (proj1 (proj2 (sl_at _ _ G)))) as HN. rewrite nodes_len in HN. unfold len in HN. rewrite len_idx_plug in HN. pose proof (clen_le c). unfold fuel. lia. }
    apply wp_ex in W as (b' & E1 & T' & H). rewrite E1. exists b', T'. tauto.
  Qed.
  Lemma cavl_info os c l i (x x' : info) fs : forall H, cavl os (clefts (CR c l i x) fs) H -> cavl os (clefts (CR c l i x') fs) H.
  Proof. induction fs as [|[[j y] r] fs IH]; intros H; cbn [clefts cavl]; [auto|]. intros (A & B & C). auto. Qed.
  Lemma taken_shrunk os c l i x r c1 S c' : taken c l i x r c1 S -> cz c1 c' -> avl os (plug c (N l i x r)) -> (c1 = Top -> False) -> shrunk os c' S (2 * clen c').
  Proof.
    intros TK CZ AV NT. destruct TK as [c l i x _|c i x r _|i x j y|i x j y|c l i x fs j y s NL].
    - apply avl_plug in AV as ((NO & HB & AL & AR) & HC). split; [exact AL|]. eexists. split; [eapply cz_avl; eassumption|]. cbn [height] in *. split; [|left; reflexivity]. pose proof (height_ge l). lia.
    - apply avl_plug in AV as ((NO & HB & AL & AR) & HC). split; [exact AR|]. eexists. split; [eapply cz_avl; eassumption|]. cbn [height] in *. split; [|left; reflexivity]. pose proof (height_ge r). lia.
    - congruence.
    - congruence.
    - change (plug c (N l i x (plugl fs (N E j y s)))) with (plug (CR c l i x) (plugl fs (N E j y s))) in AV. rewrite <- plug_clefts in AV. apply avl_plug in AV as ((NO & HB & AL & AR) & HC). split; [exact AR|]. eexists. split; [eapply cz_avl; [eassumption|]; eapply cavl_info; exact HC|]. cbn [height] in *. split; [|left; reflexivity]. pose proof (height_ge s). lia.
  Qed.
  Lemma height_lone (T : bt) : height T <= 0 -> T = E \/ lone T.
  Proof. destruct T as [|l i x r]; [auto|]. cbn [height]. intros H. pose proof (height_ge l). pose proof (height_ge r). right. destruct l as [|ll ? ? lr]; [|cbn [height] in *; pose proof (height_ge ll); pose proof (height_ge lr); lia]. destruct r as [|rl ? ? rr]; [exact I|cbn [height] in *; pose proof (height_ge rl); pose proof (height_ge rr); lia]. Qed.
  Lemma taken_ne c (l : bt) i x r c1 S : taken c l i x r c1 S -> plug c1 S <> E.
  Proof. intros TK. destruct TK; try (apply plug_ne2; assumption); try discriminate. apply plug_ne2, clefts_top. discriminate. Qed.
  Lemma ents_nodes (T T' : bt) : ents T = ents T' -> nodes T = nodes T'.
  Proof. intros H. assert (X : len (ents T) = len (ents T')) by congruence. unfold ents, len in X. rewrite !map_length in X. rewrite <- !len_entries. unfold entries, len. rewrite !map_length. exact X. Qed.
  Lemma ents_ne (T T' : bt) : ents T = ents T' -> T <> E -> T' <> E.
  Proof. intros H NE ->. apply ents_nodes in H. destruct T as [|l i x r]; [congruence|]. cbn [nodes] in H. pose proof (nodes_nonneg l). pose proof (nodes_nonneg r). lia. Qed.
  Lemma avl_delete_ok (b : bst) T key : default b -> slim b T -> ordered (infos T) -> T <> E -> avl (b_os b) T -> len (b_mem b) <= 4 * (nodes T - 1) ->
    exists b' T', avl_delete b key = Ret (b', true) /\ slim b' T' /\ ents T' = without key (ents T) /\ T' <> E /\ nodes T - 1 <= nodes T' /\ len (b_mem b') = len (b_mem b) /\ b_comp b' = b_comp b /\ b_os b' = b_os b /\
      (3 <= nodes T -> avl (b_os b) T') /\ balanced T'.
  Proof.
    intros HD SP HO HE AV HL. destruct (search_ok b T key HD (sl_at _ _ SP) HO HE) as (c & S & _ & ES & HK). destruct HK as (ET & HP & [-> | (l & i & x & r & -> & Ek)]).
    - exists b, T. cbn [root] in ES. unfold avl_delete, delete_info. rewrite ES. cbn [bind]. split; [reflexivity|]. split; [exact SP|].
      assert (AB : Forall (kis (fun k => k <> key)) (infos T)) by (apply (absent key T c); split; [exact ET|auto]).
      split; [symmetry; unfold ents; apply without_none; exact AB|]. split; [exact HE|]. split; [lia|]. do 3 (split; [reflexivity|]). split; [auto|]. apply (avl_spec _ _ AV).
    - cbn [root] in ES.
      assert (HI : inb (b_mem b) i) by (eapply cell_inb, sub_cell; rewrite <- ET; apply (sl_at _ _ SP)). unfold inb in HI.
      destruct (delete_strong b T key c l i x r HD SP HL ES ET) as (b1 & c1 & S & c' & E1 & TK & CZ & SP1 & L1 & C1 & O1).
      + intros -> ->. rewrite ET in AV, HL. destruct AV as (_ & HB & _). cbn [height] in HB. destruct (height_lone r) as [-> |X]; [pose proof (height_ge r); lia|cbn in HL; lia|exact X].
      + intros -> ->. rewrite ET in AV, HL. destruct AV as (_ & HB & _). cbn [height] in HB. destruct (height_lone l) as [-> |X]; [pose proof (height_ge l); lia|cbn in HL; lia|exact X].
      + unfold avl_delete. rewrite E1. cbn [bind]. assert (ENT := taken_ents _ _ _ _ _ _ _ key TK Ek ltac:(rewrite <- ET; exact HO)). rewrite <- ET in ENT.
        assert (EN1 := taken_nodes _ _ _ _ _ _ _ TK). assert (NE1 := taken_ne _ _ _ _ _ _ _ TK).
        assert (ENC : ents (plug c' S) = ents (plug c1 S)). { symmetry. apply sim_facts. apply sim_plug; [apply cz_sim; exact CZ|apply sim_refl]. }
        assert (CASES : c1 = Top \/ c1 <> Top) by (destruct c1; [left; reflexivity|right; discriminate..]). destruct CASES as [TOP|NT].
        * assert (LN : lone S /\ nodes T = 2). { destruct TK; try congruence; [rewrite ET; split; [exact I|reflexivity]..|]. exfalso. eapply clefts_top; [|exact TOP]. discriminate. } destruct LN as [LN N2].
          rewrite TOP in *. destruct c'; [|destruct CZ..]. cbn [cpar plug] in *. exists b1, S. split; [reflexivity|]. split; [exact SP1|]. split; [exact ENT|]. split; [exact NE1|]. split; [rewrite ET; lia|]. split; [exact L1|]. do 2 (split; [assumption|]). split; [lia|]. apply lone_inv in LN as (? & ? & ->). cbn. lia.
        * assert (HS := taken_shrunk (b_os b) _ _ _ _ _ _ _ _ TK CZ ltac:(rewrite <- ET; exact AV) NT). destruct (balance_deletion_ok b1 (b_os b) c' S _ SP1 O1 HS) as (b2 & T2 & E2 & SP2 & K2 & EN2 & AV2). rewrite E2. cbn [bind].
          exists b2, T2. split; [reflexivity|]. split; [exact SP2|]. rewrite EN2, ENC. split; [exact ENT|]. split; [apply (ents_ne (plug c1 S)); [congruence|exact NE1]|]. split; [rewrite (ents_nodes T2 (plug c1 S)) by congruence; rewrite ET; lia|].
          destruct K2 as (K2 & K3 & K4 & K5). split; [congruence|]. split; [congruence|]. split; [congruence|]. split; [auto|]. apply (avl_spec _ _ AV2).
  Qed.
  Lemma avl_deletes_ok ks : forall (b : bst) T, default b -> slim b T -> ordered (infos T) -> T <> E -> avl (b_os b) T -> len (b_mem b) <= 4 * (nodes T - len ks) -> (2 <= nodes T - len ks \/ len ks <= 1) ->
    exists b' T', delete_with avl_delete b ks = Ret (b', map (fun _ => true) ks) /\ default b' /\ slim b' T' /\ ordered (infos T') /\ T' <> E /\ b_os b' = b_os b /\ entries T' = fst (deleted (entries T) ks) /\ (2 <= nodes T - len ks -> avl (b_os b) T') /\ balanced T'.
  Proof.
    induction ks as [|k ks IH]; intros b T HD SP HO HE AV HL HN; cbn [delete_with deleted map].
    - exists b, T. cbn [fst]. do 7 (split; [auto|]). split; [auto|]. apply (avl_spec _ _ AV).
    - assert (LK : len (k :: ks) = len ks + 1) by (unfold len; cbn [length]; lia). pose proof (len_nonneg _ ks). pose proof (nodes_nonneg T).
      destruct (avl_delete_ok b T k HD SP HO HE AV ltac:(lia)) as (b1 & T1 & E1 & SP1 & EE & HE1 & HN1 & HLn & HC & HOs & AV1 & BL1). rewrite E1. cbn [bind].
      assert (O1 : ordered (infos T1)) by (apply (ordered_without k (infos T)); assumption). assert (D1 : default b1) by (unfold default in *; congruence).
      assert (EN : entries T1 = filter (fun e => negb (fst e =? k)) (entries T)). { apply okeys_inj. rewrite <- ents_okeys, EE, ents_okeys, without_okeys by assumption. reflexivity. }
      destruct ks as [|k2 ks2].
      + cbn [delete_with bind deleted fst map]. exists b1, T1. split; [reflexivity|]. rewrite <- EN. do 5 (split; [assumption|]). split; [reflexivity|]. rewrite LK. split; [intros N3; apply AV1; cbn in N3; lia|exact BL1].
      + destruct HN as [HN|HN]; [|unfold len in HN; cbn [length] in HN; lia]. destruct (IH b1 T1 D1 SP1 O1 HE1 ltac:(rewrite HOs; apply AV1; unfold len in *; cbn [length] in *; lia) ltac:(lia) ltac:(left; lia)) as (b2 & T2 & E2 & D2 & SP2 & O2 & HE2 & OS2 & EN2 & AV2 & BL2). rewrite E2. cbn [bind]. rewrite EN in EN2.
        exists b2, T2. split; [reflexivity|]. do 4 (split; [assumption|]). split; [congruence|]. split; [rewrite EN2; destruct (deleted _ (k2 :: ks2)); reflexivity|]. split; [|exact BL2]. intros _. rewrite <- HOs. apply AV2. lia.
  Qed.
End Del4.
