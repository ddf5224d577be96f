(** Proofs: SplayTree.delete of a key that is neither the smallest nor the largest: the splayed node has two children. *)
From Coq Require Import Sorting.Sorted.
From Verif Require Import Base TreeModel TreeModel2 TreeSpec TreeProofs TreeRotate TreeBst TreeTrav TreeQuery TreeLca TreeDel TreeHist TreeBalSpec TreeAvl TreeAvl2 TreeSim TreeTreap TreeSplay TreeRb TreeReins TreeMulti TreeDelSpec TreeDel2 TreeDel3 TreeDel4 TreeCompact TreeDel5 TreeRbDel TreeRbDel2 TreeSplaySpec.

Section SplayDel.
  Context {D : Type}.
  Notation info := (info D). Notation node := (node D). Notation mem := (mem D). Notation bst := (bst D). Notation bt := (bt D). Notation ctx := (ctx D).
  Lemma snug_rot (f : mem -> option Z -> option Z -> option Z -> res (mem * option Z)) (b : bst) j k (T T' : bt) : snug b T ->
    (tree_at (b_mem b) (b_root b) T -> exists m' rt', f (b_mem b) (b_root b) (Some j) (Some k) = Ret (m', rt') /\ tree_at m' rt' T' /\ frame (b_mem b) m' (idx T)) ->
    (forall z, cnt z (idx T') = cnt z (idx T)) -> exists b', rot f b (Some j) (Some k) = Ret b' /\ snug b' T' /\ keepsb b b'.
  Proof.
    intros [SP TI LA] HF HC. destruct (s_rot_ok f b j k T T' SP HF HC) as (b' & E1 & SP' & K). exists b'. split; [exact E1|]. split; [|exact K]. unfold rot in E1. destruct (HF (sl_at _ _ SP)) as (m' & rt' & E2 & HT & F). rewrite E2 in E1. cbn [bind] in E1. injection E1 as <-.
    split; [exact SP'| |cbn [set_root set_mem b_arr b_mem a_last a_data]; rewrite (frame_len _ _ _ F); exact LA]. unfold b_mem in *. cbn [set_root set_mem b_arr a_last a_data] in *. intros i Hi U.
    rewrite cnt_In, HC, <- cnt_In. destruct (in_dec Z.eq_dec i (idx T)) as [Y|Y]; [exact Y|]. apply TI; [exact Hi|]. unfold used in *. rewrite (proj2 F i Y) in U. exact U.
  Qed.
  Lemma snug_rot_left_right (b : bst) (c : ctx) (a : bt) k xk (v : bt) i xi (w : bt) j xj (d : bt) : snug b (plug c (N (N a k xk (N v i xi w)) j xj d)) -> exists b', rot left_right_rotate b (Some j) (Some k) = Ret b' /\ snug b' (plug c (N (N a k xk v) i xi (N w j xj d))) /\ keepsb b b'.
  Proof. intros G. eapply snug_rot; [exact G|intros HT; apply (left_right_rotate_ok _ _ _ _ _ _ _ _ _ _ _ _ _ HT)|]. intros z. cnts. lia. Qed.
  Lemma snug_rot_right_left (b : bst) (c : ctx) (a : bt) k xk (v : bt) i xi (w : bt) j xj (d : bt) : snug b (plug c (N a j xj (N (N v i xi w) k xk d))) -> exists b', rot right_left_rotate b (Some j) (Some k) = Ret b' /\ snug b' (plug c (N (N a j xj v) i xi (N w k xk d))) /\ keepsb b b'.
  Proof. intros G. eapply snug_rot; [exact G|intros HT; apply (right_left_rotate_ok _ _ _ _ _ _ _ _ _ _ _ _ _ HT)|]. intros z. cnts. lia. Qed.
  Lemma sn_tget_at (b : bst) c l i x r : snug b (plug c (N l i x r)) -> tget (b_mem b) (Some i) = Ret (mknode x (root l) (root r) (cpar c)).
  Proof. intros G. apply s_tget_at, (sn_slim _ _ G). Qed.
  Lemma snug_neq (b : bst) (T : bt) : snug b T -> forall z, (cnt z (idx T) <= 1)%nat.
  Proof. intros G. apply nodup_cnt. apply (sl_at _ _ (sn_slim _ _ G)). Qed.
  Ltac ents_go EN1 := rewrite <- EN1; cbn [plug]; try apply ents_plug; rewrite ?ents_N; repeat (rewrite <- ?app_assoc; cbn [app]); reflexivity.
  Lemma splay_snug (b : bst) (c : ctx) (l : bt) s x (r : bt) : snug b (plug c (N l s x r)) ->
    exists b' l' r', splay b (Some s) (cpar c) = Ret b' /\ snug b' (N l' s x r') /\ ents (N l' s x r') = ents (plug c (N l s x r)) /\ keepsb b b'.
  Proof.
    intros G. unfold splay. remember (ents (plug c (N l s x r))) as EN eqn:EEN. symmetry in EEN.
    match goal with |- context [while_loop ?f ?bd ?s0] => assert (W : wp (while_loop f bd s0) (fun b' => exists l' r', snug b' (N l' s x r') /\ ents (N l' s x r') = EN /\ keepsb b b')) end.
    { eapply (wp_while_g (fun n st => exists c l r, n = clen c /\ snd st = cpar c /\ snug (fst st) (plug c (N l s x r)) /\ keepsb b (fst st) /\ ents (plug c (N l s x r)) = EN)) with (n := clen c).
      - clear c l r G EEN. intros n [b1 p] (c & l & r & -> & Ep & G & K & EN1). cbn [fst snd] in *. subst p. rewrite (sn_tget_at _ _ _ _ _ _ G). cbn [bind n_parent]. assert (ND := snug_neq _ _ G).
        assert (FIN : forall (c2 : ctx) (l2 r2 : bt) b2, (clen c2 < clen c)%nat -> snug b2 (plug c2 (N l2 s x r2)) -> keepsb b1 b2 -> ents (plug c2 (N l2 s x r2)) = EN ->
           wp (xn <- tget (b_mem b2) (Some s) ;; Ret (Next (b2, n_parent xn))) (fun r0 => match r0 with Next s' => exists n', (n' < clen c)%nat /\ exists c l r, n' = clen c /\ snd s' = cpar c /\ snug (fst s') (plug c (N l s x r)) /\ keepsb b (fst s') /\ ents (plug c (N l s x r)) = EN | Break b' => exists l' r', snug b' (N l' s x r') /\ ents (N l' s x r') = EN /\ keepsb b b' end)).
        { intros c2 l2 r2 b2 L G2 K2 EN2. rewrite (sn_tget_at _ _ _ _ _ _ G2). cbn [bind n_parent wp fst snd]. exists (clen c2). split; [exact L|]. exists c2, l2, r2. do 2 (split; [reflexivity|]). split; [exact G2|]. split; [eapply keepsb_trans; eassumption|exact EN2]. }
        destruct c as [|c j y q|c q j y]; cbn [cpar plug clen] in *; [cbn [wp]; eauto|..].
        + rewrite (sn_tget_at b1 c _ j y q G). cbn [bind n_parent]. destruct c as [|c g z w|c w g z]; cbn [cpar plug clen] in *.
          * unfold zig. rewrite (sn_tget_at b1 Top _ j y q G). cbn [bind n_left root]. rewrite oeqb_yes. destruct (snug_rot_right b1 Top l s x r j y q G) as (b2 & E2 & G2 & K2). rewrite E2. cbn [bind]. eapply (FIN Top); [cbn; lia|exact G2|exact K2|ents_go EN1].
          * rewrite (sn_tget_at b1 c _ g z w G). cbn [bind n_left n_right root]. rewrite !oeqb_yes. cbn [andb]. unfold zig_zig. rewrite (sn_tget_at b1 (CL c g z w) _ j y q G). cbn [bind n_parent cpar].
            destruct (snug_rot_right b1 c (N l s x r) j y q g z w G) as (b2 & E2 & G2 & K2). rewrite E2. cbn [bind]. destruct (snug_rot_right b2 c l s x r j y (N q g z w) G2) as (b3 & E3 & G3 & K3). rewrite E3. cbn [bind]. eapply (FIN c); [lia|exact G3|eapply keepsb_trans; eassumption|ents_go EN1].
          * rewrite (sn_tget_at b1 c w g z _ G). cbn [bind n_left n_right root]. rewrite !oeqb_yes. rewrite (oeqb_no (root w) (Some j)) by (intros X; apply root_In in X; dj ND). rewrite (oeqb_no (root q) (Some s)) by (intros X; apply root_In in X; dj ND). cbn [andb]. unfold zag_zig. rewrite (sn_tget_at b1 (CR c w g z) _ j y q G). cbn [bind n_parent cpar].
            destruct (snug_rot_right_left b1 c w j y l s x r g z q G) as (b2 & E2 & G2 & K2). rewrite E2. cbn [bind]. eapply (FIN c); [lia|exact G2|exact K2|ents_go EN1].
        + rewrite (sn_tget_at b1 c q j y _ G). cbn [bind n_parent]. destruct c as [|c g z w|c w g z]; cbn [cpar plug clen] in *.
          * unfold zig. rewrite (sn_tget_at b1 Top q j y _ G). cbn [bind n_left root]. rewrite oeqb_no by (intros X; apply root_In in X; dj ND). destruct (snug_rot_left b1 Top q s x l j y r G) as (b2 & E2 & G2 & K2). rewrite E2. cbn [bind]. eapply (FIN Top); [cbn; lia|exact G2|exact K2|ents_go EN1].
          * rewrite (sn_tget_at b1 c _ g z w G). cbn [bind n_left n_right root]. rewrite !oeqb_yes. rewrite (oeqb_no (root q) (Some s)) by (intros X; apply root_In in X; dj ND). rewrite (oeqb_no (root w) (Some j)) by (intros X; apply root_In in X; dj ND). cbn [andb]. unfold zig_zag. rewrite (sn_tget_at b1 (CL c g z w) q j y _ G). cbn [bind n_parent cpar].
            destruct (snug_rot_left_right b1 c q j y l s x r g z w G) as (b2 & E2 & G2 & K2). rewrite E2. cbn [bind]. eapply (FIN c); [lia|exact G2|exact K2|ents_go EN1].
          * rewrite (sn_tget_at b1 c w g z _ G). cbn [bind n_left n_right root]. rewrite !oeqb_yes. rewrite (oeqb_no (root q) (Some s)) by (intros X; apply root_In in X; dj ND). cbn [andb]. unfold zag_zag. rewrite (sn_tget_at b1 (CR c w g z) q j y _ G). cbn [bind n_parent cpar].
            destruct (snug_rot_left b1 c w j y q g z (N l s x r) G) as (b2 & E2 & G2 & K2). rewrite E2. cbn [bind]. destruct (snug_rot_left b2 c (N w g z q) s x l j y r G2) as (b3 & E3 & G3 & K3). rewrite E3. cbn [bind]. eapply (FIN c); [lia|exact G3|eapply keepsb_trans; eassumption|ents_go EN1].
      - exists c, l, r. split; [reflexivity|]. split; [reflexivity|]. split; [exact G|]. split; [apply keepsb_refl|exact EEN].
      - assert (HF := clen_fuel _ _ _ _ _ _ _ (sl_at _ _ (sn_slim _ _ G))). lia. }
    apply wp_ex in W as (b1 & E1 & l1 & r1 & G1 & EN1 & K1). rewrite E1. exists b1, l1, r1. auto.
  Qed.

  (** deleting a node with two children: the array may be renumbered *)
  Lemma delete_two (b : bst) c l i x r key : default b -> snug b (plug c (N l i x r)) -> ordered (infos (plug c (N l i x r))) -> k_key x = Some key -> l <> E -> r <> E ->
    exists b' T', delete b key = Ret (b', true) /\ snug b' T' /\ ents T' = without key (ents (plug c (N l i x r))) /\ b_comp b' = b_comp b /\ b_os b' = b_os b.
  Proof.
    intros HD G HO Ek NL NR. assert (SP := sn_slim _ _ G). assert (HW := sl_at _ _ SP). assert (HC := sub_cell _ _ _ _ _ _ _ HW). destruct (search_at b c l i x r key HD HW HO Ek) as [ES _].
    unfold delete, delete_info. rewrite ES. cbn [bind]. rewrite (tget_ok _ _ _ HC). cbn [bind n_left n_right].
    assert (Eli : exists li, root l = Some li) by (destruct l as [|? li ? ?]; [congruence|exists li; reflexivity]). destruct Eli as (li & Eli). assert (Eri : exists ri, root r = Some ri) by (destruct r as [|? ri ? ?]; [congruence|exists ri; reflexivity]). destruct Eri as (ri & Eri). rewrite Eli, Eri. rewrite <- Eri.
    match goal with |- context [bind (while_loop ?f ?bd ?st0) _] => assert (W : wp (while_loop f bd st0) (fun o => exists fs j y s, r = plugl fs (N E j y s) /\ o = (Some j, cpar (clefts (CR c l i x) fs), negb (match fs with [] => true | _ => false end)))) end.
    { eapply (wp_while_g (fun n st => exists fs S, r = plugl fs S /\ S <> E /\ st = (root S, cpar (clefts (CR c l i x) fs), negb (match fs with [] => true | _ => false end)) /\ n = Z.to_nat (nodes S))).
      - intros n st (fs & S & Er & SE & -> & ->). destruct S as [|a j y s]; [congruence|]. assert (EF : plug c (N l i x r) = plug (clefts (CR c l i x) fs) (N a j y s)) by (rewrite Er, plug_clefts; reflexivity).
        assert (HW2 := HW). rewrite EF in HW2. cbn [root]. rewrite (tget_ok _ _ _ (sub_cell _ _ _ _ _ _ _ HW2)). cbn [bind n_left]. destruct a as [|al ai ax ar]; cbn [root].
        + cbn [wp]. exists fs, j, y, s. auto.
        + cbn [wp]. eexists. split; [|exists ((j, y, s) :: fs), (N al ai ax ar); split; [exact Er|]; split; [discriminate|]; split; [reflexivity|reflexivity]]. pose proof (nodes_nonneg al). pose proof (nodes_nonneg ar). pose proof (nodes_nonneg s). cbn [nodes]. lia.
      - exists [], r. split; [reflexivity|]. split; [exact NR|]. auto.
      - assert (H := fuel_ok _ _ _ HW). pose proof (nodes_plug_le c (N l i x r)). cbn [nodes] in *. pose proof (nodes_nonneg l). pose proof (nodes_nonneg r). lia. }
    apply wp_ex in W as (o & EW & fs & j & y & s & Er & ->). rewrite EW. cbn [bind].
    assert (EF : forall x0, plug c (N l i x0 r) = plug (clefts (CR c l i x0) fs) (N E j y s)) by (intros x0; rewrite Er, plug_clefts; reflexivity).
    assert (HW2 := HW). rewrite EF in HW2. rewrite (tget_ok _ _ _ (sub_cell _ _ _ _ _ _ _ HW2)). cbn [bind]. unfold n_key at 1. cbn [n_inf].
    assert (EM : tmod (b_mem b) (Some i) (fun m => set_inf (with_key (k_key y)) (set_inf (with_data (k_data y)) m)) = tmod (b_mem b) (Some i) (set_inf (fun _ => moved y x))).
    { unfold tmod. rewrite (tget_ok _ _ _ HC). reflexivity. }
    rewrite EM. destruct (set_info_ok _ _ _ _ _ _ _ (moved y x) HW) as (m1 & E1 & HW1 & F1). rewrite E1. cbn [bind].
    rewrite EF in HW1. set (c2 := clefts (CR c l i (moved y x)) fs) in *. assert (NT : c2 <> Top) by (apply clefts_top; discriminate). assert (HCj := sub_cell _ _ _ _ _ _ _ HW1). rewrite (tget_ok _ _ _ HCj). cbn [bind n_right].
    assert (HWs := proj1 HW1). apply rep_plug in HWs as (HCR2 & _ & _ & HWs). assert (ND1 := proj1 (proj2 HW1)).
    destruct (bypass_ok _ _ _ _ _ _ _ s HW1 NT HWs ltac:(intros z; cbn [idx]; rewrite cnt_nil; lia)) as (m2 & m3 & E2 & E3 & HW3 & L2 & L3 & C2 & C3).
    assert (EPAR : cpar (clefts (CR c l i x) fs) = cpar c2) by (unfold c2; destruct fs as [|[[? ?] ?] ?]; reflexivity). rewrite EPAR.
    assert (FLG : (if negb (match fs with [] => true | _ => false end) then tmod m1 (cpar c2) (set_left (root s)) else tmod m1 (cpar c2) (set_right (root s))) = Ret m2).
    { rewrite <- E2, relink_unfold. destruct fs as [|[[fi fx] fr] fs']; cbn [negb].
      - unfold c2 in *. cbn [clefts cpar crep] in *. destruct HCR2 as (A & _). rewrite (tget_ok _ _ _ A). cbn [bind n_left]. rewrite Eli. cbn [oeqb]. replace (li =? j) with false; [reflexivity|]. symmetry. apply Z.eqb_neq. apply root_In in Eli. rewrite nodup_cnt in ND1. cbn [plug] in ND1. intros ->. dj ND1.
      - unfold c2 in *. cbn [clefts cpar crep] in *. destruct HCR2 as (A & _). rewrite (tget_ok _ _ _ A). cbn [bind n_left]. cbn [root oeqb]. rewrite Z.eqb_refl. reflexivity. }
    rewrite FLG. cbn [bind]. rewrite HCj in C2, C3. rewrite (tget_ok _ _ _ C2). cbn [bind n_right]. rewrite E3. cbn [bind].
    destruct (bypass_idx c2 E j y s s ND1 ltac:(intros z; cbn [idx]; lia)) as [NI II].
    assert (EIT : forall k, In k (idx (plug c2 (N E j y s))) <-> In k (idx (plug c (N l i x r)))). { intros k. unfold c2. rewrite <- EF. rewrite !cnt_In, !cnt_plug. reflexivity. }
    assert (TK : taken c l i x r c2 s) by (rewrite Er; constructor; exact NL).
    assert (UU : forall k, used m3 k = used (b_mem b) k).
    { intros k. assert (A1 := proj2 (tmod_used _ _ _ _ E1) k). assert (A2 : used m2 k = used m1 k) by (destruct (negb _); apply tmod_used in FLG; apply FLG). assert (A3 : used m3 k = used m2 k) by (destruct (root s); [apply tmod_used in E3; apply E3|congruence]). congruence. }
    assert (ENT := taken_ents _ _ _ _ _ _ _ key TK Ek HO). assert (OT' : ordered (infos (plug c2 s))) by (eapply (ordered_without key); [exact HO|exact ENT]).
    destruct (cpar_ne c2 NT) as (jp & Ejp). assert (CC : exists c0 l0 x0 r0, plug c2 s = plug c0 (N l0 jp x0 r0)). { destruct c2 as [|c0 i0 x0 r0|c0 l0 i0 x0]; [congruence|..]; cbn [cpar] in Ejp; injection Ejp as ->; [exists c0, s, x0, r0|exists c0, l0, x0, s]; reflexivity. } destruct CC as (c0 & l0 & x0 & r0 & EP0).
    assert (Ep : tget m3 (Some jp) = Ret (mknode x0 (root l0) (root r0) (cpar c0))). { assert (H := HW3). rewrite EP0 in H. apply tget_ok. apply (sub_cell _ _ _ _ _ _ _ H). }
    assert (RR : exists i1 l1 x1 r1, plug c2 s = plug Top (N l1 i1 x1 r1) /\ b_root b = Some i1 /\ tget m3 (b_root b) = Ret (mknode x1 (root l1) (root r1) None)). { assert (NE := plug_ne2 c2 s NT). assert (H := HW3). destruct (plug c2 s) as [|l1 i1 x1 r1]; [congruence|]. exists i1, l1, x1, r1. assert (HR := proj2 (proj2 H)). cbn [root] in HR. split; [reflexivity|]. split; [exact HR|]. rewrite HR. apply tget_ok. apply (proj1 (proj1 H)). }
    destruct RR as (i1 & l1 & x1 & r1 & EP1 & ERT & Er1).
    unfold b_mem. cbn [set_mem b_arr a_data b_root a_num a_last]. rewrite Ejp, Ep, Er1. cbn [bind]. unfold n_key. cbn [n_inf].
    destruct (drop_any b _ (plug c2 s) m3 j _ G HW3 ltac:(rewrite L3; apply F1) UU C3) as (arr & di & EA & HA).
    - intros k. rewrite <- EIT. rewrite !cnt_In, !cnt_plug. cbn [idx app]. rewrite cnt_cons. destruct (Z.eqb_spec k j) as [Y|Y]; split; intros H; [left; congruence|lia|right; lia|destruct H as [H|H]; [congruence|lia]].
    - exact NI.
    - apply (taken_nodes _ _ _ _ _ _ _ TK).
    - exact OT'.
    - apply plug_ne2. exact NT.
    - rewrite EA. cbn [bind].
      assert (FIN : forall b1 c1 s1, snug b1 (plug c1 s1) -> b_comp b1 = b_comp b -> b_os b1 = b_os b -> alike (plug c2 s) (plug c1 s1) ->
        exists b' T', (' (b, a) <- (b2 <- update_size b1 (cpar c1);; Ret (b2, Some (cpar c1)));; Ret (b, negb (is_none a))) = Ret (b', true) /\ snug b' T' /\ ents T' = without key (ents (plug c (N l i x r))) /\ b_comp b' = b_comp b /\ b_os b' = b_os b).
      { intros b1 c1 s1 [S1 S2 S3] K1 K2 AL. destruct (s_update_size b1 c1 s1 S1) as (b2 & c3 & E4 & SP3 & CZ & K). rewrite E4. cbn [bind is_none negb]. destruct (update_size_used _ _ _ E4) as (U1 & U2 & U3). destruct K as (K3 & K4 & _). exists b2, (plug c3 s1). assert (SM : sim (plug c1 s1) (plug c3 s1)) by (apply sim_plug; [apply cz_sim; exact CZ|apply sim_refl]).
        split; [reflexivity|]. split; [split; [exact SP3| |lia]|].
        - intros k Hk Uk. rewrite U3 in Uk. rewrite U1 in Hk. replace (idx (plug c3 s1)) with (idx (plug c1 s1)) by (apply (sim_facts _ _ SM)). apply S2; assumption.
        - split; [|split; congruence]. rewrite <- ENT. rewrite <- (proj1 AL). symmetry. apply sim_facts. exact SM. }
      destruct di as [d|]; cbn [after_delete].
      + destruct HA as (t & G1 & HD1). rewrite (HD1 _ _ _ _ _ EP0). cbn [bind]. rewrite (HD1 _ _ _ _ _ EP1). cbn [bind]. rewrite ?set_arr_mem. rewrite ERT in G1. cbn [option_map] in G1. rewrite ren_plug in G1.
        destruct (FIN (set_root (set_arr b arr) (Some (t i1))) (renc t c2) (ren t s) G1 eq_refl eq_refl) as (b' & T' & X1 & X2); [|exists b', T'; split; [|exact X2]; rewrite ren_cpar, Ejp in X1; exact X1].
        assert (R := alike_ren t (plug c2 s)). rewrite ren_plug in R. exact R.
      + cbn [bind]. rewrite ?set_arr_mem. destruct (FIN (set_arr b arr) c2 s HA eq_refl eq_refl) as (b' & T' & X1 & X2); [apply alike_sim, sim_refl|]. exists b', T'. split; [|exact X2]. rewrite Ejp in X1. exact X1.
  Qed.
  (** deleting the root of a tree of two nodes *)
  Lemma delete_pair (b : bst) l i x r j y key : default b -> snug b (N l i x r) -> ordered (infos (N l i x r)) -> k_key x = Some key -> (l = N E j y E /\ r = E \/ r = N E j y E /\ l = E) ->
    exists b' T', delete b key = Ret (b', true) /\ snug b' T' /\ ents T' = without key (ents (N l i x r)) /\ b_comp b' = b_comp b /\ b_os b' = b_os b.
  Proof.
    intros HD G HO Ek HS. assert (SP := sn_slim _ _ G). assert (HW := sl_at _ _ SP). assert (HC := sub_cell _ _ Top _ _ _ _ HW). destruct (search_at b Top l i x r key HD HW HO Ek) as [ES _].
    unfold delete, delete_info. rewrite ES. cbn [bind cpar]. rewrite (tget_ok _ _ _ HC). cbn [bind n_left n_right cpar].
    assert (ERT : b_root b = Some i) by (apply HW). assert (NDc := proj1 (proj2 HW)). rewrite nodup_cnt in NDc. assert (NIJ : i <> j) by (destruct HS as [[-> ->]|[-> ->]]; dj NDc).
    assert (HCj : cell (b_mem b) j = Some (mknode y None None (Some i))). { destruct HW as ((_ & A & B) & _). destruct HS as [[-> ->]|[-> ->]]; [apply A|apply B]. }
    assert (TK : taken Top l i x r Top (N E i (moved y x) E)) by (destruct HS as [[-> ->]|[-> ->]]; constructor). assert (ENT := taken_ents _ _ _ _ _ _ _ key TK Ek HO). cbn [plug] in ENT.
    match goal with |- exists b' T', bind ?e _ = _ /\ _ => assert (EQ : e = (c <- tget (b_mem b) (Some j) ;; t <- tmod (b_mem b) (b_root b) (fun m => mknode (with_key (n_key c) (with_data (k_data (n_inf c)) (n_inf m))) (n_left c) (n_right c) None) ;;
          rt <- tget t (b_root b) ;; ' (arr, new_indices) <- aft_delete (b_arr (set_mem b t)) (Some j) ;;
          b <- (match new_indices with None => Ret (set_arr (set_mem b t) arr) | Some d => r <- odgetE d (n_key rt) ;; Ret (set_root (set_arr (set_mem b t) arr) (Some r)) end) ;; Ret (b, Some None))) end.
    { destruct HS as [[-> ->]|[-> ->]]; reflexivity. }
    rewrite EQ. clear EQ. rewrite (tget_ok _ _ _ HCj). cbn [bind n_left n_right]. rewrite ERT. unfold n_key at 1. cbn [n_inf].
    match goal with |- context [tmod (b_mem b) (Some i) ?f] => destruct (tmod_step (b_mem b) i f _ HC) as (m1 & E1 & HC1 & F1) end. cbn [n_inf] in HC1. fold (moved y x) in HC1. rewrite E1. cbn [bind]. rewrite (tget_ok _ _ _ HC1). cbn [bind]. unfold n_key. cbn [n_inf set_mem b_arr].
    assert (HT1 : tree_at m1 (b_root b) (N E i (moved y x) E)) by (split; [cbn [rep root]; auto|split; [repeat constructor; intros []|exact ERT]]).
    assert (NIn : ~ In j [i]) by (intros [X|[]]; congruence).
    destruct (drop_any b _ (N E i (moved y x) E) m1 j _ G HT1 (proj1 F1) (fun k => proj2 (tmod_used _ _ _ _ E1) k) (frame_cell _ _ _ _ _ F1 NIn HCj)) as (arr & di & EA & HA).
    - intros k. destruct HS as [[-> ->]|[-> ->]]; cbn; intuition congruence.
    - cbn. intros [X|[]]. congruence.
    - destruct HS as [[-> ->]|[-> ->]]; reflexivity.
    - eapply (ordered_without key); [exact HO|exact ENT].
    - discriminate.
    - rewrite EA. cbn [bind]. rewrite !set_arr_mem. destruct di as [d|]; cbn [bind].
      + destruct HA as (t & G1 & HD1). rewrite (HD1 Top E i (moved y x) E eq_refl). cbn [bind is_none negb]. rewrite ERT in G1. cbn [option_map] in G1. eexists. eexists. split; [reflexivity|]. split; [exact G1|]. split; [unfold ents; rewrite ren_infos; exact ENT|]. auto.
      + eexists. eexists. split; [reflexivity|]. split; [exact HA|]. split; [exact ENT|]. auto.
  Qed.
  Lemma splay_delete_ok (b : bst) T key : default b -> snug b T -> ordered (infos T) -> T <> E -> safe (entries T) key ->
    exists b' T' f, splay_delete b key = Ret (b', f) /\ (f = true <-> In (Some key) (map fst (ents T))) /\ snug b' T' /\ ents T' = without key (ents T) /\ T' <> E /\ b_comp b' = b_comp b /\ b_os b' = b_os b.
  Proof.
    intros HD G HO HE HS. destruct (search_ok b T key HD (sl_at _ _ (sn_slim _ _ G)) HO HE) as (c & S & _ & ES & HK). unfold splay_delete. rewrite ES. cbn [bind]. assert (HK' := HK). destruct HK as (ET & HP & [-> | (l & i & x & r & -> & Ek)]).
    - cbn [root]. assert (AB := absent key T c HK'). exists b, T, false. split; [reflexivity|]. split.
      + split; [discriminate|]. intros H. exfalso. unfold ents in H. rewrite map_map, in_map_iff in H. destruct H as (x & H1 & H2). rewrite Forall_forall in AB. specialize (AB x H2). unfold kis in AB. unfold ent in H1. cbn [fst] in H1. rewrite H1 in AB. congruence.
      + split; [exact G|]. split; [symmetry; unfold ents; apply without_none; exact AB|]. auto 10.
    - cbn [root]. subst T. destruct (splay_snug b c l i x r G) as (b1 & l1 & r1 & E1 & G1 & EN1 & K1). rewrite E1. cbn [bind]. destruct K1 as (K1 & K2 & _ & _).
      assert (O1 : ordered (infos (N l1 i x r1))) by (eapply ordered_ents; [symmetry; exact EN1|exact HO]). assert (D1 : default b1) by (unfold default in *; congruence).
      assert (PRES : In (Some key) (map fst (ents (plug c (N l i x r))))). { unfold ents. rewrite infos_plug. cbn [infos]. rewrite !map_app. cbn [map]. rewrite !in_app_iff. cbn [In]. unfold ent at 3. cbn [fst]. rewrite Ek. auto. }
      assert (KEYS : forall k, In k (map fst (entries (plug c (N l i x r)))) <-> In (Some k) (map k_key (infos (N l1 i x r1)))).
      { intros k. assert (Q := ents_okeys _ HO). rewrite <- EN1 in Q. apply (f_equal (map fst)) in Q. unfold ents, okeys in Q. rewrite !map_map in Q. cbn [fst ent] in Q. replace (map k_key (infos (N l1 i x r1))) with (map (fun e => Some (fst e)) (entries (plug c (N l i x r)))) by (symmetry; exact Q). rewrite !in_map_iff. split; intros (e & A & B); exists e; split; congruence. }
      assert (LEN : len (entries (plug c (N l i x r))) = nodes (N l1 i x r1)) by (rewrite len_entries; symmetry; apply ents_nodes; exact EN1).
      assert (DONE : (exists b' T', delete b1 key = Ret (b', true) /\ snug b' T' /\ ents T' = without key (ents (N l1 i x r1)) /\ b_comp b' = b_comp b1 /\ b_os b' = b_os b1) -> nodes (N l1 i x r1) >= 2 ->
        exists b' T' f, delete b1 key = Ret (b', f) /\ (f = true <-> In (Some key) (map fst (ents (plug c (N l i x r))))) /\ snug b' T' /\ ents T' = without key (ents (plug c (N l i x r))) /\ T' <> E /\ b_comp b' = b_comp b /\ b_os b' = b_os b).
      { intros (b' & T' & A1 & A2 & A3 & A4 & A5) NN. exists b', T', true. split; [exact A1|]. split; [tauto|]. split; [exact A2|]. split; [congruence|]. split; [|split; congruence]. intros ->. assert (Q := without_nodes (N l1 i x r1) E key O1 A3). cbn [nodes] in *. lia. }
      apply DONE.
      + destruct HS as [HS|[[(a & A1 & A2) (d & B1 & B2)]|HS]].
        * exfalso. apply HS. apply KEYS. cbn [infos]. rewrite map_app, in_app_iff. cbn [map In]. auto.
        * apply (delete_two b1 Top l1 i x r1 key D1 G1 O1 Ek).
          -- intros ->. apply KEYS in A1. cbn [infos app map In] in A1. destruct (ordered_here Top E i x r1 O1) as (k & Ek' & _ & _ & _ & F). cbn [cr] in F. rewrite app_nil_r in F. assert (k = key) by congruence. subst k. destruct A1 as [A1|A1]; [assert (a = key) by congruence; lia|]. apply in_map_iff in A1 as (q & Q1 & Q2). rewrite Forall_forall in F. specialize (F q Q2). unfold kis in F. rewrite Q1 in F. lia.
          -- intros ->. apply KEYS in B1. cbn [infos app] in B1. rewrite map_app, in_app_iff in B1. cbn [map In] in B1. destruct (ordered_here Top l1 i x E O1) as (k & Ek' & _ & _ & F & _). cbn [cl app] in F. assert (k = key) by congruence. subst k. destruct B1 as [B1|[B1|[]]]; [|assert (d = key) by congruence; lia]. apply in_map_iff in B1 as (q & Q1 & Q2). rewrite Forall_forall in F. specialize (F q Q2). unfold kis in F. rewrite Q1 in F. lia.
        * rewrite LEN in HS. cbn [nodes] in HS. assert (SH : exists j y, l1 = N E j y E /\ r1 = E \/ r1 = N E j y E /\ l1 = E).
          { destruct l1 as [|a1 j1 y1 a2], r1 as [|a3 j2 y2 a4]; cbn [nodes] in HS; repeat match goal with H : context [nodes ?t] |- _ => lazymatch goal with _ : 0 <= nodes t |- _ => fail | _ => pose proof (nodes_nonneg t) end end; try lia.
            - exists j2, y2. right. destruct a3, a4; cbn [nodes] in HS; repeat match goal with H : context [nodes ?t] |- _ => lazymatch goal with _ : 0 <= nodes t |- _ => fail | _ => pose proof (nodes_nonneg t) end end; try lia; auto.
            - exists j1, y1. left. destruct a1, a2; cbn [nodes] in HS; repeat match goal with H : context [nodes ?t] |- _ => lazymatch goal with _ : 0 <= nodes t |- _ => fail | _ => pose proof (nodes_nonneg t) end end; try lia; auto. }
          destruct SH as (j & y & SH). apply (delete_pair b1 l1 i x r1 j y key D1 G1 O1 Ek SH).
      + rewrite <- LEN. destruct HS as [HS|[[(a & A1 & A2) (d & B1 & B2)]|HS]]; [|destruct (entries (plug c (N l i x r))) as [|e1 [|e2 ?]]; unfold len; cbn [map In fst length] in *; [tauto|lia|lia]|lia].
        exfalso. apply HS, KEYS. cbn [infos]. rewrite map_app, in_app_iff. cbn [map In]. auto.
  Qed.
  Lemma splay_deletes_ok ks : forall (b : bst) T, default b -> snug b T -> ordered (infos T) -> T <> E -> safe_all (entries T) ks ->
    exists b' T', delete_with splay_delete b ks = Ret (b', snd (deleted (entries T) ks)) /\ default b' /\ snug b' T' /\ ordered (infos T') /\ T' <> E /\ b_os b' = b_os b /\ entries T' = fst (deleted (entries T) ks).
  Proof.
    induction ks as [|k ks IH]; intros b T HD G HO HE HS; cbn [delete_with deleted safe_all] in *; [exists b, T; cbn [fst snd]; auto 12|]. destruct HS as [HS1 HS2].
    destruct (splay_delete_ok b T k HD G HO HE HS1) as (b1 & T1 & f & E1 & Hf & G1 & EE & HE1 & HC & HOs). rewrite E1. cbn [bind].
    assert (O1 : ordered (infos T1)) by (apply (ordered_without k (infos T)); assumption).
    assert (EN : entries T1 = filter (fun e => negb (fst e =? k)) (entries T)). { apply okeys_inj. rewrite <- ents_okeys, EE, ents_okeys, without_okeys by assumption. reflexivity. }
    rewrite <- EN in *. destruct (IH b1 T1 ltac:(unfold default in *; congruence) G1 O1 HE1 HS2) as (b2 & T2 & E2 & D2 & SP2 & O2 & HE2 & OS2 & EN2). rewrite E2. cbn [bind].
    destruct (deleted (entries T1) ks) as [l' fs]. cbn [fst snd] in *. exists b2, T2. split; [|split; [assumption|]; split; [assumption|]; split; [assumption|]; split; [assumption|]; split; [congruence|]; auto].
    f_equal. f_equal. f_equal. rewrite ents_okeys, has_okeys in Hf by assumption. destruct f, (existsb (fun e => fst e =? k) (entries T)); try reflexivity; [symmetry; apply Hf; reflexivity|apply Hf; reflexivity].
  Qed.
End SplayDel.
