(** Proofs: one delete of BinarySearchTree does to the tree what [st_cut] does, and leaves the cells [st_delete] says. *)
From Coq Require Import Sorting.Sorted.
From Verif Require Import Base TreeModel TreeModel2 TreeSpec TreeProofs TreeRotate TreeBst TreeTrav TreeQuery TreeLca TreeDel TreeHist TreeBalSpec TreeAvl TreeAvl2 TreeSim TreeTreap TreeSplay TreeRb TreeReins TreeMulti TreeDelSpec TreeDel2 TreeDel3 TreeDel4 TreeCompact TreeDel5 TreeRbDel TreeRbDel2 TreeSplaySpec TreeSplayDel TreeShapeSpec TreeHist2 TreeHist3 TreeShape.

Section Shape2.
  Context {D : Type}.
  Notation info := (info D). Notation node := (node D). Notation mem := (mem D). Notation bst := (bst D). Notation bt := (bt D). Notation ctx := (ctx D). Notation stree := (stree D).
  Definition outcome (b : bst) (T : bt) (key : Z) : Prop :=
    exists b' T', delete b key = Ret (b', true) /\ snug b' T' /\ skel T' = st_cut key (skel T) /\ b_comp b' = b_comp b /\ b_os b' = b_os b /\ len (b_mem b') = after_len (nodes T - 1) (b_mem b) /\ ents T' = without key (ents T) /\
      (b_os b = true -> sized T -> ~ (rkey T = Some key /\ nodes T = 2) -> sized T') /\ (b_root b = Some 0 -> b_root b' = Some 0).
  (** a leaf, or (unless the array is compacted) a node with one child, below the root *)
  Lemma shape_leaf (b : bst) c i x key : default b -> snug b (plug c (N E i x E)) -> ordered (infos (plug c (N E i x E))) -> k_key x = Some key -> c <> Top -> outcome b (plug c (N E i x E)) key.
  Proof.
    intros HD G HO Ek NT. assert (SP := sn_slim _ _ G). assert (HW := sl_at _ _ SP). assert (HC := sub_cell _ _ _ _ _ _ _ HW). destruct (search_at b c E i x E key HD HW HO Ek) as [ES _].
    unfold outcome, delete, delete_info. rewrite ES. cbn [bind]. rewrite (tget_ok _ _ _ HC). cbn [bind n_left n_right root].
    destruct (bypass_ok _ _ _ _ _ _ _ E HW NT I ltac:(intros z; cbn [idx]; rewrite cnt_nil; lia)) as (m1 & m2 & E1 & E2 & HT & L1 & _ & C1 & _). cbn [root] in E1, E2. injection E2 as <-.
    assert (CP := cpar_ne c NT). destruct CP as (jp & Ejp). assert (CC : exists c0 l0 x0 r0, plug c E = plug c0 (N l0 jp x0 r0)). { destruct c as [|c i0 x0 r0|c l0 i0 x0]; [congruence|..]; cbn [cpar] in Ejp; injection Ejp as ->; [exists c, E, x0, r0|exists c, l0, x0, E]; reflexivity. } destruct CC as (c0 & l0 & x0 & r0 & EP0).
    assert (Ep : tget m1 (Some jp) = Ret (mknode x0 (root l0) (root r0) (cpar c0))). { assert (H := HT). rewrite EP0 in H. apply tget_ok. apply (sub_cell _ _ _ _ _ _ _ H). }
    assert (RR : exists i1 l1 x1 r1, plug c E = plug Top (N l1 i1 x1 r1) /\ b_root b = Some i1 /\ tget m1 (b_root b) = Ret (mknode x1 (root l1) (root r1) None)). { assert (NE := plug_ne2 c E NT). assert (H := HT). destruct (plug c E) as [|l1 i1 x1 r1]; [congruence|]. exists i1, l1, x1, r1. assert (HR := proj2 (proj2 H)). cbn [root] in HR. split; [reflexivity|]. split; [exact HR|]. rewrite HR. apply tget_ok. apply (proj1 (proj1 H)). }
    destruct RR as (i1 & l1 & x1 & r1 & EP1 & ERT & Er). rewrite Ejp in *. rewrite relink_unfold in E1.
    destruct (tget (b_mem b) (Some jp)) as [pn| |] eqn:Epn; cbn [bind] in E1 |- *; try discriminate. rewrite E1. cbn [bind]. unfold b_mem. cbn [set_mem b_arr a_data b_root a_num a_last]. rewrite Ep, Er. cbn [bind]. unfold n_key. cbn [n_inf].
    assert (UU : forall k, used m1 k = used (b_mem b) k) by (destruct (oeqb (n_left pn) (Some i)); apply tmod_used in E1; tauto).
    assert (NDT := proj1 (proj2 HW)). assert (ENT := taken_ents _ _ _ _ _ _ _ key (t_left c E i x NT) Ek HO). assert (OT' : ordered (infos (plug c E))) by (eapply (ordered_without key); [exact HO|exact ENT]).
    assert (SK := skel_taken _ _ _ _ _ _ _ key (t_left c E i x NT) Ek (ordered_path _ _ _ _ _ _ HO Ek)).
    destruct (drop_more b _ (plug c E) m1 i _ G HT L1 UU ltac:(rewrite C1; exact HC)) as (arr & di & EA & LA & HA).
    - intros k. rewrite !cnt_In, !cnt_plug. cbn [idx app]. rewrite cnt_cons, cnt_nil. destruct (Z.eqb_spec k i) as [Y|Y]; split; intros H; [left; congruence|lia|right; lia|destruct H as [H|H]; [congruence|lia]].
    - intros H. rewrite nodup_cnt in NDT. specialize (NDT i). rewrite cnt_In, cnt_plug in H. rewrite cnt_plug in NDT. cbn [idx app] in *. rewrite cnt_cons, Z.eqb_refl in NDT. rewrite cnt_nil in *. lia.
    - pose proof (nodes_plug c E (N E i x E)) as Q. cbn [nodes] in Q. lia.
    - exact OT'.
    - apply plug_ne2. exact NT.
    - assert (GO : gone c E i x E c E i) by (left; auto 10). rewrite EA. cbn [bind]. destruct di as [d|]; cbn [after_delete].
      + destruct HA as (s & G1 & HD1 & S0). rewrite (HD1 _ _ _ _ _ EP0). cbn [bind]. rewrite (HD1 _ _ _ _ _ EP1). cbn [bind]. rewrite ?set_arr_mem. rewrite ERT in G1. cbn [option_map] in G1. rewrite ren_plug in G1.
        destruct (size_end (set_root (set_arr b arr) (Some (s i1))) b (renc s c) (ren s E) _ _ G1 eq_refl eq_refl eq_refl LA) as (b' & T' & X1 & X2 & X3 & X4 & X5 & X6 & X7 & X8 & X9). exists b', T'. rewrite ren_cpar, Ejp in X1. split; [exact X1|]. split; [exact X2|]. split; [rewrite X3, <- ren_plug, skel_ren; exact SK|]. split; [exact X4|]. split; [exact X5|]. split; [exact X6|]. rewrite X7, <- ren_plug. unfold ents at 1. rewrite ren_infos. split; [exact ENT|]. split; [|intros R0; rewrite X9; cbn [set_root b_root]; rewrite ERT in R0; injection R0 as ->; rewrite S0; reflexivity]. intros HOS HZ _. destruct (gone_sized _ _ _ _ _ _ _ _ GO HZ). apply X8; auto using renc_top, csized_ren, sized_ren.
      + cbn [bind]. rewrite ?set_arr_mem. destruct (size_end (set_arr b arr) b c E _ _ HA eq_refl eq_refl SK LA) as (b' & T' & X1 & X2 & X3 & X4 & X5 & X6 & X7 & X8 & X9). exists b', T'. rewrite Ejp in X1. rewrite ENT in X7. repeat (split; [assumption|]). split; [|intros R0; rewrite X9; exact R0]. intros HOS HZ _. destruct (gone_sized _ _ _ _ _ _ _ _ GO HZ). apply X8; assumption.
  Qed.
  Lemma shape_one (b : bst) c l i x r key : default b -> snug b (plug c (N l i x r)) -> ordered (infos (plug c (N l i x r))) -> k_key x = Some key -> c <> Top -> (l = E /\ r <> E \/ l <> E /\ r = E) -> 4 * (nodes (plug c (N l i x r)) - 1) >= len (b_mem b) -> outcome b (plug c (N l i x r)) key.
  Proof.
    intros HD G HO Ek NT HS HL. assert (SP := sn_slim _ _ G). assert (HW := sl_at _ _ SP). assert (HC := sub_cell _ _ _ _ _ _ _ HW). destruct (search_at b c l i x r key HD HW HO Ek) as [ES _].
    assert (exists S, taken c l i x r c S /\ S <> E /\ (forall z, cnt z (idx S) = (cnt z (idx l) + cnt z (idx r))%nat) /\ rep (b_mem b) S (Some i) /\ nodes (N l i x r) = nodes S + 1 /\ (match root l with Some _ => root l | None => root r end) = root S /\ (is_none (root l) = negb (is_none (root r))) /\ (S = l /\ r = E \/ S = r /\ l = E)) as (S & TK & SE & HI & HRS & HN & CH & ON & SLR).
    { assert (HWs := proj1 HW). apply rep_plug in HWs as (_ & _ & R1 & R2). destruct HS as [[-> HS]|[HS ->]].
      - exists r. split; [constructor; exact NT|]. split; [exact HS|]. split; [intros z; cbn [idx]; rewrite cnt_nil; lia|]. split; [exact R2|]. split; [cbn [nodes]; lia|]. destruct r; [congruence|auto].
      - exists l. split; [constructor; exact NT|]. split; [exact HS|]. split; [intros z; cbn [idx]; rewrite cnt_nil; lia|]. split; [exact R1|]. split; [cbn [nodes]; lia|]. destruct l; [congruence|auto]. }
    assert (Eri : exists ri, root S = Some ri) by (destruct S as [|? ri ? ?]; [congruence|exists ri; reflexivity]). destruct Eri as (ri & Eri).
    unfold outcome, delete, delete_info. rewrite ES. cbn [bind]. rewrite (tget_ok _ _ _ HC). cbn [bind n_left n_right].
    match goal with |- exists b' T', bind ?e _ = _ /\ _ => assert (EQ : e = (let child := match root l with Some _ => root l | None => root r end in
        match cpar c with
        | None => Raise TypeError
        | Some _ =>
          p <- tget (b_mem b) (cpar c) ;;
          t <- (if oeqb (n_left p) (Some i) then tmod (b_mem b) (cpar c) (set_left child) else tmod (b_mem b) (cpar c) (set_right child)) ;;
          t <- tmod t child (set_parent (cpar c)) ;;
          let b := set_mem b t in
          p <- tget t (cpar c) ;; rt <- tget t (b_root b) ;;
          ' (arr, new_indices) <- aft_delete (b_arr b) (Some i) ;;
          let b := set_arr b arr in
          ' (b, a) <- (match new_indices with
            | None => Ret (b, cpar c)
            | Some d =>
              pi <- odgetE d (n_key p) ;;
              t <- tmod (b_mem b) child (set_parent (Some pi)) ;;
              r <- odgetE d (n_key rt) ;;
              Ret (set_root (set_mem b t) (Some r), Some pi)
            end) ;;
          b <- update_size b a ;;
          Ret (b, Some a)
        end)) end.
    { destruct (cpar_ne c NT) as (jp & Ejp). rewrite Ejp. destruct (root l), (root r); cbn [is_none negb] in ON; try discriminate; reflexivity. }
    rewrite EQ. clear EQ. cbv zeta. rewrite CH, Eri.
    destruct (bypass_ok _ _ _ _ _ _ _ S HW NT HRS HI) as (m1 & m2 & E1 & E2 & HT & L1 & L2 & C1 & C2). rewrite Eri in E1, E2.
    destruct (cpar_ne c NT) as (jp & Ejp). assert (CC : exists c0 l0 x0 r0, plug c S = plug c0 (N l0 jp x0 r0)). { destruct c as [|c i0 x0 r0|c l0 i0 x0]; [congruence|..]; cbn [cpar] in Ejp; injection Ejp as ->; [exists c, S, x0, r0|exists c, l0, x0, S]; reflexivity. } destruct CC as (c0 & l0 & x0 & r0 & EP0).
    assert (Ep : tget m2 (Some jp) = Ret (mknode x0 (root l0) (root r0) (cpar c0))). { assert (H := HT). rewrite EP0 in H. apply tget_ok. apply (sub_cell _ _ _ _ _ _ _ H). }
    assert (RR : exists i1 l1 x1 r1, plug c S = plug Top (N l1 i1 x1 r1) /\ b_root b = Some i1 /\ tget m2 (b_root b) = Ret (mknode x1 (root l1) (root r1) None)). { assert (NE := plug_ne2 c S NT). assert (H := HT). destruct (plug c S) as [|l1 i1 x1 r1]; [congruence|]. exists i1, l1, x1, r1. assert (HR := proj2 (proj2 H)). cbn [root] in HR. split; [reflexivity|]. split; [exact HR|]. rewrite HR. apply tget_ok. apply (proj1 (proj1 H)). }
    destruct RR as (i1 & l1 & x1 & r1 & EP1 & ERT & Er). rewrite Ejp in *. rewrite relink_unfold in E1. rewrite ?Eri.
    destruct (tget (b_mem b) (Some jp)) as [pn| |] eqn:Epn; cbn [bind] in E1 |- *; try discriminate. rewrite E1. cbn [bind]. rewrite E2. cbn [bind]. unfold b_mem. cbn [set_mem b_arr a_data b_root a_num a_last]. rewrite Ep, Er. cbn [bind]. unfold n_key. cbn [n_inf].
    assert (UU : forall k, used m2 k = used (b_mem b) k). { intros k. assert (A1 : used m1 k = used (b_mem b) k) by (destruct (oeqb (n_left pn) (Some i)); apply tmod_used in E1; apply E1). apply tmod_used in E2. rewrite <- A1. apply E2. }
    assert (NDT := proj1 (proj2 HW)). assert (ENT := taken_ents _ _ _ _ _ _ _ key TK Ek HO). assert (OT' : ordered (infos (plug c S))) by (eapply (ordered_without key); [exact HO|exact ENT]).
    assert (SK := skel_taken _ _ _ _ _ _ _ key TK Ek (ordered_path _ _ _ _ _ _ HO Ek)).
    destruct (bypass_idx c l i x r S NDT ltac:(intros z; rewrite HI; lia)) as [NI II].
    assert (NN : nodes (plug c S) = nodes (plug c (N l i x r)) - 1) by (pose proof (nodes_plug c S (N l i x r)) as Q; lia).
    destruct (drop_more b _ (plug c S) m2 i _ G HT L2 UU ltac:(rewrite C2; exact HC)) as (arr & di & EA & LA & HA).
    - intros k. rewrite !cnt_In, !cnt_plug. cbn [idx]. rewrite cnt_app, cnt_cons, HI. destruct (Z.eqb_spec k i) as [Y|Y]; split; intros H; [left; congruence|lia|right; lia|destruct H as [H|H]; [congruence|lia]].
    - exact NI.
    - exact NN.
    - exact OT'.
    - apply plug_ne2. exact NT.
    - assert (DN : di = None). { clear - EA HL L2 NN HC C2 SP G. unfold aft_delete in EA. cbn [a_last a_data a_num] in EA. destruct (_ && _); [|congruence]. destruct (aget m2 i) as [[q|]| |]; cbn [bind] in EA; try congruence. destruct (aset m2 i None) as [m3| |] eqn:ES; cbn [bind] in EA; try discriminate. apply aset_len in ES. unfold aft_modify in EA. cbn [a_num a_data] in EA. rewrite (sl_num _ _ SP) in EA. rewrite ES, L2 in EA. rewrite (proj2 (Z.ltb_ge _ _)) in EA by lia. congruence. }
      subst di. assert (GO : gone c l i x r c S i) by (left; auto). rewrite EA. cbn [bind]. rewrite ?set_arr_mem. destruct (size_end (set_arr b arr) b c S _ _ HA eq_refl eq_refl SK LA) as (b' & T' & X1 & X2 & X3 & X4 & X5 & X6 & X7 & X8 & X9). exists b', T'. rewrite Ejp in X1. rewrite ENT in X7. repeat (split; [assumption|]). split; [|intros R0; rewrite X9; exact R0]. intros HOS HZ _. destruct (gone_sized _ _ _ _ _ _ _ _ GO HZ). apply X8; assumption.
  Qed.
  Lemma shape_two (b : bst) c l i x r key : default b -> snug b (plug c (N l i x r)) -> ordered (infos (plug c (N l i x r))) -> k_key x = Some key -> l <> E -> r <> E -> outcome b (plug c (N l i x r)) key.
  Proof.
    intros HD G HO Ek NL NR. assert (SP := sn_slim _ _ G). assert (HW := sl_at _ _ SP). assert (HC := sub_cell _ _ _ _ _ _ _ HW). destruct (search_at b c l i x r key HD HW HO Ek) as [ES _].
    unfold outcome, delete, delete_info. rewrite ES. cbn [bind]. rewrite (tget_ok _ _ _ HC). cbn [bind n_left n_right].
    assert (Eli : exists li, root l = Some li) by (destruct l as [|? li ? ?]; [congruence|exists li; reflexivity]). destruct Eli as (li & Eli). assert (Eri : exists ri, root r = Some ri) by (destruct r as [|? ri ? ?]; [congruence|exists ri; reflexivity]). destruct Eri as (ri & Eri). rewrite Eli, Eri. rewrite <- Eri.
    match goal with |- context [bind (while_loop ?f ?bd ?st0) _] => assert (W : wp (while_loop f bd st0) (fun o => exists fs j y s, r = plugl fs (N E j y s) /\ o = (Some j, cpar (clefts (CR c l i x) fs), negb (match fs with [] => true | _ => false end)))) end.
    { eapply (wp_while_g (fun n st => exists fs S, r = plugl fs S /\ S <> E /\ st = (root S, cpar (clefts (CR c l i x) fs), negb (match fs with [] => true | _ => false end)) /\ n = Z.to_nat (nodes S))).
      - intros n st (fs & S & Er & SE & -> & ->). destruct S as [|a j y s]; [congruence|]. assert (EF : plug c (N l i x r) = plug (clefts (CR c l i x) fs) (N a j y s)) by (rewrite Er, plug_clefts; reflexivity).
        assert (HW2 := HW). rewrite EF in HW2. cbn [root]. rewrite (tget_ok _ _ _ (sub_cell _ _ _ _ _ _ _ HW2)). cbn [bind n_left]. destruct a as [|al ai ax ar]; cbn [root].
        + cbn [wp]. exists fs, j, y, s. auto.
        + cbn [wp]. eexists. split; [|exists ((j, y, s) :: fs), (N al ai ax ar); split; [exact Er|]; split; [discriminate|]; split; [reflexivity|reflexivity]]. pose proof (nodes_nonneg al). pose proof (nodes_nonneg ar). pose proof (nodes_nonneg s). cbn [nodes]. lia.
      - exists [], r. split; [reflexivity|]. split; [exact NR|]. auto.
      - assert (H := fuel_ok _ _ _ HW). pose proof (nodes_plug_le c (N l i x r)). cbn [nodes] in *. pose proof (nodes_nonneg l). pose proof (nodes_nonneg r). lia. }
    apply wp_ex in W as (o & EW & fs & j & y & s & Er & ->). rewrite EW. cbn [bind].
    assert (EF : forall x0, plug c (N l i x0 r) = plug (clefts (CR c l i x0) fs) (N E j y s)) by (intros x0; rewrite Er, plug_clefts; reflexivity).
    assert (HW2 := HW). rewrite EF in HW2. rewrite (tget_ok _ _ _ (sub_cell _ _ _ _ _ _ _ HW2)). cbn [bind]. unfold n_key at 1. cbn [n_inf].
    assert (EM : tmod (b_mem b) (Some i) (fun m => set_inf (with_key (k_key y)) (set_inf (with_data (k_data y)) m)) = tmod (b_mem b) (Some i) (set_inf (fun _ => moved y x))).
    { unfold tmod. rewrite (tget_ok _ _ _ HC). reflexivity. }
    rewrite EM. destruct (set_info_ok _ _ _ _ _ _ _ (moved y x) HW) as (m1 & E1 & HW1 & F1). rewrite E1. cbn [bind].
    rewrite EF in HW1. set (c2 := clefts (CR c l i (moved y x)) fs) in *. assert (NT : c2 <> Top) by (apply clefts_top; discriminate). assert (HCj := sub_cell _ _ _ _ _ _ _ HW1). rewrite (tget_ok _ _ _ HCj). cbn [bind n_right].
    assert (HWs := proj1 HW1). apply rep_plug in HWs as (HCR2 & _ & _ & HWs). assert (ND1 := proj1 (proj2 HW1)).
    destruct (bypass_ok _ _ _ _ _ _ _ s HW1 NT HWs ltac:(intros z; cbn [idx]; rewrite cnt_nil; lia)) as (m2 & m3 & E2 & E3 & HW3 & L2 & L3 & C2 & C3).
    assert (EPAR : cpar (clefts (CR c l i x) fs) = cpar c2) by (unfold c2; destruct fs as [|[[? ?] ?] ?]; reflexivity). rewrite EPAR.
    assert (FLG : (if negb (match fs with [] => true | _ => false end) then tmod m1 (cpar c2) (set_left (root s)) else tmod m1 (cpar c2) (set_right (root s))) = Ret m2).
    { rewrite <- E2, relink_unfold. destruct fs as [|[[fi fx] fr] fs']; cbn [negb].
      - unfold c2 in *. cbn [clefts cpar crep] in *. destruct HCR2 as (A & _). rewrite (tget_ok _ _ _ A). cbn [bind n_left]. rewrite Eli. cbn [oeqb]. replace (li =? j) with false; [reflexivity|]. symmetry. apply Z.eqb_neq. apply root_In in Eli. rewrite nodup_cnt in ND1. cbn [plug] in ND1. intros ->. dj ND1.
      - unfold c2 in *. cbn [clefts cpar crep] in *. destruct HCR2 as (A & _). rewrite (tget_ok _ _ _ A). cbn [bind n_left]. cbn [root oeqb]. rewrite Z.eqb_refl. reflexivity. }
    rewrite FLG. cbn [bind]. rewrite HCj in C2, C3. rewrite (tget_ok _ _ _ C2). cbn [bind n_right]. rewrite E3. cbn [bind].
    destruct (bypass_idx c2 E j y s s ND1 ltac:(intros z; cbn [idx]; lia)) as [NI II].
    assert (EIT : forall k, In k (idx (plug c2 (N E j y s))) <-> In k (idx (plug c (N l i x r)))). { intros k. unfold c2. rewrite <- EF. rewrite !cnt_In, !cnt_plug. reflexivity. }
    assert (TK : taken c l i x r c2 s) by (rewrite Er; constructor; exact NL).
    assert (UU : forall k, used m3 k = used (b_mem b) k).
    { intros k. assert (A1 := proj2 (tmod_used _ _ _ _ E1) k). assert (A2 : used m2 k = used m1 k) by (destruct (negb _); apply tmod_used in FLG; apply FLG). assert (A3 : used m3 k = used m2 k) by (destruct (root s); [apply tmod_used in E3; apply E3|congruence]). congruence. }
    assert (ENT := taken_ents _ _ _ _ _ _ _ key TK Ek HO). assert (OT' : ordered (infos (plug c2 s))) by (eapply (ordered_without key); [exact HO|exact ENT]).
    assert (SK := skel_taken _ _ _ _ _ _ _ key TK Ek (ordered_path _ _ _ _ _ _ HO Ek)).
    destruct (cpar_ne c2 NT) as (jp & Ejp). assert (CC : exists c0 l0 x0 r0, plug c2 s = plug c0 (N l0 jp x0 r0)). { destruct c2 as [|c0 i0 x0 r0|c0 l0 i0 x0]; [congruence|..]; cbn [cpar] in Ejp; injection Ejp as ->; [exists c0, s, x0, r0|exists c0, l0, x0, s]; reflexivity. } destruct CC as (c0 & l0 & x0 & r0 & EP0).
    assert (Ep : tget m3 (Some jp) = Ret (mknode x0 (root l0) (root r0) (cpar c0))). { assert (H := HW3). rewrite EP0 in H. apply tget_ok. apply (sub_cell _ _ _ _ _ _ _ H). }
    assert (RR : exists i1 l1 x1 r1, plug c2 s = plug Top (N l1 i1 x1 r1) /\ b_root b = Some i1 /\ tget m3 (b_root b) = Ret (mknode x1 (root l1) (root r1) None)). { assert (NE := plug_ne2 c2 s NT). assert (H := HW3). destruct (plug c2 s) as [|l1 i1 x1 r1]; [congruence|]. exists i1, l1, x1, r1. assert (HR := proj2 (proj2 H)). cbn [root] in HR. split; [reflexivity|]. split; [exact HR|]. rewrite HR. apply tget_ok. apply (proj1 (proj1 H)). }
    destruct RR as (i1 & l1 & x1 & r1 & EP1 & ERT & Er1).
    unfold b_mem. cbn [set_mem b_arr a_data b_root a_num a_last]. rewrite Ejp, Ep, Er1. cbn [bind]. unfold n_key. cbn [n_inf].
    destruct (drop_more b _ (plug c2 s) m3 j _ G HW3 ltac:(rewrite L3; apply F1) UU C3) as (arr & di & EA & LA & HA).
    - intros k. rewrite <- EIT. rewrite !cnt_In, !cnt_plug. cbn [idx app]. rewrite cnt_cons. destruct (Z.eqb_spec k j) as [Y|Y]; split; intros H; [left; congruence|lia|right; lia|destruct H as [H|H]; [congruence|lia]].
    - exact NI.
    - apply (taken_nodes _ _ _ _ _ _ _ TK).
    - exact OT'.
    - apply plug_ne2. exact NT.
    - assert (GO : gone c l i x r c2 s j) by (right; split; [exact NL|]; exists fs, y; auto). rewrite EA. cbn [bind]. destruct di as [d|]; cbn [after_delete].
      + destruct HA as (t & G1 & HD1 & S0). rewrite (HD1 _ _ _ _ _ EP0). cbn [bind]. rewrite (HD1 _ _ _ _ _ EP1). cbn [bind]. rewrite ?set_arr_mem. rewrite ERT in G1. cbn [option_map] in G1. rewrite ren_plug in G1.
        destruct (size_end (set_root (set_arr b arr) (Some (t i1))) b (renc t c2) (ren t s) _ _ G1 eq_refl eq_refl eq_refl LA) as (b' & T' & X1 & X2 & X3 & X4 & X5 & X6 & X7 & X8 & X9). exists b', T'. rewrite ren_cpar, Ejp in X1. split; [exact X1|]. split; [exact X2|]. split; [rewrite X3, <- ren_plug, skel_ren; exact SK|]. split; [exact X4|]. split; [exact X5|]. split; [exact X6|]. rewrite X7, <- ren_plug. unfold ents at 1. rewrite ren_infos. split; [exact ENT|]. split; [|intros R0; rewrite X9; cbn [set_root b_root]; rewrite ERT in R0; injection R0 as ->; rewrite S0; reflexivity]. intros HOS HZ _. destruct (gone_sized _ _ _ _ _ _ _ _ GO HZ). apply X8; auto using renc_top, csized_ren, sized_ren.
      + cbn [bind]. rewrite ?set_arr_mem. destruct (size_end (set_arr b arr) b c2 s _ _ HA eq_refl eq_refl SK LA) as (b' & T' & X1 & X2 & X3 & X4 & X5 & X6 & X7 & X8 & X9). exists b', T'. rewrite Ejp in X1. rewrite ENT in X7. repeat (split; [assumption|]). split; [|intros R0; rewrite X9; exact R0]. intros HOS HZ _. destruct (gone_sized _ _ _ _ _ _ _ _ GO HZ). apply X8; assumption.
  Qed.
  Lemma shape_pair (b : bst) l i x r j y key : default b -> snug b (N l i x r) -> ordered (infos (N l i x r)) -> k_key x = Some key -> (l = N E j y E /\ r = E \/ r = N E j y E /\ l = E) -> outcome b (N l i x r) key.
  Proof.
    intros HD G HO Ek HS. assert (SP := sn_slim _ _ G). assert (HW := sl_at _ _ SP). assert (HC := sub_cell _ _ Top _ _ _ _ HW). destruct (search_at b Top l i x r key HD HW HO Ek) as [ES _].
    unfold outcome, delete, delete_info. rewrite ES. cbn [bind cpar]. rewrite (tget_ok _ _ _ HC). cbn [bind n_left n_right cpar].
    assert (ERT : b_root b = Some i) by (apply HW). assert (NDc := proj1 (proj2 HW)). rewrite nodup_cnt in NDc. assert (NIJ : i <> j) by (destruct HS as [[-> ->]|[-> ->]]; dj NDc).
    assert (HCj : cell (b_mem b) j = Some (mknode y None None (Some i))). { destruct HW as ((_ & A & B) & _). destruct HS as [[-> ->]|[-> ->]]; [apply A|apply B]. }
    assert (TK : taken Top l i x r Top (N E i (moved y x) E)) by (destruct HS as [[-> ->]|[-> ->]]; constructor). assert (ENT := taken_ents _ _ _ _ _ _ _ key TK Ek HO). cbn [plug] in ENT.
    assert (SK := skel_taken _ _ _ _ _ _ _ key TK Ek (conj (Forall_nil _) (Forall_nil _))). cbn [plug] in SK.
    match goal with |- exists b' T', bind ?e _ = _ /\ _ => assert (EQ : e = (c <- tget (b_mem b) (Some j) ;; t <- tmod (b_mem b) (b_root b) (fun m => mknode (with_key (n_key c) (with_data (k_data (n_inf c)) (n_inf m))) (n_left c) (n_right c) None) ;;
          rt <- tget t (b_root b) ;; ' (arr, new_indices) <- aft_delete (b_arr (set_mem b t)) (Some j) ;;
          b <- (match new_indices with None => Ret (set_arr (set_mem b t) arr) | Some d => r <- odgetE d (n_key rt) ;; Ret (set_root (set_arr (set_mem b t) arr) (Some r)) end) ;; Ret (b, Some None))) end.
    { destruct HS as [[-> ->]|[-> ->]]; reflexivity. }
    rewrite EQ. clear EQ. rewrite (tget_ok _ _ _ HCj). cbn [bind n_left n_right]. rewrite ERT. unfold n_key at 1. cbn [n_inf].
    match goal with |- context [tmod (b_mem b) (Some i) ?f] => destruct (tmod_step (b_mem b) i f _ HC) as (m1 & E1 & HC1 & F1) end. cbn [n_inf] in HC1. fold (moved y x) in HC1. rewrite E1. cbn [bind]. rewrite (tget_ok _ _ _ HC1). cbn [bind]. unfold n_key. cbn [n_inf set_mem b_arr].
    assert (HT1 : tree_at m1 (b_root b) (N E i (moved y x) E)) by (split; [cbn [rep root]; auto|split; [repeat constructor; intros []|exact ERT]]).
    assert (NIn : ~ In j [i]) by (intros [X|[]]; congruence).
    destruct (drop_more b _ (N E i (moved y x) E) m1 j _ G HT1 (proj1 F1) (fun k => proj2 (tmod_used _ _ _ _ E1) k) (frame_cell _ _ _ _ _ F1 NIn HCj)) as (arr & di & EA & LA & HA).
    - intros k. destruct HS as [[-> ->]|[-> ->]]; cbn; intuition congruence.
    - cbn. intros [X|[]]. congruence.
    - destruct HS as [[-> ->]|[-> ->]]; reflexivity.
    - eapply (ordered_without key); [exact HO|exact ENT].
    - discriminate.
    - rewrite EA. cbn [bind]. rewrite !set_arr_mem. destruct di as [d|]; cbn [bind].
      + destruct HA as (t & G1 & HD1 & S0). rewrite (HD1 Top E i (moved y x) E eq_refl). cbn [bind is_none negb]. rewrite ERT in G1. cbn [option_map] in G1. eexists. eexists. split; [reflexivity|]. split; [exact G1|]. split; [rewrite skel_ren; exact SK|]. split; [reflexivity|]. split; [reflexivity|]. split; [exact LA|]. split; [unfold ents at 1; rewrite ren_infos; exact ENT|]. split; [|intros R0; cbn [set_root b_root]; injection R0 as ->; rewrite S0; reflexivity]. intros _ _ NP. exfalso. apply NP. split; [exact Ek|]. destruct HS as [[-> ->]|[-> ->]]; reflexivity.
      + eexists. eexists. split; [reflexivity|]. split; [exact HA|]. split; [exact SK|]. split; [reflexivity|]. split; [reflexivity|]. split; [exact LA|]. split; [exact ENT|]. split; [|intros R0; cbn [set_arr set_mem b_root]; congruence]. intros _ _ NP. exfalso. apply NP. split; [exact Ek|]. destruct HS as [[-> ->]|[-> ->]]; reflexivity.
  Qed.
  Lemma splug_root key (c : ctx) : forall t : stree, c <> Top -> path_to key c -> exists l j d r, splug c t = Node l j d r /\ (key =? j) = false.
  Proof.
    induction c as [|c IH i x r|c IH l i x]; intros t NT HP; [congruence|..]; cbn [splug]; [apply path_CL in HP as [HP L]|apply path_CR in HP as [HP L]]; (assert (HD : {c = Top} + {c <> Top}) by (destruct c; [left; reflexivity|right; discriminate..]); destruct HD as [-> |HN]; [cbn [splug]; do 4 eexists; split; [reflexivity|lia]|apply IH; assumption]).
  Qed.
  Lemma without_less key (l : list (option Z * option D)) : In (Some key) (map fst l) -> len (without key l) < len l.
  Proof.
    assert (LE : forall l' : list (option Z * option D), len (without key l') <= len l'). { unfold without, len. induction l' as [|e l' IH]; cbn [filter]; [lia|]. destruct (negb _); cbn [length]; lia. }
    induction l as [|e l IH]; [intros []|]. cbn [map In]. unfold without in *. cbn [filter]. specialize (LE l). unfold len in *. intros [H|H].
    - rewrite H. cbn [oeqb]. rewrite Z.eqb_refl. cbn [negb length]. lia.
    - specialize (IH H). destruct (negb _); cbn [length]; lia.
  Qed.
  Definition stands (b : bst) (s : sstate D) (T : bt) : Prop := default b /\ snug b T /\ ordered (infos T) /\ T <> E /\ skel T = s_tree s /\ len (b_mem b) = s_cells s.
  Lemma shape_delete (b : bst) T s key : stands b s T -> deletable s key = true ->
    exists b' T', delete b key = Ret (b', match st_find key (s_tree s) with Some _ => true | None => false end) /\ stands b' (st_delete key s) T' /\ b_os b' = b_os b /\ (b_os b = true -> sized T -> swaps key s = false -> sized T') /\ (b_root b = Some 0 -> b_root b' = Some 0).
  Proof.
    intros (HD & G & HO & HE & SK & SL) CD. destruct (search_ok b T key HD (sl_at _ _ (sn_slim _ _ G)) HO HE) as (c & S & _ & ES & HK). assert (HK' := HK). destruct HK as (ET & HP & [-> | (l & i & x & r & -> & Ek)]).
    - assert (F : st_find key (s_tree s) = None) by (rewrite <- SK, ET, skel_plug, find_splug by exact HP; reflexivity). unfold delete, delete_info, st_delete. rewrite ES, F. cbn [bind root]. exists b, T. split; [reflexivity|]. split; [|auto]. repeat (split; [assumption|]). assumption.
    - subst T. assert (F := find_here c l i x r key Ek HP). assert (HN := skel_size (plug c (N l i x r))). assert (SK0 := skel_plug c (N l i x r)). rewrite SK in F, HN, SK0.
      assert (PAIR : forall T' : bt, nodes T' = 1 -> exists j y, T' = N E j y E).
      { intros [|a j y d]; cbn [nodes]; [lia|]. pose proof (nodes_nonneg a). pose proof (nodes_nonneg d). destruct a as [|a1 ai ax a2]; [|cbn [nodes] in *; pose proof (nodes_nonneg a1); pose proof (nodes_nonneg a2); lia]. destruct d as [|a1 ai ax a2]; [eauto|cbn [nodes] in *; pose proof (nodes_nonneg a1); pose proof (nodes_nonneg a2); lia]. }
      assert (ONE : (l = E /\ r <> E \/ l <> E /\ r = E) -> (match s_tree s with Node _ j _ _ => if key =? j then st_size (s_tree s) =? 2 else negb (compacting s) | Leaf => false end) = true -> outcome b (plug c (N l i x r)) key).
      { intros SH C2. assert (HDc : {c = Top} + {c <> Top}) by (destruct c; [left; reflexivity|right; discriminate..]). destruct HDc as [-> |NT].
        - cbn [plug splug] in *. rewrite SK0 in C2. cbn [skel] in C2. unfold kk in C2. rewrite Ek, Z.eqb_refl in C2. rewrite SK0 in HN. cbn [skel] in HN. unfold kk in HN. rewrite Ek in HN. cbn [nodes] in HN. rewrite HN in C2. destruct SH as [[-> SH]|[SH ->]]; cbn [nodes] in C2.
          + destruct (PAIR r ltac:(lia)) as (j & y & ->). apply (shape_pair b E i x _ j y key); auto.
          + destruct (PAIR l ltac:(lia)) as (j & y & ->). apply (shape_pair b _ i x E j y key); auto.
        - destruct (splug_root key c (skel (N l i x r)) NT HP) as (l0 & j0 & d0 & r0 & Q1 & Q2). rewrite SK0, Q1, Q2 in C2. unfold compacting in C2. rewrite HN in C2. apply shape_one; try assumption. rewrite SL. lia. }
      assert (OUT : outcome b (plug c (N l i x r)) key).
      { unfold deletable in CD. rewrite F in CD. destruct l as [|ll li lx lr] eqn:El; destruct r as [|rl ri rx rr] eqn:Err; cbn [skel is_leaf andb orb] in CD.
        - apply shape_leaf; try assumption. intros ->. cbn [plug nodes] in HN. lia.
        - apply ONE; [left; split; [reflexivity|discriminate]|exact CD].
        - apply ONE; [right; split; [discriminate|reflexivity]|exact CD].
        - apply shape_two; try assumption; discriminate. }
      assert (GE2 : 2 <= nodes (plug c (N l i x r))).
      { unfold deletable in CD. rewrite F in CD. pose proof (nodes_nonneg l). pose proof (nodes_nonneg r). pose proof (nodes_plug_le c (N l i x r)) as Q. cbn [nodes] in Q. destruct l as [|ll li lx lr]; [destruct r as [|rl ri rx rr]; [cbn [skel is_leaf andb orb] in CD; lia|]|]; cbn [nodes] in *; repeat match goal with H : context [nodes ?t] |- _ => lazymatch goal with _ : 0 <= nodes t |- _ => fail | _ => pose proof (nodes_nonneg t) end end; lia. }
      destruct OUT as (b' & T' & E1 & G' & SK' & K1 & K2 & LN & EN' & SZ & RZ). exists b', T'. rewrite F. split; [exact E1|]. split; [|split; [exact K2|split; [|exact RZ]]].
      2:{ intros HOS HZ NS. apply SZ; [exact HOS|exact HZ|]. intros [Q1 Q2]. unfold swaps in NS. rewrite HN, Q2 in NS. rewrite <- SK in NS. destruct (plug c (N l i x r)) as [|al ai ax ar]; [discriminate|]. cbn [rkey skel] in *. unfold kk in NS. rewrite Q1, Z.eqb_refl in NS. discriminate. }
      assert (NZ : nodes T' = nodes (plug c (N l i x r)) - 1 /\ ents T' = without key (ents (plug c (N l i x r)))) by (split; [|exact EN']; assert (Q2 := without_nodes _ T' key HO EN'); assert (Q3 := without_less key (ents (plug c (N l i x r)))); rewrite <- EN' in Q3; unfold ents at 2 3 in Q3; unfold len in Q3; rewrite !map_length in Q3; fold (len (infos T')) in Q3; fold (len (infos (plug c (N l i x r)))) in Q3; rewrite !infos_len in Q3; specialize (Q3 ltac:(unfold ents; rewrite infos_plug; cbn [infos]; rewrite !map_app; cbn [map]; rewrite !in_app_iff; cbn [In]; unfold ent at 3; cbn [fst]; rewrite Ek; auto)); lia).
      unfold stands, st_delete. rewrite F. cbn [s_tree s_cells]. split; [unfold default in *; congruence|]. split; [exact G'|]. split; [eapply (ordered_without key); [exact HO|apply NZ]|]. split; [intros ->; cbn [nodes] in NZ; lia|]. split; [rewrite SK', SK; reflexivity|].
      rewrite LN. unfold after_len, compacting. rewrite HN, SL. reflexivity.
  Qed.
End Shape2.
