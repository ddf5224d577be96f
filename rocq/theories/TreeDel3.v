(** Proofs: BinarySearchTree.delete keeps all links, parents too, unless the root has one child with children. *)
From Coq Require Import Sorting.Sorted.
From Verif Require Import Base TreeModel TreeModel2 TreeSpec TreeProofs TreeRotate TreeBst TreeTrav TreeQuery TreeLca TreeDel TreeHist TreeBalSpec TreeAvl TreeAvl2 TreeSim TreeDel2.

Section Del3.
  Context {D : Type}.
  Notation info := (info D). Notation node := (node D). Notation mem := (mem D). Notation bst := (bst D). Notation bt := (bt D). Notation ctx := (ctx D).
  Definition moved (y x : info) : info := with_key (k_key y) (with_data (k_data y) x).
  (** the node of N l i x r in c is taken out: the place where the tree changed, and the subtree there *)
  Inductive taken : ctx -> bt -> Z -> info -> bt -> ctx -> bt -> Prop :=
  | t_left c l i x : c <> Top -> taken c l i x E c l
  | t_right c i x r : c <> Top -> taken c E i x r c r
  | t_rootl i x j y : taken Top (N E j y E) i x E Top (N E i (moved y x) E)
  | t_rootr i x j y : taken Top E i x (N E j y E) Top (N E i (moved y x) E)
  | t_two c l i x fs j y s : l <> E -> taken c l i x (plugl fs (N E j y s)) (clefts (CR c l i (moved y x)) fs) s.
  Definition lone (T : bt) : Prop := match T with N E _ _ E => True | _ => False end.
  Lemma taken_ents c l i x r c1 S key : taken c l i x r c1 S -> k_key x = Some key -> ordered (infos (plug c (N l i x r))) -> ents (plug c1 S) = without key (ents (plug c (N l i x r))).
  Proof.
    intros T Ek HO. unfold ents at 2. rewrite infos_plug in *. cbn [infos] in *. rewrite <- app_assoc in *. cbn [app] in *. rewrite app_assoc in *. rewrite (without_mid key _ _ _ key Ek HO eq_refl). unfold ents. rewrite !map_app.
    destruct T; rewrite ?plug_clefts, ?infos_plug; cbn [plug]; rewrite ?infos_plug; cbn [infos cl cr app map]; rewrite ?infos_plugl, ?map_app; cbn [infos app map]; rewrite ?map_app, ?app_nil_r, <- ?app_assoc; cbn [app]; rewrite <- ?app_assoc; reflexivity.
  Qed.
  Lemma taken_nodes c l i x r c1 S : taken c l i x r c1 S -> nodes (plug c1 S) = nodes (plug c (N l i x r)) - 1.
  Proof.
    intros T. destruct T as [c l i x NT|c i x r NT|i x j y|i x j y|c l i x fs j y s NL].
    - pose proof (nodes_plug c l (N l i x E)) as Q. cbn [nodes] in Q. lia.
    - pose proof (nodes_plug c r (N E i x r)) as Q. cbn [nodes] in Q. lia.
    - reflexivity.
    - reflexivity.
    - rewrite plug_clefts. cbn [plug]. pose proof (nodes_plug c (N l i (moved y x) (plugl fs s)) (N l i x (plugl fs (N E j y s)))) as Q. pose proof (nodes_plugl fs s (N E j y s)) as Q2. cbn [nodes] in *. lia.
  Qed.
  Lemma lone_inv (T : bt) : lone T -> exists j y, T = N E j y E.
  Proof. destruct T as [|[|] j y [|]]; cbn; try tauto. eauto. Qed.
  Lemma set_arr_mem (b : bst) m a : set_arr (set_mem b m) a = set_arr b a.
  Proof. reflexivity. Qed.

  Lemma tget_root (m : mem) rt T : tree_at m rt T -> T <> E -> exists n, tget m rt = Ret n.
  Proof. destruct T as [|l i x r]; [congruence|]. intros ((A & _) & _ & ->) _. cbn [root]. rewrite (tget_ok _ _ _ A). eauto. Qed.
  Lemma tget_par (m : mem) rt (c : ctx) (S : bt) : tree_at m rt (plug c S) -> c <> Top -> exists n, tget m (cpar c) = Ret n.
  Proof. intros (HR & _) NT. apply rep_plug in HR as (HC & _). destruct c as [|c i x r|c l i x]; [congruence|..]; destruct HC as (A & _); cbn [cpar]; rewrite (tget_ok _ _ _ A); eauto. Qed.
  (** from the state m in which node j is bypassed to the end of the call *)
  Lemma finish (b : bst) T c1 S (m : mem) j n : slim b T -> tree_at m (b_root b) (plug c1 S) -> c1 <> Top -> len m = len (b_mem b) -> cell m j = Some n -> In j (idx T) -> ~ In j (idx (plug c1 S)) -> (forall i, In i (idx (plug c1 S)) -> In i (idx T)) -> nodes (plug c1 S) = nodes T - 1 -> len (b_mem b) <= 4 * (nodes T - 1) ->
    exists np nr arr b' c', tget m (cpar c1) = Ret np /\ tget m (b_root b) = Ret nr /\ aft_delete (mkaft m (a_num (b_arr b)) (a_last (b_arr b))) (Some j) = Ret (arr, None) /\ update_size (set_arr b arr) (cpar c1) = Ret b' /\ cpar c' = cpar c1 /\
      cz c1 c' /\ slim b' (plug c' S) /\ len (b_mem b') = len (b_mem b) /\ b_comp b' = b_comp b /\ b_os b' = b_os b.
  Proof.
    intros SP HT NT HL HC HJ HN HI EN HF. destruct (tget_par _ _ _ _ HT NT) as (np & Ep). destruct (tget_root _ _ _ HT (plug_ne2 _ _ NT)) as (nr & Er).
    destruct (s_drop_ok b T (plug c1 S) m j n SP HT HL HC HJ HN HI EN HF) as (arr & E1 & SP1 & L1). destruct (s_update_size _ _ _ SP1) as (b' & c' & E2 & SP2 & CZ & K).
    exists np, nr, arr, b', c'. do 4 (split; [assumption|]). split; [symmetry; apply (csim_facts _ _ (cz_sim _ _ CZ))|]. do 2 (split; [assumption|]). destruct K as (K1 & K2 & K3 & K4). split; [rewrite K4; exact L1|]. auto.
  Qed.
  Lemma delete_strong (b : bst) T key c l i x r : default b -> slim b T -> len (b_mem b) <= 4 * (nodes T - 1) -> search_parent b key = Ret (Some i, cpar c) -> T = plug c (N l i x r) ->
    (c = Top -> l = E -> lone r) -> (c = Top -> r = E -> lone l) ->
    exists b' c1 S c', delete_info b key = Ret (b', Some (cpar c')) /\ taken c l i x r c1 S /\ cz c1 c' /\ slim b' (plug c' S) /\ len (b_mem b') = len (b_mem b) /\ b_comp b' = b_comp b /\ b_os b' = b_os b.
  Proof.
    intros HD SP HL ES ET HO1 HO2. assert (HW := sl_at _ _ SP). rewrite ET in HW. assert (HC := sub_cell _ _ _ _ _ _ _ HW).
    unfold delete_info. rewrite ES. cbn [bind]. rewrite (tget_ok _ _ _ HC). cbn [bind n_left n_right].
    assert (NDT := proj1 (proj2 HW)). assert (HWR := proj1 HW). apply rep_plug in HWR as (HCR & _ & HL' & HR'). assert (NDc := NDT). rewrite nodup_cnt in NDc.
    (* one subtree S, the other one empty, and a parent *)
    assert (BYP : forall S, c <> Top -> (S = l /\ r = E \/ S = r /\ l = E) ->
      exists m1 m2 np nr arr b' c', relink (b_mem b) (cpar c) (Some i) (root S) = Ret m1 /\ (match root S with Some _ => tmod m1 (root S) (set_parent (cpar c)) | None => Ret m1 end) = Ret m2 /\
        tget m2 (cpar c) = Ret np /\ tget m2 (b_root b) = Ret nr /\ aft_delete (mkaft m2 (a_num (b_arr b)) (a_last (b_arr b))) (Some i) = Ret (arr, None) /\ update_size (set_arr b arr) (cpar c) = Ret b' /\ cpar c' = cpar c /\
        taken c l i x r c S /\ cz c c' /\ slim b' (plug c' S) /\ len (b_mem b') = len (b_mem b) /\ b_comp b' = b_comp b /\ b_os b' = b_os b).
    { intros S NT HS. assert (HCS : forall z, cnt z (idx S) = (cnt z (idx l) + cnt z (idx r))%nat) by (intros z; destruct HS as [[-> ->]|[-> ->]]; cbn [idx]; rewrite cnt_nil; lia).
      assert (HSR : rep (b_mem b) S (Some i)) by (destruct HS as [[-> _]|[-> _]]; assumption).
      destruct (bypass_ok _ _ _ _ _ _ _ S HW NT HSR HCS) as (m1 & m2 & E1 & E2 & HT & L1 & L2 & C1 & C2).
      destruct (bypass_idx c l i x r S NDT) as [NI II]; [intros z; rewrite HCS; lia|].
      assert (TK : taken c l i x r c S) by (destruct HS as [[-> ->]|[-> ->]]; constructor; exact NT).
      destruct (finish b T c S m2 i (mknode x (root l) (root r) (cpar c)) SP HT NT L2) as (np & nr & arr & b' & c' & X1 & X2 & X3 & X4 & X5 & X6 & X7 & X8 & X9 & X10).
      - rewrite C2. exact HC.
      - rewrite ET. apply (cnt_sub _ _ _ _ _ _ eq_refl).
      - exact NI.
      - rewrite ET. exact II.
      - rewrite ET. apply (taken_nodes _ _ _ _ _ _ _ TK).
      - exact HL.
      - exists m1, m2, np, nr, arr, b', c'. auto 20. }
    (* the root with a single leaf below it *)
    assert (ROOT : forall j y p, c = Top -> (l = N E j y E /\ r = E \/ r = N E j y E /\ l = E) -> cell (b_mem b) j = Some (mknode y None None p) ->
      exists m nr arr, tmod (b_mem b) (b_root b) (fun m => mknode (with_key (k_key y) (with_data (k_data y) (n_inf m))) None None None) = Ret m /\ tget m (b_root b) = Ret nr /\
        aft_delete (mkaft m (a_num (b_arr b)) (a_last (b_arr b))) (Some j) = Ret (arr, None) /\ taken c l i x r Top (N E i (moved y x) E) /\ slim (set_arr b arr) (N E i (moved y x) E) /\ len (a_data arr) = len (b_mem b)).
    { intros j y p -> HS HCj. cbn [plug cpar] in *. assert (ERT : b_root b = Some i) by (apply HW). rewrite ERT.
      match goal with |- context [tmod (b_mem b) (Some i) ?f] => destruct (tmod_step (b_mem b) i f _ HC) as (m1 & E1 & HC1 & F1) end. cbn [n_inf] in HC1. fold (moved y x) in HC1.
      assert (NIJ : i <> j) by (destruct HS as [[-> ->]|[-> ->]]; dj NDc).
      assert (TK : taken Top l i x r Top (N E i (moved y x) E)) by (destruct HS as [[-> ->]|[-> ->]]; constructor).
      assert (HT1 : tree_at m1 (b_root b) (N E i (moved y x) E)) by (split; [cbn [rep root]; auto|split; [repeat constructor; intros []|exact ERT]]).
      assert (NIn : ~ In j [i]) by (intros [X|[]]; congruence).
      destruct (s_drop_ok b T (N E i (moved y x) E) m1 j _ SP HT1 (proj1 F1) (frame_cell _ _ _ _ _ F1 NIn HCj)) as (arr & E3 & SP3 & L3).
      - rewrite ET. destruct HS as [[-> ->]|[-> ->]]; cbn; auto.
      - cbn. intros [X|[]]. congruence.
      - intros k Hk. rewrite ET. destruct HS as [[-> ->]|[-> ->]]; cbn in *; tauto.
      - rewrite ET. destruct HS as [[-> ->]|[-> ->]]; reflexivity.
      - exact HL.
      - exists m1, (mknode (moved y x) None None None), arr. split; [exact E1|]. split; [apply tget_ok; exact HC1|]. auto. }
    assert (TD : c = Top \/ c <> Top) by (destruct c; [left; reflexivity|right; discriminate..]).
    destruct l as [|ll li lx lr] eqn:El; destruct r as [|rl ri rx rr] eqn:Er; cbn [root].
    - (* a leaf *) destruct TD as [->|NT]; [exfalso; destruct (HO1 eq_refl eq_refl)|]. destruct (BYP E NT) as (m1 & m2 & np & nr & arr & b' & c' & E1 & E2 & X1 & X2 & X3 & X4 & X5 & X6 & X7 & X8 & X9); [left; auto|].
      cbn [root] in *. injection E2 as <-. destruct (cpar_ne c NT) as (jp & Ejp). rewrite Ejp in *. rewrite relink_unfold in E1. destruct (tget (b_mem b) (Some jp)) as [pn| |] eqn:Epn; cbn [bind] in E1 |- *; try discriminate. rewrite E1. cbn [bind set_mem b_mem b_arr a_data b_root a_num a_last]. rewrite X1, X2. cbn [bind]. rewrite X3. cbn [bind after_delete].
      rewrite ?set_arr_mem. rewrite X4. cbn [bind]. exists b', c, E, c'. rewrite X5. auto.
    - (* right child only *) destruct TD as [->|NT].
      + destruct (lone_inv _ (HO1 eq_refl eq_refl)) as (j & y & Ey). injection Ey as -> -> -> ->. assert (HCj := proj1 HR'). cbn [root] in HCj. cbn [cpar]. rewrite (tget_ok _ _ _ HCj). cbn [bind n_left n_right]. unfold n_key. cbn [n_inf]. destruct (ROOT j y (Some i) eq_refl) as (m & nr & arr & E1 & X1 & X2 & X3 & X4 & X5); [right; auto|exact HCj|].
        rewrite E1. cbn [bind set_mem b_mem b_arr a_data b_root a_num a_last]. rewrite X1. cbn [bind]. rewrite X2. cbn [bind]. rewrite ?set_arr_mem.
        exists (set_arr b arr), Top, (N E i (moved y x) E), Top. split; [reflexivity|]. split; [exact X3|]. split; [exact I|]. split; [exact X4|]. split; [exact X5|]. auto.
      + destruct (BYP (N rl ri rx rr) NT) as (m1 & m2 & np & nr & arr & b' & c' & E1 & E2 & X1 & X2 & X3 & X4 & X5 & X6 & X7 & X8 & X9); [right; auto|].
        cbn [root] in *. destruct (cpar_ne c NT) as (jp & Ejp). rewrite Ejp in *. rewrite relink_unfold in E1. destruct (tget (b_mem b) (Some jp)) as [pn| |] eqn:Epn; cbn [bind] in E1 |- *; try discriminate. rewrite E1. cbn [bind]. rewrite E2. cbn [bind set_mem b_mem b_arr a_data b_root a_num a_last]. rewrite X1, X2. cbn [bind]. rewrite X3. cbn [bind].
        rewrite ?set_arr_mem. rewrite X4. cbn [bind]. exists b', c, (N rl ri rx rr), c'. rewrite X5. auto.
    - (* left child only *) destruct TD as [->|NT].
      + destruct (lone_inv _ (HO2 eq_refl eq_refl)) as (j & y & Ey). injection Ey as -> -> -> ->. assert (HCj := proj1 HL'). cbn [root] in HCj. cbn [cpar]. rewrite (tget_ok _ _ _ HCj). cbn [bind n_left n_right]. unfold n_key. cbn [n_inf]. destruct (ROOT j y (Some i) eq_refl) as (m & nr & arr & E1 & X1 & X2 & X3 & X4 & X5); [left; auto|exact HCj|].
        rewrite E1. cbn [bind set_mem b_mem b_arr a_data b_root a_num a_last]. rewrite X1. cbn [bind]. rewrite X2. cbn [bind]. rewrite ?set_arr_mem.
        exists (set_arr b arr), Top, (N E i (moved y x) E), Top. split; [reflexivity|]. split; [exact X3|]. split; [exact I|]. split; [exact X4|]. split; [exact X5|]. auto.
      + destruct (BYP (N ll li lx lr) NT) as (m1 & m2 & np & nr & arr & b' & c' & E1 & E2 & X1 & X2 & X3 & X4 & X5 & X6 & X7 & X8 & X9); [left; auto|].
        cbn [root] in *. destruct (cpar_ne c NT) as (jp & Ejp). rewrite Ejp in *. rewrite relink_unfold in E1. destruct (tget (b_mem b) (Some jp)) as [pn| |] eqn:Epn; cbn [bind] in E1 |- *; try discriminate. rewrite E1. cbn [bind]. rewrite E2. cbn [bind set_mem b_mem b_arr a_data b_root a_num a_last]. rewrite X1, X2. cbn [bind]. rewrite X3. cbn [bind].
        rewrite ?set_arr_mem. rewrite X4. cbn [bind]. exists b', c, (N ll li lx lr), c'. rewrite X5. auto.
    - (* two children *) clear BYP ROOT HO1 HO2. rewrite <- El, <- Er in *. assert (NL : l <> E) by (rewrite El; discriminate). assert (NR : r <> E) by (rewrite Er; discriminate). assert (Eli : root l = Some li) by (rewrite El; reflexivity). change (Some ri) with (root (N rl ri rx rr)). rewrite <- Er. clear El Er.
      match goal with |- context [bind (while_loop ?f ?bd ?st0) _] => assert (W : wp (while_loop f bd st0) (fun o => exists fs j y s, r = plugl fs (N E j y s) /\ o = (Some j, cpar (clefts (CR c l i x) fs), negb (match fs with [] => true | _ => false end)))) end.
      { eapply (wp_while_g (fun n st => exists fs S, r = plugl fs S /\ S <> E /\ st = (root S, cpar (clefts (CR c l i x) fs), negb (match fs with [] => true | _ => false end)) /\ n = Z.to_nat (nodes S))).
        - intros n st (fs & S & Er & SE & -> & ->). destruct S as [|a j y s]; [congruence|]. assert (EF : plug c (N l i x r) = plug (clefts (CR c l i x) fs) (N a j y s)) by (rewrite Er, plug_clefts; reflexivity).
          assert (HW2 := HW). rewrite EF in HW2. cbn [root]. rewrite (tget_ok _ _ _ (sub_cell _ _ _ _ _ _ _ HW2)). cbn [bind n_left]. destruct a as [|al ai ax ar]; cbn [root].
          + cbn [wp]. exists fs, j, y, s. auto.
          + cbn [wp]. eexists. split; [|exists ((j, y, s) :: fs), (N al ai ax ar); split; [exact Er|]; split; [discriminate|]; split; [reflexivity|reflexivity]]. pose proof (nodes_nonneg al). pose proof (nodes_nonneg ar). pose proof (nodes_nonneg s). cbn [nodes]. lia.
        - exists [], r. split; [reflexivity|]. split; [exact NR|]. auto.
        - assert (H := fuel_ok _ _ _ HW). pose proof (nodes_plug_le c (N l i x r)). cbn [nodes] in *. pose proof (nodes_nonneg l). pose proof (nodes_nonneg r). lia. }
      apply wp_ex in W as (o & EW & fs & j & y & s & Er & ->). rewrite EW. cbn [bind].
      assert (EF : forall x0, plug c (N l i x0 r) = plug (clefts (CR c l i x0) fs) (N E j y s)) by (intros x0; rewrite Er, plug_clefts; reflexivity).
      assert (HW2 := HW). rewrite EF in HW2. rewrite (tget_ok _ _ _ (sub_cell _ _ _ _ _ _ _ HW2)). cbn [bind]. unfold n_key. cbn [n_inf].
      assert (EM : tmod (b_mem b) (Some i) (fun m => set_inf (with_key (k_key y)) (set_inf (with_data (k_data y)) m)) = tmod (b_mem b) (Some i) (set_inf (fun _ => moved y x))).
      { unfold tmod. rewrite (tget_ok _ _ _ HC). reflexivity. }
      rewrite EM. destruct (set_info_ok _ _ _ _ _ _ _ (moved y x) HW) as (m1 & E1 & HW1 & F1). rewrite E1. cbn [bind].
      rewrite EF in HW1. set (c2 := clefts (CR c l i (moved y x)) fs) in *. assert (NT : c2 <> Top) by (apply clefts_top; discriminate). assert (HCj := sub_cell _ _ _ _ _ _ _ HW1). rewrite (tget_ok _ _ _ HCj). cbn [bind n_right].
      assert (HWs := proj1 HW1). apply rep_plug in HWs as (HCR2 & _ & _ & HWs). assert (ND1 := proj1 (proj2 HW1)).
      destruct (bypass_ok _ _ _ _ _ _ _ s HW1 NT HWs ltac:(intros z; cbn [idx]; rewrite cnt_nil; lia)) as (m2 & m3 & E2 & E3 & HW3 & L2 & L3 & C2 & C3).
      assert (EPAR : cpar (clefts (CR c l i x) fs) = cpar c2) by (unfold c2; destruct fs as [|[[? ?] ?] ?]; reflexivity). rewrite EPAR.
      assert (FLG : (if negb (match fs with [] => true | _ => false end) then tmod m1 (cpar c2) (set_left (root s)) else tmod m1 (cpar c2) (set_right (root s))) = Ret m2).
      { rewrite <- E2, relink_unfold. destruct fs as [|[[fi fx] fr] fs']; cbn [negb].
        - unfold c2 in *. cbn [clefts cpar crep] in *. destruct HCR2 as (A & _). rewrite (tget_ok _ _ _ A). cbn [bind n_left]. rewrite Eli. cbn [oeqb]. replace (li =? j) with false; [reflexivity|]. symmetry. apply Z.eqb_neq. apply root_In in Eli. rewrite nodup_cnt in ND1. cbn [plug] in ND1. intros ->. dj ND1.
        - unfold c2 in *. cbn [clefts cpar crep] in *. destruct HCR2 as (A & _). rewrite (tget_ok _ _ _ A). cbn [bind n_left]. cbn [root oeqb]. rewrite Z.eqb_refl. reflexivity. }
      rewrite FLG. cbn [bind]. rewrite HCj in C2, C3. rewrite (tget_ok _ _ _ C2). cbn [bind n_right]. rewrite E3. cbn [bind].
      destruct (bypass_idx c2 E j y s s ND1 ltac:(intros z; cbn [idx]; lia)) as [NI II].
      assert (EIT : forall k, In k (idx (plug c2 (N E j y s))) <-> In k (idx T)). { intros k. unfold c2. rewrite <- EF, ET. rewrite !cnt_In, !cnt_plug. reflexivity. }
      assert (TK : taken c l i x r c2 s) by (rewrite Er; constructor; exact NL).
      destruct (finish b T c2 s m3 j _ SP HW3 NT ltac:(rewrite L3; apply F1) C3) as (np & nr & arr & b' & c' & X1 & X2 & X3 & X4 & X5 & X6 & X7 & X8 & X9 & X10).
      + apply EIT. apply (cnt_sub _ _ _ _ _ _ eq_refl).
      + exact NI.
      + intros k Hk. apply EIT, II, Hk.
      + rewrite ET. apply (taken_nodes _ _ _ _ _ _ _ TK).
      + exact HL.
      + unfold b_mem. cbn [set_mem b_arr a_data b_root a_num a_last]. rewrite X1, X2. cbn [bind]. rewrite X3. cbn [bind after_delete]. rewrite set_arr_mem, X4. cbn [bind]. exists b', c2, s, c'. rewrite X5. auto 10.
  Qed.
End Del3.
