(** Proofs: mixed histories on RedBlackTree. *)
From Coq Require Import Sorting.Sorted.
From Verif Require Import Base TreeModel TreeModel2 TreeSpec TreeProofs TreeRotate TreeBst TreeTrav TreeQuery TreeLca TreeDel TreeHist TreeBalSpec TreeAvl TreeAvl2 TreeSim TreeTreap TreeSplay TreeRb TreeReins TreeMulti TreeDelSpec TreeDel2 TreeDel3 TreeDel4 TreeDel5 TreeRbDel TreeRbDel2 TreeHist2Spec TreeHist2 TreeHist3 TreeMixSpec TreeMix TreeMix2 TreeMix3 TreeMix6 TreeMix7.

Section Mix8.
  Context {D : Type}.
  Notation info := (info D). Notation node := (node D). Notation mem := (mem D). Notation bst := (bst D). Notation bt := (bt D). Notation ctx := (ctx D).
  (** no cell outside of the tree is in use *)
  Definition full (b : bst) (T : bt) : Prop := forall i, what (b_mem b) i <> None -> In i (idx T).
  Lemma what_at (b : bst) c l i x r : slim b (plug c (N l i x r)) -> what (b_mem b) i = Some (ent x) /\ flag (b_mem b) i = k_isroot x.
  Proof. intros SP. unfold what, flag. rewrite (sub_cell _ _ _ _ _ _ _ (sl_at _ _ SP)). auto. Qed.
  Lemma top_dec (c : ctx) : {c = Top} + {c <> Top}.
  Proof. destruct c; [left; reflexivity|right; discriminate..]. Qed.
  Lemma mark_tree (b : bst) (T : bt) : slim b T -> full b T -> tail T -> marked T -> one_mark b /\ root_mark b.
  Proof.
    intros SP F TT MK. split.
    - intros i HF. assert (HI : In i (idx T)) by (apply F; intros X; unfold flag in HF; unfold what in X; destruct (cell (b_mem b) i); discriminate). destruct (In_plug T i HI) as (c & l & x & r & ->). rewrite (proj2 (what_at _ _ _ _ _ _ SP)) in HF. destruct (top_dec c) as [->|NT].
      + apply (sl_at _ _ SP).
      + apply tail_plug in TT as [_ TT]; [|exact NT]. apply allf_N in TT. destruct TT. congruence.
    - destruct T as [|l i x r]; [destruct MK|]. exists i. split; [apply (sl_at _ _ SP)|]. rewrite (proj2 (what_at b Top l i x r SP)). exact MK.
  Qed.
  Lemma infos_at (T : bt) y : In y (infos T) -> exists c l i r, T = plug c (N l i y r).
  Proof.
    induction T as [|l IHl j x r IHr]; cbn [infos]; [intros []|]. intros H. apply in_app_or in H as [H|[H|H]].
    - destruct (IHl H) as (c & l0 & i & r0 & ->). exists (ccomp c (CL Top j x r)), l0, i, r0. rewrite plug_comp. reflexivity.
    - subst x. exists Top, l, j, r. reflexivity.
    - destruct (IHr H) as (c & l0 & i & r0 & ->). exists (ccomp c (CR Top l j x)), l0, i, r0. rewrite plug_comp. reflexivity.
  Qed.
  Lemma tree_mark (b : bst) (T : bt) : slim b T -> T <> E -> one_mark b -> root_mark b -> tail T /\ marked T.
  Proof.
    intros SP NE O (i0 & R1 & R2). destruct T as [|l i x r]; [congruence|]. assert (HR := proj2 (proj2 (sl_at _ _ SP))). cbn [root] in HR. assert (i0 = i) by congruence. subst i0. split.
    - assert (SUB : forall c S y, plug c S = N l i x r -> c <> Top -> In y (infos S) -> k_isroot y = false).
      { intros c S y EP NT Hy. destruct (infos_at S y Hy) as (c1 & l1 & j & r1 & ->). rewrite <- plug_comp in EP. rewrite <- EP in SP. destruct (what_at _ _ _ _ _ _ SP) as [_ HF]. destruct (k_isroot y) eqn:EY; [|reflexivity]. apply O in HF.
        assert (X := not_root b _ (N l1 j y r1) j SP ltac:(destruct c1; cbn [ccomp]; [exact NT|discriminate..]) eq_refl). rewrite HF, oeqb_yes in X. discriminate. }
      split; apply Forall_forall; intros y Hy; [apply (SUB (CL Top i x r) l)|apply (SUB (CR Top l i x) r)]; try reflexivity; try discriminate; exact Hy.
    - cbn [marked]. rewrite <- (proj2 (what_at b Top l i x r SP)). exact R2.
  Qed.
  Record rbgood (b : bst) (T : bt) (s : mmap D) : Prop := { q_m : mgood b T s; q_tail : tail T; q_mark : marked T; q_black : black T; q_rb : exists n, rb T n; q_full : full b T }.

  (** ** insert *)
  Lemma used_tmod (t : mem) i f : lp (fun t' => forall z, what t' z <> None -> what t z <> None) (tmod t i f).
  Proof.
    intros t' ET z HZ. apply tmod_inv in ET as (j & n & -> & HC & HC' & HL & HF). destruct (Z.eq_dec z j) as [->|NE]; [unfold what; rewrite HC; discriminate|]. unfold what in *. rewrite HF in HZ by (intros [X|[]]; congruence). exact HZ.
  Qed.
  Lemma l_insert_used (b : bst) (T : bt) k d : holed b T -> lp (fun b1 => forall z, what (b_mem b1) z <> None -> what (b_mem b) z <> None \/ z = b_size b) (insert b k d).
  Proof.
    intros G. unfold insert. apply lp_any. intros r.
    assert (ONE : forall i f, lp (fun b1 => forall z, what (b_mem b1) z <> None -> what (b_mem b) z <> None \/ z = b_size b) (t <- tmod (b_mem b) i f ;; Ret (set_mem b t))). { intros i f. eapply lp_bind; [apply used_tmod|]. intros t H. apply lp_ret. intros z HZ. left. apply H. exact HZ. }
    destruct r as [r|]; [apply ONE|]. apply lp_any. intros rn. destruct (n_key rn) as [k0|]; [|apply ONE].
    apply (lp_bind _ (fun r => forall z, what (b_mem (fst r)) z <> None -> what (b_mem b) z <> None \/ z = b_size b)).
    - apply (lp_while (fun _ => True)); [|exact I]. intros [w pn] _. apply lp_any. intros n. apply lp_any. intros lt.
      destruct (o_append (b_arr b) (set_parent pn (new_node (Some k) d)) (b_size b) (nodes T) (o_num _ _ G) (o_last _ _ G) (o_cap _ _ G) (o_half _ _ G)) as (a & Ea & _ & _ & _ & A4 & A5).
      assert (APP : forall f (g : node -> option Z), lp (fun x : ctl (option Z * option Z) (bst * option Z) => match x with Next _ => True | Break r => forall z, what (b_mem (fst r)) z <> None -> what (b_mem b) z <> None \/ z = b_size b end) (a0 <- aft_append (b_arr b) (Some (set_parent pn (new_node (Some k) d))) ;; t <- tmod (a_data a0) w f ;; n0 <- tget t w ;; Ret (Break (set_bsize (set_mem (set_arr b a0) t) (b_size b + 1), g n0)))).
      { intros f g. rewrite Ea. cbn [bind]. eapply lp_bind; [apply used_tmod|]. intros t H. apply lp_any. intros n0. apply lp_ret. cbn [fst]. intros z HZ. apply H in HZ. destruct (Z.eq_dec z (b_size b)) as [->|NE]; [auto|left]. unfold what in *. rewrite A5 in HZ by exact NE. exact HZ. }
      destruct (negb lt); [destruct (n_right n)|destruct (n_left n)]; try (apply lp_ret; exact I); apply APP.
    - intros [b1 w] H. cbn [fst] in H. intros b2 EQ z HZ. apply H. destruct (l_update_size b1 w b2 EQ) as (HH & _). rewrite <- (h_what _ _ HH). exact HZ.
  Qed.
  Lemma cz_tail (c : ctx) : forall c' (S S' : bt), cz c c' -> c <> Top -> tail (plug c S) -> allf S' -> tail (plug c' S').
  Proof.
    intros c' S S' CZ NT TT A. assert (NT' : c' <> Top) by (intros X; apply NT; apply (csim_facts c c' (cz_sim _ _ CZ)); exact X). apply tail_plug; [exact NT'|]. apply tail_plug in TT as [TT _]; [|exact NT]. split; [|exact A]. clear NT NT' A S S'. revert c' CZ TT.
    induction c as [|c IH i x r|c IH l i x]; intros [|c' i' x' r'|c' l' i' x'] CZ; cbn [cz ctail] in *; try tauto; destruct CZ as (-> & (z & ->) & -> & CZ); intros (A & B & C); (split; [exact A|]); (split; [|apply IH; assumption]); intros X; apply B; intros ->; apply X; destruct c'; cbn [cz] in CZ; tauto.
  Qed.
  Lemma cz_idx (c c' : ctx) (S : bt) : cz c c' -> idx (plug c' S) = idx (plug c S).
  Proof. intros CZ. rewrite <- !zents_idx, (cz_zents c c' S CZ). reflexivity. Qed.
  Lemma r_insert (b : bst) (T : bt) s k d : rbgood b T s -> is_key (m_ents s) k = false -> exists (b' : bst) (T' : bt), rb_insert b k d = Ret b' /\ rbgood b' T' (m_put k d s) /\ b_os b' = b_os b.
  Proof.
    intros [G TT MK BK (n & RR) FU] KF. destruct (m_insert b T s k d G) as (b1 & T1 & E1 & O1 & R1 & G1 & Z1 & [(_ & Hs & c & c' & z & HK & NT & CZ & ET)|(KT & _)]); [|congruence]. unfold rb_insert. rewrite E1. cbn [bind]. destruct HK as (ET0 & _).
    assert (SP := holed_slim _ _ (mg_h _ _ _ G1)). subst T1. set (x := with_size z (new_info (Some k) d)) in *. destruct (search_at b1 c' E (b_size b) x E k (mg_def _ _ _ G1) (o_at _ _ (mg_h _ _ _ G1)) (mg_ord _ _ _ G1) eq_refl) as [_ ES]. rewrite ES. cbn [bind]. rewrite (s_tget_at _ _ _ _ _ _ SP). cbn [bind].
    destruct (s_on_mem_info b1 c' E (b_size b) x E (fun _ => mkinfo (Some k) d 0 1 false None (Some 1)) SP) as (b2 & E2 & SP2 & K2 & R2).
    change (fun t => tmod t (Some (b_size b)) (rb_node k d)) with (fun t : mem => tmod t (Some (b_size b)) (set_inf (fun _ => mkinfo (Some k) d 0 1 false None (Some 1)))). rewrite E2. cbn [bind n_inf x with_size new_info k_isroot].
    assert (L2 := l_on_mem (a_last (b_arr b1)) _ b1 eq_refl b2 E2). set (y := mkinfo (Some k) d 0 1 false None (Some 1)) in *. set (T2 := plug c' (N E (b_size b) y E)) in *.
    assert (ZE2 : zents T2 = zents (plug c' (N E (b_size b) x E))) by (unfold T2; apply zents_plug; rewrite !zents_N; reflexivity).
    assert (G2 : mgood b2 T2 (m_put k d s)) by exact (m_move b1 _ _ b2 T2 G1 SP2 ZE2 K2 L2).
    assert (ALY : allf (N E (b_size b) y E)) by (apply allf_N; split; [reflexivity|]; split; constructor).
    rewrite ET0 in TT, MK, BK, RR, FU.
    assert (T2t : tail T2) by (unfold T2; eapply cz_tail; eassumption).
    assert (M2 : marked T2) by (unfold T2; apply (cz_marked c c' E _ CZ NT MK)).
    assert (F2 : full b2 T2).
    { intros i Hi. assert (Hi1 : what (b_mem b1) i <> None). { unfold on_mem in E2. destruct (tmod (b_mem b1) (Some (b_size b)) (set_inf (fun _ => y))) as [t| |] eqn:EM; cbn [bind] in E2; try discriminate. injection E2 as <-. apply (used_tmod _ _ _ t EM i Hi). }
      assert (HI : In i (idx (plug c E)) \/ i = b_size b). { destruct (l_insert_used b T k d (mg_h _ _ _ G) b1 E1 i Hi1) as [X|X]; [left; apply FU; exact X|auto]. }
      unfold T2. rewrite (cz_idx _ _ _ CZ). rewrite cnt_In, cnt_plug in *. cbn [idx app] in *. rewrite cnt_cons. destruct HI as [HI|HI]; [lia|]. rewrite HI, Z.eqb_refl. lia. }
    destruct (mark_tree b2 T2 SP2 F2 T2t M2) as [OM RM].
    destruct (rb_unplug c E n RR BK) as (m & HC & HE & _). cbn [rb] in HE. subst m. apply (crb_sim _ _ _ (cz_sim _ _ CZ)) in HC.
    assert (NT' : c' <> Top) by (intros X; apply NT; apply (csim_facts c c' (cz_sim _ _ CZ)); exact X).
    rewrite (z_parent_at _ _ _ _ _ _ SP2). cbn [bind]. destruct (cpar_color c' 0 NT' HC) as (c1 & p & w & q & Ep & EC & HY). rewrite Ep.
    assert (RP : exists v, is_red (b_mem b2) (Some p) = Ret (v =? 1) /\ k_color w = Some v).
    { destruct HY as [HY|HY]; rewrite HY; [exists 0|exists 1]; (split; [|reflexivity]); unfold T2 in SP2; destruct EC as [-> | ->]; cbn [plug] in SP2; eapply z_is_red_at; eassumption. }
    destruct RP as (v & -> & Hv). cbn [bind]. destruct K2 as (K21 & K2'). destruct (v =? 1) eqn:Ev.
    - destruct (z_fix_insert_ok b2 c' E (b_size b) y E 0 SP2 T2t HC eq_refl eq_refl eq_refl I I) as (b3 & T3 & n3 & E3 & G3 & R3 & BK3 & T3t & EN3 & K3).
      destruct (ok_fix_insert true b2 b2 (Some (b_size b)) (conj (held_refl b2) (conj OM (fun _ => RM))) b3 E3) as (H3 & OM3 & RM3). specialize (RM3 eq_refl).
      assert (G3m := m_move b2 T2 _ b3 T3 G2 G3 EN3 K3 (h_last _ _ H3)). exists b3, T3. split; [exact E3|]. split; [|destruct K3 as (K31 & _); congruence].
      split; [exact G3m|exact T3t|apply (tree_mark b3 T3 G3 (mg_ne _ _ _ G3m) OM3 RM3)|exact BK3|eauto|]. intros i Hi. rewrite (h_what _ _ H3) in Hi. rewrite <- zents_idx, EN3, zents_idx. apply F2. exact Hi.
    - exists b2, T2. split; [reflexivity|]. split; [|congruence].
      assert (CB : cblack c'). { destruct HY as [HY|HY]; [destruct EC as [-> | ->]; exact HY|]. rewrite Hv in HY. injection HY as ->. discriminate. }
      split; [exact G2|exact T2t|exact M2| | |exact F2].
      + assert (HS : sim (plug c E) (plug c' E)) by (apply sim_plug; [apply cz_sim; exact CZ|exact I]). apply (black_sim _ _ HS) in BK. apply (black_plug c' NT' _ _ BK).
      + destruct (rb_plug c' (N E (b_size b) y E) 0 HC) as (m & M & _); [cbn; auto 10|right; exact CB|]. exists m. exact M.
  Qed.
  (** ** delete *)
  Lemma l_conj {A} (P Q : A -> Prop) r : lp P r -> lp Q r -> lp (fun x => P x /\ Q x) r.
  Proof. intros H1 H2 x EQ. split; auto. Qed.
  (** what a delete does to the cells: the cell w, with the key kw, is emptied *)
  Definition removed (b : bst) (i w : Z) (b' : bst) : Prop :=
    one_mark b' /\ (a_num (b_arr b') = a_num (b_arr b) \/
      (b_size b' = b_size b /\ a_last (b_arr b') = last_after b w /\ what (b_mem b') w = None /\ (forall z, what (b_mem b') z <> None -> what (b_mem b) z <> None) /\ forall z, z <> w -> z <> i -> what (b_mem b') z = what (b_mem b) z)).
  Lemma cut_removed b i w b' : cut w b b' -> removed b i w b'.
  Proof.
    intros (O & [[X1 X2 X3]|X]); split; auto. right. split; [exact X3|]. split; [exact X2|]. split; [rewrite X1, Z.eqb_refl; reflexivity|]. split; intros z; rewrite X1; [destruct (z =? w); congruence|]. intros NE _. apply Z.eqb_neq in NE. rewrite NE. reflexivity.
  Qed.
  Lemma find_skip {A} (f : A -> bool) l l' : (forall x, In x l -> f x = false) -> find f (l ++ l') = find f l'.
  Proof. induction l as [|x l IH]; intros H; [reflexivity|]. cbn [app find]. rewrite (H x (or_introl eq_refl)). apply IH. intros z Hz. apply H. right. exact Hz. Qed.
  Lemma l_delete (b : bst) c l i x r k n : default b -> slim b (plug c (N l i x r)) -> full b (plug c (N l i x r)) -> tail (plug c (N l i x r)) -> marked (plug c (N l i x r)) -> black (plug c (N l i x r)) -> rb (plug c (N l i x r)) n ->
    ordered (infos (plug c (N l i x r))) -> k_key x = Some k -> 3 <= nodes (plug c (N l i x r)) -> len (b_mem b) <= 4 * (nodes (plug c (N l i x r)) - 1) ->
    exists w kw, In (w, Some kw) (zk (plug c (N l i x r))) /\ (kw = k \/ prev_key (entries (plug c (N l i x r))) k = Some kw) /\ lp (fun r => removed b i w (fst r)) (rb_delete b k).
  Proof.
    intros HD SP FU TT MK BK RB HO Ek H3 HL. destruct (search_at b c l i x r k HD (sl_at _ _ SP) HO Ek) as [_ ES]. unfold rb_delete. rewrite ES. cbn [bind].
    destruct (mark_tree b _ SP FU TT MK) as [OM _]. assert (RM : forall (b1 : bst) c1 l1 j y r1, slim b1 (plug c1 (N l1 j y r1)) -> len (b_mem b1) <= 4 * (nodes (plug c1 (N l1 j y r1)) - 1) -> room b1 j).
    { intros b1 c1 l1 j y r1 SP1 HL1. split; [rewrite (proj1 (what_at _ _ _ _ _ _ SP1)); discriminate|]. split; [|rewrite (sl_num _ _ SP1); exact HL1]. apply (sl_idx _ _ SP1). rewrite cnt_In, cnt_plug. cbn [idx]. rewrite cnt_app, cnt_cons, Z.eqb_refl. lia. }
    assert (ZI : In (i, Some k) (zk (plug c (N l i x r)))) by (rewrite zk_plug, zk_N, !in_app_iff, Ek; cbn [In]; auto).
    assert (TWO : (l <> E /\ r <> E) \/ ((l = E \/ r = E) /\ c <> Top)).
    { assert (DL : l = E \/ l <> E) by (destruct l; [left; reflexivity|right; discriminate]). assert (DR : r = E \/ r <> E) by (destruct r; [left; reflexivity|right; discriminate]).
      destruct DL as [DL|DL], DR as [DR|DR]; auto; right; (split; [auto|]); intros ->; cbn [plug black] in *; (destruct RB as [(_ & RL & RR)|(X & _)]; [|congruence]); exfalso.
      - subst l r. cbn [nodes] in H3. lia.
      - subst l. cbn [rb] in RL. rewrite RL in RR. destruct (rb_zero r RR) as [X|(j & y & X & _)]; subst r; cbn [nodes] in H3; lia.
      - subst r. cbn [rb] in RR. rewrite RR in RL. destruct (rb_zero l RL) as [X|(j & y & X & _)]; subst l; cbn [nodes] in H3; lia. }
    destruct TWO as [(NL & NR)|(NO & NT)].
    - (* two children *)
      assert (KD : kids_of (b_mem b) (Some i) = Ret (root l, root r)) by apply (s_kids _ _ _ _ _ _ SP). assert (RL : exists li, root l = Some li) by (destruct l; [congruence|cbn; eauto]). assert (RR : exists ri, root r = Some ri) by (destruct r; [congruence|cbn; eauto]). destruct RL as (li & RL), RR as (ri & RR).
      assert (RPL := proj1 (slim_sub _ _ _ _ _ _ SP)). destruct (pred_loop (b_mem b) l (Some i) (fuel (b_mem b)) RPL NL) as (fs & a & j & y & EL & E1).
      { assert (HF := fuel_ok _ _ _ (sl_at _ _ SP)). pose proof (nodes_plug_le c (N l i x r)). cbn [nodes] in *. pose proof (nodes_nonneg l). pose proof (nodes_nonneg r). lia. }
      assert (RN : replace_node (b_mem b) (Some i) = Ret (Some j)). { unfold replace_node. rewrite KD. cbn [bind]. rewrite RL, RR. unfold find_predecessor. rewrite <- RL. exact E1. }
      set (c2 := crights (CL c i (moved y x) r) fs). assert (NT : c2 <> Top) by (apply crights_top; discriminate). assert (EP : forall S x', plug (crights (CL c i x' r) fs) S = plug c (N (plugo fs S) i x' r)) by (intros S x'; rewrite plug_crights; reflexivity).
      assert (EIN : infos (plug c (N l i x r)) = (cl c ++ outl fs ++ infos a) ++ y :: x :: infos r ++ cr c) by (rewrite infos_plug; cbn [infos]; rewrite EL, infos_plugo; cbn [infos]; rewrite <- !app_assoc; cbn [app]; rewrite <- ?app_assoc; reflexivity).
      assert (HO2 := HO). rewrite EIN in HO2.
      assert (KY : exists ky, k_key y = Some ky /\ ky < k). { apply ordered_mid in HO2 as (_ & _ & ky & E2 & _ & F2). exists ky. split; [exact E2|]. inversion F2 as [|? ? F3 _]; subst. unfold kis in F3. rewrite Ek in F3. lia. }
      destruct KY as (ky & Eky & Lky). exists j, ky.
      assert (GJ := SP). rewrite EL, <- EP in GJ. split; [rewrite EL, <- EP, zk_plug, zk_N, !in_app_iff, Eky; cbn [In]; auto|]. split.
      { right. unfold entries. rewrite EIN, map_app. cbn [map]. unfold prev_key. rewrite rev_app_distr. cbn [rev]. rewrite <- !app_assoc. cbn [app].
        rewrite find_skip; [|intros e He; apply in_rev in He; apply in_map_iff in He as (z & <- & Hz)].
        - unfold entry at 1. rewrite Ek. cbn [find fst]. rewrite Z.ltb_irrefl. unfold entry at 1. rewrite Eky. cbn [find fst]. apply Z.ltb_lt in Lky. rewrite Lky. cbn [option_map]. unfold entry. rewrite Eky. reflexivity.
        - change (y :: x :: infos r ++ cr c) with ([y] ++ x :: infos r ++ cr c) in HO2. rewrite app_assoc in HO2. apply ordered_mid in HO2 as (_ & _ & k1 & Ek1 & _ & F2). rewrite Ek in Ek1. injection Ek1 as <-. rewrite Forall_forall in F2. specialize (F2 z Hz). unfold kis in F2. unfold entry. destruct (k_key z) as [kz|]; [|destruct F2]. cbn [fst]. apply Z.ltb_ge. lia. }
      rewrite RN. cbn [bind]. unfold has_two_child at 1. rewrite KD. cbn [bind]. rewrite RL, RR. cbn [is_none negb andb bind]. 
      unfold transplant_values. rewrite (s_tget_at _ _ _ _ _ _ SP). cbn [bind n_inf]. assert (ONE : (if k_isroot x then has_one_child (b_mem b) (Some i) else Ret false) = Ret false).
      { destruct (k_isroot x); [|reflexivity]. unfold has_one_child, has_two_child, is_leaf. rewrite KD. cbn [bind]. rewrite RL, RR. reflexivity. }
      rewrite ONE. cbn [bind]. clear ONE. rewrite (s_tget_at _ _ _ _ _ _ GJ). cbn [bind]. unfold n_key. cbn [n_inf].
      destruct (s_on_mem_info b c l i x r (fun x => with_key (k_key y) (with_data (k_data y) x)) SP) as (b1 & E2 & SP1 & K1 & R1). rewrite E2. cbn [bind]. fold (moved y x) in SP1.
      assert (W1 : (forall z, z <> i -> what (b_mem b1) z = what (b_mem b) z) /\ (forall z, flag (b_mem b1) z = flag (b_mem b) z) /\ (forall z, what (b_mem b1) z <> None -> what (b_mem b) z <> None) /\ a_num (b_arr b1) = a_num (b_arr b) /\ a_last (b_arr b1) = a_last (b_arr b)).
      { unfold on_mem in E2. destruct (tmod (b_mem b) (Some i) _) as [t| |] eqn:EM; cbn [bind] in E2; try discriminate. injection E2 as <-. assert (EM' := EM). apply tmod_inv in EM as (j0 & n0 & [= <-] & HC & HC' & _ & HF). change (b_mem (set_mem b t)) with t.
        split; [intros z NE; unfold what; rewrite HF by (intros [X|[]]; congruence); reflexivity|]. split; [|split; [apply (used_tmod _ _ _ t EM')|split; reflexivity]]. intros z. unfold flag. destruct (Z.eq_dec z i) as [->|NE]; [rewrite HC, HC'; reflexivity|]. rewrite HF by (intros [X|[]]; congruence). reflexivity. }
      destruct W1 as (W1 & W2 & W3 & W4 & W5). rewrite EL, <- EP in SP1. fold c2 in SP1. assert (OM1 : one_mark b1) by (intros z; rewrite W2, R1; apply OM).
      assert (HL1 : len (b_mem b1) <= 4 * (nodes (plug c2 (N a j y E)) - 1)). { destruct K1 as (_ & _ & _ & ->). unfold c2. rewrite EP, <- EL. pose proof (nodes_plug c (N l i x r) (N l i (moved y x) r)) as Q. cbn [nodes] in Q. lia. }
      destruct (cpar_ne c2 NT) as (p & Ep). assert (PA : get_parent (b_mem b1) (Some j) = Ret (Some p)) by (rewrite (s_parent _ _ _ _ _ _ SP1), Ep; reflexivity). assert (RJ := RM _ _ _ _ _ _ SP1 HL1).
      assert (CUT : forall b', cut j b1 b' -> removed b i j b').
      { intros b' (O & [[X1 X2 X3]|X]); split; auto; [|left; congruence]. right. split; [rewrite X3; apply K1|]. split; [rewrite X2; unfold last_after; rewrite W5; reflexivity|]. split; [rewrite X1, Z.eqb_refl; reflexivity|]. split; intros z; rewrite X1; destruct (Z.eqb_spec z j) as [->|NE]; try congruence; [apply W3|]. intros _. apply W1. }
      apply (lp_bind _ (fun q => fst (fst q) = b1 /\ snd (fst q) = Some j)); [apply lp_any; intros w1; apply lp_ret; auto|]. intros [[b0 w0] w1] (Q1 & Q2). cbn [fst snd] in Q1, Q2. subst b0 w0. apply lp_any. intros lf.
      apply (lp_bind _ (removed b i j)); [|intros b2 H2; apply lp_ret; exact H2]. destruct lf; [intros b2 EQ; apply CUT; apply (l_leaf_case b1 j w1 p RJ OM1 PA b2 EQ)|]. apply lp_any. intros one. destruct one; [intros b2 EQ; apply CUT; apply (l_one_child_case b1 j w1 p RJ OM1 PA b2 EQ)|]. apply lp_ret. split; auto.
    - (* at most one child *)
      exists i, k. split; [exact ZI|]. split; [auto|].
      assert (KD : kids_of (b_mem b) (Some i) = Ret (root l, root r)) by apply (s_kids _ _ _ _ _ _ SP). apply lp_any. intros w1. unfold has_two_child at 1. rewrite KD. cbn [bind].
      assert (EN2 : negb (is_none (root l)) && negb (is_none (root r)) = false) by (destruct NO as [-> | ->]; cbn [root is_none negb andb]; [reflexivity|apply andb_false_r]). rewrite EN2. cbn [bind]. apply lp_any. intros lf.
      destruct (cpar_ne c NT) as (p & Ep). assert (PA : get_parent (b_mem b) (Some i) = Ret (Some p)) by (rewrite (s_parent _ _ _ _ _ _ SP), Ep; reflexivity). assert (RI := RM _ _ _ _ _ _ SP HL).
      apply (lp_bind _ (removed b i i)); [|intros b1 H1; apply lp_ret; exact H1]. destruct lf; [intros b1 EQ; apply cut_removed; apply (l_leaf_case b i w1 p RI OM PA b1 EQ)|]. apply lp_any. intros one. destruct one; [intros b1 EQ; apply cut_removed; apply (l_one_child_case b i w1 p RI OM PA b1 EQ)|]. apply lp_ret. split; auto.
  Qed.
  Lemma r_delete (b : bst) (T : bt) s k : rbgood b T s -> spare_older s k = true -> exists (b' : bst) (T' : bt), rb_delete b k = Ret (b', is_key (m_ents s) k) /\ rbgood b' T' (m_take k s) /\ b_os b' = b_os b.
  Proof.
    intros G0 HM. assert (G0' := G0). destruct G0 as [G TT MK BK (n & RB) FU]. unfold spare_older, absent_key in HM. destruct (is_key (m_ents s) k) eqn:EI.
    - cbn [negb orb] in HM. rewrite !andb_true_iff, !negb_true_iff in HM. destruct HM as (((H1 & H2) & H3) & H4). apply Z.eqb_neq in H1. apply Z.leb_le in H3, H4. assert (H2' : prev_key (m_ents s) k <> Some (m_newest s)) by (intros X; rewrite X, oeqb_yes in H2; discriminate). clear H2.
      assert (LN := len_ents_nodes _ _ _ G). destruct (m_present b T s k G EI) as (c & l & i & x & r & ET & Ek & _ & _). destruct G as [GD GH GO GE GI GU GN]. assert (SP := holed_slim _ _ GH). assert (HCAP := o_cap _ _ GH).
      assert (HL : len (b_mem b) <= 4 * (nodes T - 1)) by lia. destruct (rb_delete_ok b T k n GD SP GO MK BK RB HL) as (b' & f & E1 & Hf & T' & SP' & EN & (K1 & K2 & K3) & MK' & BK' & RB').
      assert (f = true). { apply Hf. unfold ents. rewrite ET, infos_plug. cbn [infos]. rewrite !map_app, !in_app_iff. cbn [map In]. right. left. right. left. exact Ek. } subst f. clear Hf.
      assert (GO' : ordered (infos T')) by (apply (ordered_without k (infos T)); assumption). assert (NN := without_nodes T T' k GO EN).
      assert (EE : entries T' = take_out k (m_ents s)) by (apply okeys_inj; unfold take_out; rewrite <- without_okeys, <- GI, <- (ents_okeys T GO), <- (ents_okeys T' GO'); exact EN).
      assert (NS : nodes T' = nodes T - 1). { apply Z.le_antisymm; [|lia]. assert (X : nodes T' < nodes T); [|lia]. rewrite <- !len_entries, EE, <- GI. unfold take_out. unfold is_key in EI. rewrite <- GI in EI. clear - EI. induction (entries T) as [|e L IH]; [discriminate|]. cbn [existsb filter] in *. destruct (fst e =? k); cbn [negb orb] in *.
        - assert (LE : forall L0 : list (Z * option D), len (filter (fun e => negb (fst e =? k)) L0) <= len L0). { clear. induction L0 as [|e L0 IH]; [reflexivity|]. cbn [filter]. destruct (negb (fst e =? k)); unfold len in *; cbn [length]; lia. } specialize (LE L). unfold len in *. cbn [length]. lia.
        - specialize (IH EI). unfold len in *. cbn [length]. lia. }
      subst T. destruct (l_delete b c l i x r k n GD SP FU TT MK BK RB GO Ek ltac:(lia) HL) as (w & kw & ZW & KW & LPD). destruct (LPD _ E1) as (OM' & CUT). cbn [fst] in OM', CUT.
      destruct CUT as [X|(C1 & C2 & C3 & C4 & C5)]; [rewrite (sl_num _ _ SP'), (sl_num _ _ SP) in X; lia|]. rewrite GI in KW. set (T := plug c (N l i x r)) in *.
      assert (NW : kw <> m_newest s) by (intros ->; destruct KW as [KW|KW]; congruence). assert (ND : NoDup (idx T)) by apply (o_at _ _ GH). assert (ND' : NoDup (idx T')) by apply (sl_at _ _ SP').
      assert (ZN : b_size b - 1 <> w) by (intros X; rewrite <- X in ZW; assert (Y := zk_fun T _ _ _ ND GN ZW); congruence).
      assert (ZNI : b_size b - 1 <> i). { intros X. rewrite X in GN. assert (ZI : In (i, Some k) (zk T)) by (unfold T; rewrite zk_plug, zk_N, !in_app_iff, Ek; cbn [In]; auto). assert (Y := zk_fun T _ _ _ ND GN ZI). congruence. }
      assert (USED : forall z, In z (idx T') -> In z (idx T) /\ z <> w).
      { intros z Hz. destruct (In_plug T' z Hz) as (c1 & l1 & y & r1 & ET'). assert (SPz := SP'). rewrite ET' in SPz. destruct (what_at _ _ _ _ _ _ SPz) as [WZ _]. split; [apply FU; apply C4; rewrite WZ; discriminate|]. intros ->. congruence. }
      assert (ALL : forall z, In z (idx T) -> z <> w -> In z (idx T')).
      { assert (INC : incl (w :: idx T') (idx T)) by (intros z [<-|Hz]; [apply (zk_idx _ _ _ ZW)|apply USED; exact Hz]). assert (NDW : NoDup (w :: idx T')) by (constructor; [intros X; apply USED in X as [_ X]; congruence|exact ND']).
        assert (INC2 : incl (idx T) (w :: idx T')). { apply NoDup_length_incl; [exact NDW| |exact INC]. assert (X1 := nodes_len T). assert (X2 := nodes_len T'). unfold len in *. cbn [length]. lia. } intros z Hz NZ. destruct (INC2 z Hz) as [X|X]; [congruence|exact X]. }
      assert (HNEW : In (b_size b' - 1, Some (m_newest s)) (zk T')).
      { rewrite C1. assert (HZ := zk_idx _ _ _ GN). assert (HZ' := ALL _ HZ ZN). destruct (In_plug T' _ HZ') as (c1 & l1 & y & r1 & ET'). destruct (In_plug T _ HZ) as (c0 & l0 & y0 & r0 & ET0). assert (SPz := SP'). rewrite ET' in SPz. destruct (what_at _ _ _ _ _ _ SPz) as [WZ _]. rewrite (C5 _ ZN ZNI) in WZ. assert (SP0 := SP). rewrite ET0 in SP0. rewrite (proj1 (what_at _ _ _ _ _ _ SP0)) in WZ.
        injection WZ as WZ _. assert (KY : k_key y0 = Some (m_newest s)). { eapply (zk_fun T); [exact ND| |exact GN]. rewrite ET0, zk_plug, zk_N, !in_app_iff. cbn [In]. auto. } rewrite ET', zk_plug, zk_N, !in_app_iff. cbn [In]. right. left. right. left. congruence. }
      assert (LA : a_last (b_arr b') = b_size b - 1). { rewrite C2. unfold last_after. rewrite (o_last _ _ GH). apply Z.eqb_neq in ZN. rewrite ZN. reflexivity. }
      assert (NE' : T' <> E) by (intros ->; destruct MK').
      exists b', T'. split; [exact E1|]. split; [|exact K1].
      assert (F' : full b' T'). { intros z Hz. apply ALL; [apply FU; apply C4; exact Hz|]. intros ->. congruence. }
      assert (RM' : root_mark b') by (destruct T' as [|l1 i1 x1 r1]; [destruct MK'|]; exists i1; split; [apply (sl_at _ _ SP')|rewrite (proj2 (what_at b' Top l1 i1 x1 r1 SP')); exact MK']).
      split; [|apply (tree_mark b' T' SP' NE' OM' RM')|exact MK'|exact BK'|exact RB'|exact F'].
      split; cbn [m_take m_ents m_used m_newest]; [unfold default in *; congruence| |exact GO'|exact NE'|exact EE|congruence|exact HNEW].
      split; [apply (sl_at _ _ SP')|apply (sl_num _ _ SP')|congruence|rewrite K3, C1; exact HCAP|intros z Hz; apply (sl_idx _ _ SP') in Hz; lia|rewrite C1, NS; lia].
    - destruct (m_absent b T s k G EI) as (c & _ & E1 & E2). unfold rb_delete. rewrite E1. cbn [bind]. rewrite E2. exists b, T. auto.
  Qed.
  Lemma r_run ops : forall (b : bst) (T : bt) s s' fs, rbgood b T s -> m_run absent_key spare_older s ops = Some (s', fs) ->
    exists (b' : bst) (T' : bt), perform_with rb_insert rb_delete b ops = Ret (b', fs) /\ rbgood b' T' s' /\ b_os b' = b_os b.
  Proof.
    induction ops as [|[k d|k] ops IH]; intros b T s s' fs G; cbn [m_run perform_with].
    - intros [= <- <-]. exists b, T. auto.
    - destruct (absent_key s k) eqn:EA; [|discriminate]. intros H. unfold absent_key in EA. apply negb_true_iff in EA. destruct (r_insert b T s k d G EA) as (b1 & T1 & E1 & G1 & O1). rewrite E1. cbn [bind]. destruct (IH _ _ _ _ _ G1 H) as (b2 & T2 & E2 & G2 & O2). exists b2, T2. split; [exact E2|]. split; [exact G2|congruence].
    - destruct (spare_older s k) eqn:EM; [|discriminate]. destruct (m_run absent_key spare_older (m_take k s) ops) as [[s1 fs1]|] eqn:ER; [|discriminate]. intros [= <- <-].
      destruct (r_delete b T s k G EM) as (b1 & T1 & E1 & G1 & O1). rewrite E1. cbn [bind]. destruct (IH _ _ _ _ _ G1 ER) as (b2 & T2 & E2 & G2 & O2). rewrite E2. cbn [bind]. exists b2, T2. split; [reflexivity|]. split; [exact G2|congruence].
  Qed.
  Lemma r_history os ops s fs : m_history absent_key spare_older None ops = Some (s, fs) ->
    exists (b : bst) (T : bt), history_with rb_insert rb_delete None os ops = Ret (b, fs) /\ rbgood b T s /\ b_os b = os.
  Proof.
    unfold m_history, history_with. destruct ops as [|[k d|k] ops]; try discriminate. intros H. cbn [option_map]. change (bst_new None None None os) with (Ret (fresh (D := D) os)). cbn [bind perform_with]. rewrite rb_first. cbn [bind].
    set (x := mkinfo (Some k) d 0 1 true None (Some 0)). assert (G0 : rbgood (one os x) (N E 0 x (@E D)) (m_first k d)).
    { split; [apply (m_one os x k d eq_refl)|split; constructor|reflexivity|reflexivity|exists 1; cbn; left; auto|]. intros i. unfold what, one, b_mem. cbn. unfold cell, aget. intros HI. destruct (Z.ltb_spec i 0); cbn [orb] in HI; [exfalso; apply HI; reflexivity|]. match type of HI with context [?a <=? i] => destruct (Z.leb_spec a i) as [HL|HL]; [exfalso; apply HI; reflexivity|]; change a with 1 in HL end. left. lia. }
    destruct (r_run ops _ _ _ _ _ G0 H) as (b & T & E1 & G1 & O1). exists b, T. auto.
  Qed.
End Mix8.
