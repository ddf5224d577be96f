(** Proofs: RedBlackTree.delete, the three cases and whole histories. *)
From Coq Require Import Sorting.Sorted.
From Verif Require Import Base TreeModel TreeModel2 TreeSpec TreeProofs TreeRotate TreeBst TreeTrav TreeQuery TreeLca TreeDel TreeHist TreeBalSpec TreeAvl TreeAvl2 TreeSim TreeTreap TreeSplay TreeRb TreeReins TreeDelSpec TreeDel2 TreeDel3 TreeDel4 TreeRbDel.

Section RbDel2.
  Context {D : Type}.
  Notation info := (info D). Notation node := (node D). Notation mem := (mem D). Notation bst := (bst D). Notation bt := (bt D). Notation ctx := (ctx D).
  Definition keeps3 (b b' : bst) : Prop := b_os b' = b_os b /\ b_comp b' = b_comp b /\ len (b_mem b') = len (b_mem b).
  Lemma keepsb_3 (b b' : bst) : keepsb b b' -> keeps3 b b'.
  Proof. unfold keepsb, keeps3. tauto. Qed.
  Lemma keeps3_trans (a b c : bst) : keeps3 a b -> keeps3 b c -> keeps3 a c.
  Proof. unfold keeps3. intros (A1 & A2 & A3) (B1 & B2 & B3). rewrite B1, B2, B3. auto. Qed.
  Lemma cut_ok (b : bst) c l i x r (S : bt) : slim b (plug c (N l i x r)) -> c <> Top -> (S = l /\ r = E \/ S = r /\ l = E) -> len (b_mem b) <= 4 * (nodes (plug c (N l i x r)) - 1) ->
    exists b1 b2 b' c', set_link b (cpar c) (Some i) (root S) = Ret b1 /\ (match root S with Some _ => on_mem (fun t => tmod t (root S) (set_parent (cpar c))) b1 | None => Ret b1 end) = Ret b2 /\ remove_node b2 (Some i) = Ret b' /\
      slim b' (plug c' S) /\ cz c c' /\ keeps3 b b'.
  Proof.
    intros G NT HS HL. assert (HW := sl_at _ _ G). assert (HC := sub_cell _ _ _ _ _ _ _ HW). assert (HWR := proj1 HW). apply rep_plug in HWR as (HCR & _ & HL' & HR').
    assert (NDT := proj1 (proj2 HW)). assert (ND := NDT). rewrite nodup_cnt in ND.
    assert (HCN : forall z, cnt z (idx S) = (cnt z (idx l) + cnt z (idx r))%nat). { intros z. destruct HS as [(-> & ->)|(-> & ->)]; cbn [idx cnt]; rewrite ?cnt_nil; lia. }
    assert (RS : rep (b_mem b) S (Some i)) by (destruct HS as [(-> & ->)|(-> & ->)]; assumption).
    destruct (bypass_ok _ _ _ _ _ _ _ S HW NT RS HCN) as (m1 & m2 & E1 & E2 & HT & L1 & L2 & C1 & C2).
    assert (ES : set_link b (cpar c) (Some i) (root S) = Ret (set_mem b m1)).
    { unfold set_link, is_onleft. rewrite (s_parent _ _ _ _ _ _ G). cbn [bind]. rewrite relink_unfold in E1. destruct (cpar_ne c NT) as (jp & Ejp). rewrite Ejp in *. destruct (tget (b_mem b) (Some jp)) as [pn| |]; cbn [bind] in *; [|discriminate..]. unfold on_mem. destruct (oeqb (n_left pn) (Some i)); rewrite E1; reflexivity. }
    exists (set_mem b m1), (set_mem b m2).
    assert (NJ : ~ In i (idx (plug c S))). { intros H. apply cnt_In in H. rewrite cnt_plug in H. specialize (ND i). rewrite cnt_plug in ND. cbn [idx] in ND. rewrite cnt_app, cnt_cons, Z.eqb_refl in ND. rewrite HCN in H. lia. }
    assert (SUB : forall k, In k (idx (plug c S)) -> In k (idx (plug c (N l i x r)))). { intros k H. rewrite cnt_In in *. rewrite cnt_plug in *. cbn [idx]. rewrite cnt_app, cnt_cons. rewrite HCN in H. lia. }
    assert (NN : nodes (plug c S) = nodes (plug c (N l i x r)) - 1). { pose proof (nodes_plug c S (N l i x r)) as Q. cbn [nodes] in Q. destruct HS as [(-> & ->)|(-> & ->)]; cbn [nodes] in *; lia. }
    destruct (finish b (plug c (N l i x r)) c S m2 i _ G HT NT L2 (eq_trans C2 HC) (cnt_sub c _ l i x r eq_refl) NJ SUB NN HL) as (np & nr & arr & b' & c' & F1 & F2 & F3 & F4 & F5 & CZ & G' & K1 & K2 & K3).
    exists b', c'. split; [exact ES|]. split.
    { destruct (root S) as [k|]; [|injection E2 as <-; reflexivity]. unfold on_mem. cbn [set_mem b_mem b_arr a_data]. rewrite E2. reflexivity. }
    split; [|split; [exact G'|]; split; [exact CZ|]; repeat split; assumption].
    unfold remove_node, get_parent, is_leaf, kids_of. change (b_mem (set_mem b m2)) with m2. rewrite (tget_ok _ _ _ (eq_trans C2 HC)). cbn [bind n_parent n_left n_right]. unfold has_one_child, has_two_child, is_leaf, kids_of. rewrite (tget_ok _ _ _ (eq_trans C2 HC)). cbn [bind n_left n_right].
    change (b_root (set_mem b m2)) with (b_root b). change (b_arr (set_mem b m2)) with (mkaft m2 (a_num (b_arr b)) (a_last (b_arr b))). rewrite F1. cbn [bind]. rewrite F2. cbn [bind]. rewrite F3. cbn [bind]. rewrite set_arr_mem, F4.
    destruct HS as [(-> & ->)|(-> & ->)]; cbn [root is_none andb]; [destruct l|destruct r]; cbn; reflexivity.
  Qed.
  Lemma marked_hole (c : ctx) : c <> Top -> forall S S' : bt, marked (plug c S) -> marked (plug c S').
  Proof. intros NT S S'. destruct c as [|c i x r|c l i x]; [congruence|..]; cbn [plug]; apply marked_plug; reflexivity. Qed.
  Lemma cz_marked (c : ctx) : forall c' (S S' : bt), cz c c' -> c <> Top -> marked (plug c S) -> marked (plug c' S').
  Proof.
    induction c as [|c IH i x r|c IH l i x]; intros [|c' i' x' r'|c' l' i' x'] S S'; cbn [cz]; try tauto; try congruence; intros (-> & (z & ->) & -> & HC) _ HM; cbn [plug] in *; (assert (HD : {c = Top} + {c <> Top}) by (destruct c; [left; reflexivity|right; discriminate..])); destruct HD as [-> |HD].
    - destruct c'; cbn [cz] in HC; try tauto; try exact HM.
    - eapply IH; eassumption.
    - destruct c'; cbn [cz] in HC; try tauto; try exact HM.
    - eapply IH; eassumption.
  Qed.
  Definition rbgone (b b' : bst) R : Prop := exists T', slim b' T' /\ ents T' = R /\ keeps3 b b' /\ marked T' /\ black T' /\ exists m, rb T' m.
  Lemma ents_hole (c : ctx) x i : ents (plug c (N E i x E)) = map ent (cl c) ++ ent x :: map ent (cr c).
  Proof. unfold ents. rewrite infos_plug. cbn [infos app]. rewrite map_app. reflexivity. Qed.
  Lemma ents_empty (c : ctx) : ents (plug c (@E D)) = map ent (cl c) ++ map ent (cr c).
  Proof. unfold ents. rewrite infos_plug. cbn [infos app]. rewrite map_app. reflexivity. Qed.
  Lemma rb_zero (T : bt) : rb T 0 -> T = E \/ exists i x, T = N E i x E /\ k_color x = Some 1.
  Proof.
    destruct T as [|l i x r]; [auto|]. cbn [rb]. intros [(_ & A & _)|(A & L & R & BL & BR)]; [apply rb_pos in A; lia|]. right. exists i, x. split; [|exact A].
    assert (Z0 : forall S : bt, rb S 0 -> black S -> S = E). { intros [|a k y e]; [reflexivity|]. cbn [rb black]. intros [(_ & X & _)|(X & _)] Y; [apply rb_pos in X; lia|congruence]. }
    rewrite (Z0 l L BL), (Z0 r R BR). reflexivity.
  Qed.
  Lemma cz_rb (c c' : ctx) (S : bt) : cz c c' -> black (plug c S) -> (exists m, rb (plug c S) m) -> black (plug c' S) /\ exists m, rb (plug c' S) m.
  Proof. intros CZ HB (m & HR). assert (HS : sim (plug c S) (plug c' S)) by (apply sim_plug; [apply cz_sim, CZ|apply sim_refl]). split; [eapply black_sim; eassumption|]. exists m. eapply rb_sim; eassumption. Qed.
  Lemma leaf_ok (b : bst) c w x n R : let W := N E w x E in slim b (plug c W) -> c <> Top -> marked (plug c W) -> rb (plug c W) n -> black (plug c W) -> len (b_mem b) <= 4 * (nodes (plug c W) - 1) ->
    (forall A B, A ++ ent x :: B = ents (plug c W) -> A ++ B = R) -> exists b', leaf_case b (Some w) None = Ret b' /\ rbgone b b' R.
  Proof.
    intros W G NT MK RB BK HL HR. unfold leaf_case. rewrite (s_parent _ _ _ _ _ _ G). cbn [bind]. destruct (cpar_ne c NT) as (jp & Ejp). rewrite Ejp.
    destruct (rb_unplug c W n RB BK) as (m & HC & RW & _). assert (CX : k_color x = Some 0 \/ k_color x = Some 1) by (unfold W in RW; cbn [rb] in RW; tauto).
    (* the end: from a tree in which the leaf can be cut *)
    assert (FIN : forall b1 c1, slim b1 (plug c1 W) -> ents (plug c1 W) = ents (plug c W) -> keepsb b b1 -> marked (plug c1 W) -> cpar c1 = Some jp -> black (plug c1 E) -> (exists m, rb (plug c1 E) m) ->
      exists b', (b0 <- set_link b1 (Some jp) (Some w) None;; remove_node b0 (Some w)) = Ret b' /\ rbgone b b' R).
    { intros b1 c1 G1 EN K M1 J1 B1 R1. assert (NT1 : c1 <> Top) by (intros ->; discriminate). destruct (cut_ok b1 c1 E w x E E G1 NT1 (or_introl (conj eq_refl eq_refl))) as (b2 & b3 & b' & c' & E1 & E2 & E3 & G' & CZ & K').
      { fold W. rewrite (ents_nodes _ _ EN). destruct K as (_ & _ & _ & ->). exact HL. }
      cbn [root] in E1, E2. rewrite J1 in E1. injection E2 as <-. rewrite E1. cbn [bind]. exists b'. split; [exact E3|]. exists (plug c' E). split; [exact G'|]. split.
      { assert (CE := csim_ents _ _ (cz_sim _ _ CZ)). rewrite ents_empty. destruct CE as [<- <-]. apply HR. rewrite <- EN. unfold W. rewrite ents_hole. reflexivity. }
      split; [eapply keeps3_trans; [apply keepsb_3, K|exact K']|]. split; [eapply (cz_marked c1); eassumption|]. eapply cz_rb; eassumption. }
    destruct CX as [CX|CX]; rewrite (s_color b c E w x E _ G CX); cbn [bind walk1_walk_isblack Z.eqb andb].
    - destruct (fix_ok b c w x jp n G MK Ejp CX RB BK) as (b1 & E1 & c1 & HF). cbv zeta in HF. destruct HF as (G1 & EN1 & K1 & M1 & J1 & B1 & R1). rewrite E1. cbn [bind]. eapply FIN; eassumption.
    - assert (SIB : exists b1, (sibling_idx <- get_sibling (b_mem b) (Some w);; match sibling_idx with Some _ => paint 1 sibling_idx b | None => Ret b end) = Ret b1 /\ slim b1 (plug c W) /\ keepsb b b1).
      { assert (m = 0). { unfold W in RW. cbn [rb] in RW. destruct RW as [(X & _)|(_ & X & _)]; [congruence|exact X]. } subst m.
        destruct c as [|c1 p y q|c1 q p y]; [congruence|..]; destruct HC as (Rq & _); destruct (rb_zero q Rq) as [-> |(k & z & -> & Hz)].
        - rewrite (s_sibling_l _ _ _ _ _ _ _ _ _ G). cbn [bind root]. eauto using keepsb_refl.
        - rewrite (s_sibling_l _ _ _ _ _ _ _ _ _ G). cbn [bind root]. destruct (s_paint b (CR c1 W p y) E k z E 1 G) as (b1 & E1 & G1 & K1). exists b1. rewrite (with_color_id _ _ Hz) in G1. auto.
        - rewrite (s_sibling_r _ _ _ _ _ _ _ _ _ G). cbn [bind root]. eauto using keepsb_refl.
        - rewrite (s_sibling_r _ _ _ _ _ _ _ _ _ G). cbn [bind root]. destruct (s_paint b (CL c1 p y W) E k z E 1 G) as (b1 & E1 & G1 & K1). exists b1. rewrite (with_color_id _ _ Hz) in G1. auto. }
      destruct SIB as (b1 & E1 & G1 & K1). rewrite E1. cbn [bind]. eapply FIN; try eassumption; [reflexivity|eapply black_plug; eassumption|].
      assert (RE : rb (@E D) m). { unfold W in RW. cbn [rb] in RW. destruct RW as [(X & _)|(_ & X & _)]; [congruence|exact X]. } destruct (rb_plug c E m HC RE (or_introl I)) as (m' & H & _). eauto.
  Qed.
  Lemma one_ok (b : bst) c (l : bt) i x (r : bt) S n R : slim b (plug c (N l i x r)) -> c <> Top -> (S = l /\ r = E \/ S = r /\ l = E) -> S <> E -> marked (plug c (N l i x r)) -> rb (plug c (N l i x r)) n -> black (plug c (N l i x r)) -> len (b_mem b) <= 4 * (nodes (plug c (N l i x r)) - 1) ->
    ents (plug c S) = R -> exists b', one_child_case b (Some i) (root S) = Ret b' /\ rbgone b b' R.
  Proof.
    intros G NT HS NE MK RB BK HL HR. destruct (rb_unplug c _ n RB BK) as (m & HC & RW & HK). cbn [rb] in RW.
    assert (SH : k_color x = Some 0 /\ exists j y, S = N E j y E /\ k_color y = Some 1 /\ m = 1).
    { destruct RW as [(A & B & C)|(A & B & C & F & H)].
      - split; [exact A|]. assert (X : m - 1 = 0 /\ rb S 0). { destruct HS as [(-> & ->)|(-> & ->)]; cbn [rb] in B, C; [rewrite C in B|rewrite B in C]; auto. } destruct X as (X & Y). destruct (rb_zero S Y) as [-> |(j & y & -> & Hy)]; [congruence|]. exists j, y. split; [reflexivity|]. split; [exact Hy|lia].
      - exfalso. assert (X : rb S 0 /\ black S). { destruct HS as [(-> & ->)|(-> & ->)]; cbn [rb] in B, C; [rewrite C in B|rewrite B in C]; auto. } destruct X as (X & Y). destruct (rb_zero S X) as [-> |(j & y & -> & Hy)]; [congruence|]. cbn [black] in Y. congruence. }
    destruct SH as (CX & j & y & -> & CY & ->). unfold one_child_case. rewrite (s_color b c l i x r 0 G CX). cbn [bind]. rewrite (s_parent _ _ _ _ _ _ G). cbn [bind]. destruct (cpar_ne c NT) as (jp & Ejp).
    destruct (cut_ok b c l i x r _ G NT HS HL) as (b1 & b2 & b3 & c' & E1 & E2 & E3 & G' & CZ & K'). rewrite Ejp in *. cbn [root] in *. rewrite E1. cbn [bind]. rewrite E2. cbn [bind]. rewrite E3. cbn [bind].
    unfold walk1_walk_isblack. rewrite (s_tget_at _ _ _ _ _ _ G'). cbn [bind]. unfold n_color. cbn [n_inf]. rewrite CY. cbn [bind Z.eqb Pos.eqb andb]. destruct (s_paint b3 c' E j y E 0 G') as (b4 & E4 & G4 & K4). rewrite E4. exists b4. split; [reflexivity|].
    exists (plug c' (N E j (with_color 0 y) E)). split; [exact G4|]. split; [|split; [eapply keeps3_trans; [exact K'|apply keepsb_3, K4]|split; [eapply (cz_marked c); eassumption|]]].
    { rewrite <- HR, !ents_hole. destruct (csim_ents _ _ (cz_sim _ _ CZ)) as [<- <-]. reflexivity. }
    eapply cz_rb; [exact CZ|eapply black_plug; eassumption|]. destruct (rb_plug c (N E j (with_color 0 y) E) 1 HC) as (m' & H & _); [cbn [rb]; left; auto|left; reflexivity|]. eauto.
  Qed.
  (** ** the rightmost node of a subtree *)
  Fixpoint plugo (fs : list (bt * Z * info)) (S : bt) : bt := match fs with [] => S | (l, i, x) :: fs' => N l i x (plugo fs' S) end.
  Fixpoint crights (c : ctx) (fs : list (bt * Z * info)) : ctx := match fs with [] => c | (l, i, x) :: fs' => crights (CR c l i x) fs' end.
  Lemma plug_crights fs : forall c S, plug (crights c fs) S = plug c (plugo fs S).
  Proof. induction fs as [|[[l i] x] fs IH]; intros c S; cbn [crights plugo]; [reflexivity|]. rewrite IH. reflexivity. Qed.
  Lemma crights_top fs : forall c, c <> Top -> crights c fs <> Top.
  Proof. induction fs as [|[[l i] x] fs IH]; intros c H; cbn [crights]; [exact H|]. apply IH. discriminate. Qed.
  Definition outl (fs : list (bt * Z * info)) : list info := concat (map (fun f => infos (fst (fst f)) ++ [snd f]) fs).
  Lemma infos_plugo fs S : infos (plugo fs S) = outl fs ++ infos S.
  Proof. unfold outl. induction fs as [|[[l i] x] fs IH]; cbn [plugo map concat fst snd]; [reflexivity|]. cbn [infos]. rewrite IH, <- !app_assoc. reflexivity. Qed.
  Definition pbody (t : mem) : option Z -> res (ctl (option Z) (option Z)) := fun i => n <- tget t i ;; match n_right n with None => Ret (Break i) | Some _ => Ret (Next (n_right n)) end.
  Lemma pred_loop (t : mem) (T : bt) : forall p f, rep t T p -> T <> E -> (Z.to_nat (nodes T) <= f)%nat -> exists fs a j y, T = plugo fs (N a j y E) /\ while_loop f (pbody t) (root T) = Ret (Some j).
  Proof.
    induction T as [|l _ i x r IH]; intros p f HR NE HF; [congruence|]. cbn [nodes] in HF. pose proof (nodes_nonneg l). pose proof (nodes_nonneg r). destruct f as [|f]; [lia|]. cbn [rep] in HR. destruct HR as (HC & _ & HR). cbn [while_loop root]. unfold pbody at 1. rewrite (tget_ok _ _ _ HC). cbn [bind n_right].
    destruct r as [|rl ri rx rr] eqn:Er; cbn [root]; [exists [], l, i, x; auto|]. change (Some ri) with (root (N rl ri rx rr)). rewrite <- Er in *. destruct (IH (Some i) f HR) as (fs & a & j & y & E1 & E2); [rewrite Er; discriminate|lia|]. exists ((l, i, x) :: fs), a, j, y. cbn [plugo]. rewrite <- E1. auto.
  Qed.
  (** ** lists *)
  Lemma one_of_two {A} (e : A) : forall P Q X Y, ~ In e P -> ~ In e Q -> X ++ e :: Y = P ++ e :: e :: Q -> X ++ Y = P ++ e :: Q.
  Proof.
    induction P as [|p P IH]; intros Q X Y HP HQ H; cbn [app] in *.
    - destruct X as [|a [|a2 X]]; cbn [app] in *; [congruence|injection H as -> H; congruence|]. injection H as -> -> H. destruct HQ. rewrite <- H. apply in_elt.
    - destruct X as [|a X]; cbn [app] in *; [injection H as -> _; destruct HP; left; reflexivity|]. injection H as -> H. cbn [In] in HP. rewrite (IH Q X Y); [reflexivity|tauto|exact HQ|exact H].
  Qed.
  Lemma one_of_one {A} (e : A) : forall P Q X Y, ~ In e P -> ~ In e Q -> X ++ e :: Y = P ++ e :: Q -> X ++ Y = P ++ Q.
  Proof.
    induction P as [|p P IH]; intros Q X Y HP HQ H; cbn [app] in *.
    - destruct X as [|a X]; cbn [app] in *; [congruence|]. injection H as -> H. destruct HQ. rewrite <- H. apply in_elt.
    - destruct X as [|a X]; cbn [app] in *; [injection H as -> _; destruct HP; left; reflexivity|]. injection H as -> H. cbn [In] in HP. rewrite (IH Q X Y); [reflexivity|tauto|exact HQ|exact H].
  Qed.
  Lemma ordered_sides (a : list info) x b : ordered (a ++ x :: b) -> ~ In (ent x) (map ent a) /\ ~ In (ent x) (map ent b).
  Proof.
    intros HO. apply ordered_mid in HO as (_ & _ & k & Ek & F1 & F2). rewrite Forall_forall in F1, F2. split; intros H; apply in_map_iff in H as (z & Ez & Hz); injection Ez as Ez _; [specialize (F1 _ Hz)|specialize (F2 _ Hz)]; unfold kis in *; rewrite Ez, Ek in *; lia.
  Qed.
  (** ** the root with one child, a leaf *)
  Lemma root_ok (b : bst) (l : bt) i x (r : bt) j y : slim b (N l i x r) -> (l = N E j y E /\ r = E \/ r = N E j y E /\ l = E) -> k_isroot x = true -> k_color x = Some 0 -> len (b_mem b) <= 4 * (nodes (N l i x r) - 1) ->
    exists b', delete_root b (Some i) (Some j) = Ret b' /\ rbgone b b' [ent y].
  Proof.
    intros G HS MK CX HL. assert (HW := sl_at _ _ G). assert (HC := sub_cell _ _ Top _ _ _ _ HW). cbn [cpar] in HC. assert (ERT : b_root b = Some i) by (apply HW). assert (NDT := proj1 (proj2 HW)). assert (ND := NDT). rewrite nodup_cnt in ND.
    assert (HCj : cell (b_mem b) j = Some (mknode y None None (Some i))). { destruct HW as ((_ & A & B) & _). destruct HS as [(-> & ->)|(-> & ->)]; [apply A|apply B]. }
    assert (NIJ : i <> j) by (destruct HS as [(-> & ->)|(-> & ->)]; dj ND).
    match goal with |- exists b', delete_root _ _ _ = _ /\ _ => unfold delete_root, transplant_values, has_one_child, has_two_child, is_leaf, kids_of end.
    rewrite (tget_ok _ _ _ HC), (tget_ok _ _ _ HCj). cbn [bind n_left n_right n_inf]. rewrite MK.
    assert (LF : is_none (root l) && is_none (root r) = false) by (destruct HS as [(-> & ->)|(-> & ->)]; reflexivity). assert (TWO : negb (is_none (root l)) && negb (is_none (root r)) = false) by (destruct HS as [(-> & ->)|(-> & ->)]; reflexivity). rewrite LF, TWO. cbn [bind negb andb].
    unfold on_mem. rewrite ERT.
    match goal with |- context [tmod (b_mem b) (Some i) ?f] => destruct (tmod_step (b_mem b) i f _ HC) as (m1 & E1 & HC1 & F1) end. rewrite E1. cbn [bind]. change (b_mem (set_mem b m1)) with m1. change (b_root (set_mem b m1)) with (b_root b). cbn [n_inf n_parent] in HC1.
    destruct (tmod_step m1 i (set_parent None) _ HC1) as (m2 & E2 & HC2 & F2). rewrite E2. cbn [bind]. change (b_mem (set_mem (set_mem b m1) m2)) with m2. change (b_root (set_mem (set_mem b m1) m2)) with (b_root b). rewrite ERT, (tget_ok _ _ _ HC2). cbn [bind]. unfold n_key, set_parent in *. cbn [n_inf n_left n_right] in *. fold (moved y x) in HC2.
    change (b_arr (set_mem (set_mem b m1) m2)) with (mkaft m2 (a_num (b_arr b)) (a_last (b_arr b))).
    assert (HT : tree_at m2 (b_root b) (N E i (moved y x) E)) by (split; [cbn [rep root]; auto|split; [repeat constructor; intros []|exact ERT]]).
    assert (NIn : ~ In j [i]) by (intros [X|[]]; congruence).
    destruct (s_drop_ok b (N l i x r) (N E i (moved y x) E) m2 j (mknode y None None (Some i)) G HT) as (arr & E3 & G3 & L3).
    - rewrite (proj1 F2). apply F1.
    - eapply frame_cell; [exact F2|exact NIn|]. eapply frame_cell; [exact F1|exact NIn|exact HCj].
    - destruct HS as [(-> & ->)|(-> & ->)]; cbn; auto.
    - cbn. intros [X|[]]. congruence.
    - intros k Hk. destruct HS as [(-> & ->)|(-> & ->)]; cbn in *; tauto.
    - destruct HS as [(-> & ->)|(-> & ->)]; reflexivity.
    - exact HL.
    - rewrite E3. cbn [bind]. change (set_arr (set_mem (set_mem b m1) m2) arr) with (set_arr b arr). exists (set_arr b arr). split; [reflexivity|]. exists (N E i (moved y x) E). split; [exact G3|]. split; [reflexivity|]. split; [repeat split; assumption|]. split; [exact MK|]. split; [exact CX|]. exists 1. cbn [rb]. left. split; [exact CX|]. split; lia.
  Qed.
  Lemma rb_info (c : ctx) (l : bt) i (x x' : info) r n : k_color x' = k_color x -> rb (plug c (N l i x r)) n -> rb (plug c (N l i x' r)) n.
  Proof.
    intros H. assert (X : forall m, rb (N l i x r) m -> rb (N l i x' r) m) by (intros m; cbn [rb]; rewrite H; auto). assert (B : black (N l i x r) <-> black (N l i x' r)) by (cbn [black]; rewrite H; tauto). revert X B. generalize (N l i x r) (N l i x' r). revert n. clear.
    induction c as [|c IH j y q|c IH q j y]; intros n S S' X B; cbn [plug]; [apply X|..]; apply IH; cbn [rb black]; try tauto; intros m [(A & P & Q)|(A & P & Q & F & G)]; [left|right|left|right]; repeat split; auto; tauto.
  Qed.
  Lemma black_info (c : ctx) (l : bt) i (x x' : info) r : k_color x' = k_color x -> black (plug c (N l i x r)) -> black (plug c (N l i x' r)).
  Proof. intros H. destruct c; [cbn [plug black]; rewrite H; auto|..]; apply black_plug; discriminate. Qed.
  Lemma rb_delete_ok (b : bst) T key n : default b -> slim b T -> ordered (infos T) -> marked T -> black T -> rb T n -> len (b_mem b) <= 4 * (nodes T - 1) ->
    exists b' f, rb_delete b key = Ret (b', f) /\ (f = true <-> In (Some key) (map fst (ents T))) /\ rbgone b b' (without key (ents T)).
  Proof.
    intros G0 G HO MK BK RB HL. assert (HE : T <> E) by (intros ->; destruct MK). destruct (search_ok b T key G0 (sl_at _ _ G) HO HE) as (c & S & ES & _ & HK). destruct HK as (ET & HP & [-> | (l & i & x & r & -> & Ek)]).
    - (* absent *) cbn [root] in ES. unfold rb_delete. rewrite ES. cbn [bind].
      assert (AB : Forall (kis (fun k => k <> key)) (infos T)) by (apply (absent key T c); split; [exact ET|auto]). exists b, false. split; [reflexivity|]. split.
      { split; [discriminate|]. intros H. apply in_map_iff in H as (e & E1 & H). unfold ents in H. apply in_map_iff in H as (z & <- & Hz). rewrite Forall_forall in AB. specialize (AB z Hz). unfold kis in AB. cbn in E1. rewrite E1 in AB. congruence. }
      exists T. split; [exact G|]. split; [symmetry; unfold ents; apply without_none; exact AB|]. split; [repeat split|]. split; [exact MK|]. split; [exact BK|]. eauto.
    - cbn [root] in ES. unfold rb_delete. rewrite ES. cbn [bind]. clear ES HP HE. rewrite ET in *. clear ET T.
      assert (PRES : true = true <-> In (Some key) (map fst (ents (plug c (N l i x r))))).
      { split; [intros _|reflexivity]. unfold ents. rewrite infos_plug. cbn [infos]. rewrite !map_app. cbn [map]. rewrite !in_app_iff. cbn [In]. change (fst (ent x)) with (k_key x). rewrite Ek. tauto. }
      assert (HS0 := HO). rewrite infos_plug in HS0. cbn [infos] in HS0. rewrite <- app_assoc in HS0. cbn [app] in HS0. rewrite app_assoc in HS0.
      assert (EW : without key (ents (plug c (N l i x r))) = map ent ((cl c ++ infos l) ++ infos r ++ cr c)).
      { unfold ents. rewrite infos_plug. cbn [infos]. rewrite <- app_assoc. cbn [app]. rewrite app_assoc. apply (without_mid key _ _ _ key Ek HS0 eq_refl). }
      rewrite EW. clear EW. unfold replace_node, has_two_child, has_one_child, has_two_child, is_leaf. rewrite (s_kids _ _ _ _ _ _ G). cbn [bind].
      assert (TD : c = Top \/ c <> Top) by (destruct c; [left; reflexivity|right; discriminate..]).
      assert (ONE : forall S, (S = l /\ r = E \/ S = r /\ l = E) -> S <> E -> exists b', one_child_case b (Some i) (root S) = Ret b' /\ rbgone b b' (map ent ((cl c ++ infos l) ++ infos r ++ cr c))).
      { intros S HS NE. destruct TD as [-> |NT].
        - cbn [plug] in *. assert (SH : k_color x = Some 0 /\ exists j y, S = N E j y E).
          { split; [exact BK|]. cbn [black] in BK. cbn [rb] in RB. destruct RB as [(_ & B & C)|(A & _)]; [|congruence]. assert (X : rb S 0). { destruct HS as [(-> & ->)|(-> & ->)]; cbn [rb] in B, C; [rewrite C in B|rewrite B in C]; auto. } destruct (rb_zero S X) as [-> |(j & y & -> & Hy)]; [congruence|]. eauto. }
          destruct SH as (CX & j & y & ->). unfold one_child_case. rewrite (s_color b Top l i x r 0 G CX). cbn [bind]. rewrite (s_parent b Top _ _ _ _ G). cbn [bind cpar root].
          destruct (root_ok b l i x r j y G) as (b' & E1 & H); try assumption; [destruct HS as [(<- & ->)|(<- & ->)]; auto|]. exists b'. split; [exact E1|]. cbn [cl cr app]. rewrite app_nil_r. destruct HS as [(<- & ->)|(<- & ->)]; exact H.
        - eapply one_ok; try eassumption. unfold ents. rewrite infos_plug. destruct HS as [(-> & ->)|(-> & ->)]; cbn [infos app]; rewrite ?app_nil_r, <- ?app_assoc; reflexivity. }
      destruct l as [|ll li lx lr] eqn:El; destruct r as [|rl ri rx rr] eqn:Er; cbn [root is_none negb andb bind].
      + (* a leaf *) rewrite (s_kids _ _ _ _ _ _ G). cbn [bind root is_none andb]. destruct TD as [-> |NT].
        { exfalso. cbn [plug nodes] in HL. assert (HN := nodes_mem _ _ _ (proj1 (sl_at _ _ G)) (proj1 (proj2 (sl_at _ _ G)))). cbn [plug nodes] in HN. lia. }
        destruct (leaf_ok b c i x n (map ent (cl c ++ cr c)) G NT MK RB BK HL) as (b' & E1 & H).
        { intros A B. rewrite ents_hole. intros H. rewrite map_app. cbn [infos app] in HS0. rewrite app_nil_r in HS0. destruct (ordered_sides _ _ _ HS0) as [N1 N2]. apply (one_of_one _ _ _ _ _ N1 N2 H). }
        rewrite E1. cbn [bind infos app]. rewrite app_nil_r. eauto.
      + (* right child only *) rewrite (s_kids _ _ _ _ _ _ G). cbn [bind root is_none andb negb]. rewrite ?(s_kids _ _ _ _ _ _ G). cbn [bind root is_none andb negb]. destruct (ONE (N rl ri rx rr)) as (b' & E1 & H); [right; auto|discriminate|]. cbn [root] in E1. rewrite E1. cbn [bind]. eauto.
      + (* left child only *) rewrite (s_kids _ _ _ _ _ _ G). cbn [bind root is_none andb negb]. rewrite ?(s_kids _ _ _ _ _ _ G). cbn [bind root is_none andb negb]. destruct (ONE (N ll li lx lr)) as (b' & E1 & H); [left; auto|discriminate|]. cbn [root] in E1. rewrite E1. cbn [bind]. eauto.
      + (* two children *) clear ONE. rewrite <- El, <- Er in *. assert (NL : l <> E) by (rewrite El; discriminate). assert (NR : r <> E) by (rewrite Er; discriminate). assert (RLi : Some li = root l) by (rewrite El; reflexivity). assert (RRi : Some ri = root r) by (rewrite Er; reflexivity). clear El Er.
        assert (RPL := proj1 (slim_sub _ _ _ _ _ _ G)). unfold find_predecessor. change (while_loop (fuel (b_mem b)) _ (Some li)) with (while_loop (fuel (b_mem b)) (pbody (b_mem b)) (Some li)). rewrite RLi.
        destruct (pred_loop (b_mem b) l (Some i) (fuel (b_mem b)) RPL NL) as (fs & a & j & y & EL & E1).
        { assert (HF := fuel_ok _ _ _ (sl_at _ _ G)). pose proof (nodes_plug_le c (N l i x r)). cbn [nodes] in *. pose proof (nodes_nonneg l). pose proof (nodes_nonneg r). lia. }
        rewrite E1. cbn [bind].
        set (c2 := crights (CL c i (moved y x) r) fs). assert (NT : c2 <> Top) by (apply crights_top; discriminate). assert (EP : forall S x', plug (crights (CL c i x' r) fs) S = plug c (N (plugo fs S) i x' r)) by (intros S x'; rewrite plug_crights; reflexivity).
        unfold transplant_values. rewrite (s_tget_at _ _ _ _ _ _ G). cbn [bind n_inf]. assert (ONE : (if k_isroot x then has_one_child (b_mem b) (Some i) else Ret false) = Ret false).
        { destruct (k_isroot x); [|reflexivity]. unfold has_one_child, has_two_child, is_leaf. rewrite (s_kids _ _ _ _ _ _ G). cbn [bind]. rewrite <- RRi, <- RLi. reflexivity. }
        rewrite ONE. cbn [bind]. clear ONE. assert (GJ := G). rewrite EL, <- EP in GJ. rewrite (s_tget_at _ _ _ _ _ _ GJ). cbn [bind]. unfold n_key. cbn [n_inf].
        destruct (s_on_mem_info b c l i x r (fun x => with_key (k_key y) (with_data (k_data y) x)) G) as (b1 & E2 & G1 & K1 & _). rewrite E2. cbn [bind]. fold (moved y x) in G1.
        assert (MK1 : marked (plug c (N l i (moved y x) r))) by (eapply marked_plug; [|exact MK]; reflexivity). assert (RB1 : rb (plug c (N l i (moved y x) r)) n) by (eapply rb_info; [|exact RB]; reflexivity). assert (BK1 : black (plug c (N l i (moved y x) r))) by (eapply black_info; [|exact BK]; reflexivity).
        assert (HL1 : len (b_mem b1) <= 4 * (nodes (plug c (N l i (moved y x) r)) - 1)). { destruct K1 as (_ & _ & _ & ->). pose proof (nodes_plug c (N l i x r) (N l i (moved y x) r)) as Q. cbn [nodes] in Q. lia. }
        assert (EI : (cl c ++ infos l) ++ infos r ++ cr c = (cl c ++ outl fs ++ infos a) ++ y :: (infos r ++ cr c)). { rewrite EL, infos_plugo. cbn [infos]. rewrite <- !app_assoc. reflexivity. }
        assert (HS1 : ordered ((cl c ++ outl fs ++ infos a) ++ y :: (x :: infos r ++ cr c))). { assert (Q : (cl c ++ infos l) ++ x :: infos r ++ cr c = (cl c ++ outl fs ++ infos a) ++ y :: x :: infos r ++ cr c) by (rewrite EL, infos_plugo; cbn [infos]; rewrite <- !app_assoc; reflexivity). rewrite <- Q. exact HS0. }
        rewrite EL, <- EP in G1, MK1, RB1, BK1, HL1. fold c2 in G1, MK1, RB1, BK1, HL1. rewrite EI. set (R := map ent ((cl c ++ outl fs ++ infos a) ++ y :: infos r ++ cr c)).
        assert (CL2 : cl c2 = cl c ++ outl fs /\ cr c2 = moved y x :: infos r ++ cr c).
        { assert (GEN : forall fs0 c0, cl (crights c0 fs0) = cl c0 ++ outl fs0 /\ cr (crights c0 fs0) = cr c0). { clear. unfold outl. induction fs0 as [|[[l0 i0] x0] fs0 IH]; intros c0; cbn [crights map concat fst snd]; [rewrite app_nil_r; auto|]. destruct (IH (CR c0 l0 i0 x0)) as [-> ->]. cbn [cl cr]. rewrite <- !app_assoc. auto. }
          unfold c2. destruct (GEN fs (CL c i (moved y x) r)) as [-> ->]. cbn [cl cr]. auto. }
        destruct CL2 as [CL2 CR2]. rewrite (s_kids _ _ _ _ _ _ G1). cbn [bind]. destruct (keepsb_3 _ _ K1) as (Q1 & Q2 & Q3).
        assert (KK : forall b', rbgone b1 b' R -> rbgone b b' R). { intros b' (T' & A & B & C & F). exists T'. split; [exact A|]. split; [exact B|]. split; [|exact F]. eapply keeps3_trans; [|exact C]. repeat split; assumption. }
        destruct a as [|al ai ax ar] eqn:Ea; cbn [root].
        * cbn [bind]. rewrite (s_kids _ _ _ _ _ _ G1). cbn [bind root is_none andb]. destruct (leaf_ok b1 c2 j y n R G1 NT MK1 RB1 BK1 HL1) as (b' & E3 & H).
          { intros A B. rewrite ents_hole, CL2, CR2. cbn [map]. change (ent (moved y x)) with (ent y). intros H. unfold R. rewrite (map_app _ _ (y :: _)). cbn [map]. cbn [infos] in *. rewrite app_nil_r in *. destruct (ordered_sides _ _ _ HS1) as [N1 N2]. apply one_of_two; [exact N1| |exact H]. cbn [map In] in N2. tauto. }
          rewrite E3. cbn [bind]. exists b', true. auto.
        * cbn [bind]. rewrite (s_kids _ _ _ _ _ _ G1). cbn [bind root is_none andb negb]. rewrite ?(s_kids _ _ _ _ _ _ G1). cbn [bind root is_none andb negb]. change (Some ai) with (root (N al ai ax ar)). rewrite <- Ea in *. destruct (one_ok b1 c2 a j y E a n R G1 NT (or_introl (conj eq_refl eq_refl)) ltac:(rewrite Ea; discriminate) MK1 RB1 BK1 HL1) as (b' & E3 & H).
          { unfold ents. rewrite infos_plug, CL2, CR2. unfold R. rewrite <- Ea. rewrite !map_app. cbn [map]. change (ent (moved y x)) with (ent y). rewrite !map_app, <- !app_assoc. reflexivity. }
          rewrite E3. cbn [bind]. exists b', true. auto.
  Qed.
  Lemma without_nodes (T T1 : bt) k : ordered (infos T) -> ents T1 = without k (ents T) -> nodes T - 1 <= nodes T1.
  Proof.
    intros HO EE. assert (X : len (ents T1) = nodes T1 /\ len (ents T) = nodes T). { unfold ents, len. rewrite !map_length. rewrite <- !len_entries. unfold entries, len. rewrite !map_length. auto. } destruct X as [X1 X2]. rewrite <- X1, <- X2, EE. unfold ents. clear - HO.
    assert (GO : len (infos T) - 1 <= len (without k (map ent (infos T)))); [|unfold len in *; rewrite map_length; exact GO]. revert HO. generalize (infos T). clear. intros L HO.
    destruct (in_dec (fun a b : option Z => ltac:(decide equality; apply Z.eq_dec)) (Some k) (map k_key L)) as [HI|HI].
    - apply in_map_iff in HI as (x & Ek & Hx). apply in_split in Hx as (A & B & ->). rewrite (without_mid k A x B k Ek HO eq_refl). unfold len. rewrite map_length, !app_length. cbn [length]. lia.
    - rewrite without_none. 1: unfold len; rewrite map_length; lia. destruct HO as [HO _]. rewrite Forall_forall in *. intros x Hx. specialize (HO x Hx). unfold kis in *. destruct (k_key x) as [z|] eqn:Ez; [|exact HO]. intros ->. apply HI. rewrite <- Ez. apply in_map. exact Hx.
  Qed.
  Lemma rb_deletes_ok ks : forall (b : bst) T, default b -> slim b T -> ordered (infos T) -> marked T -> black T -> (exists n, rb T n) -> len (b_mem b) <= 4 * (nodes T - len ks) ->
    exists b' T', delete_with rb_delete b ks = Ret (b', snd (deleted (entries T) ks)) /\ default b' /\ slim b' T' /\ ordered (infos T') /\ T' <> E /\ b_os b' = b_os b /\ entries T' = fst (deleted (entries T) ks) /\ black T' /\ (exists n, rb T' n).
  Proof.
    induction ks as [|k ks IH]; intros b T HD SP HO MK BK (n & RB) HL; cbn [delete_with deleted].
    - exists b, T. cbn [fst snd]. assert (T <> E) by (intros ->; destruct MK). do 7 (split; [auto|]). eauto.
    - assert (LK : len (k :: ks) = len ks + 1) by (unfold len; cbn [length]; lia). pose proof (len_nonneg _ ks). pose proof (nodes_nonneg T).
      destruct (rb_delete_ok b T k n HD SP HO MK BK RB ltac:(lia)) as (b1 & f & E1 & Hf & T1 & SP1 & EE & (K1 & K2 & K3) & MK1 & BK1 & RB1). rewrite E1. cbn [bind].
      assert (O1 : ordered (infos T1)) by (apply (ordered_without k (infos T)); assumption). assert (D1 : default b1) by (unfold default in *; congruence).
      assert (EN : entries T1 = filter (fun e => negb (fst e =? k)) (entries T)). { apply okeys_inj. rewrite <- ents_okeys, EE, ents_okeys, without_okeys by assumption. reflexivity. }
      assert (NN : nodes T - 1 <= nodes T1). { assert (HN := without_nodes T T1 k HO EE). lia. }
      destruct (IH b1 T1 D1 SP1 O1 MK1 BK1 RB1 ltac:(lia)) as (b2 & T2 & E2 & D2 & SP2 & O2 & HE2 & OS2 & EN2 & BK2 & RB2). rewrite E2. cbn [bind]. rewrite EN in *.
      destruct (deleted (filter (fun e => negb (fst e =? k)) (entries T)) ks) as [l' fs]. cbn [fst snd] in *. exists b2, T2. split; [|split; [exact D2|]; split; [exact SP2|]; split; [exact O2|]; split; [exact HE2|]; split; [congruence|]; auto].
      f_equal. f_equal. f_equal. rewrite ents_okeys, has_okeys in Hf by assumption. destruct f, (existsb (fun e => fst e =? k) (entries T)); try reflexivity; [symmetry; apply Hf; reflexivity|apply Hf; reflexivity].
  Qed.
  (** the tree in a memory is unique *)
  Lemma rep_unique (m : mem) (T1 : bt) : forall T2 p1 p2, rep m T1 p1 -> rep m T2 p2 -> root T1 = root T2 -> T1 = T2.
  Proof.
    induction T1 as [|l IHl i x r IHr]; intros [|l2 i2 x2 r2] p1 p2 H1 H2 HR; cbn [root] in HR; try discriminate; [reflexivity|]. injection HR as <-. cbn [rep] in *. destruct H1 as (A1 & B1 & C1). destruct H2 as (A2 & B2 & C2). rewrite A1 in A2. injection A2 as -> R1 R2 _. rewrite (IHl _ _ _ B1 B2 R1), (IHr _ _ _ C1 C2 R2). reflexivity.
  Qed.
  Lemma tree_unique (m : mem) rt (T1 T2 : bt) : tree_at m rt T1 -> tree_at m rt T2 -> T1 = T2.
  Proof. intros (A & _ & B) (C & _ & F). eapply rep_unique; [exact A|exact C|congruence]. Qed.
End RbDel2.
