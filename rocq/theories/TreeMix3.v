(** Proofs: mixed histories on AVLTree. *)
From Coq Require Import Sorting.Sorted.
From Verif Require Import Base TreeModel TreeModel2 TreeSpec TreeProofs TreeRotate TreeBst TreeTrav TreeQuery TreeLca TreeDel TreeHist TreeBalSpec TreeAvl TreeAvl2 TreeSim TreeTreap TreeSplay TreeReins TreeMulti TreeDel2 TreeDel3 TreeDel4 TreeDel5 TreeRbDel2 TreeHist2Spec TreeHist2 TreeHist3 TreeMixSpec TreeMix TreeMix2.

(** what holds of the value of a call, if it returns *)
Definition lp {A} (P : A -> Prop) (r : res A) : Prop := forall x, r = Ret x -> P x.
Lemma lp_bind {A B} (P : B -> Prop) (Q : A -> Prop) (r : res A) (f : A -> res B) : lp Q r -> (forall x, Q x -> lp P (f x)) -> lp P (bind r f).
Proof. intros H1 H2 y. destruct r as [x| |]; cbn [bind]; try discriminate. apply H2, H1. reflexivity. Qed.
Lemma lp_any {A B} (P : B -> Prop) (r : res A) (f : A -> res B) : (forall x, lp P (f x)) -> lp P (bind r f).
Proof. intros H. apply (lp_bind P (fun _ => True)); [intros x _; exact I|auto]. Qed.
Lemma lp_ret {A} (P : A -> Prop) x : P x -> lp P (Ret x).
Proof. intros H y [= <-]. exact H. Qed.
Lemma lp_raise {A} (P : A -> Prop) e : lp P (Raise e).
Proof. intros y. discriminate. Qed.
Lemma lp_while {S R} (P : S -> Prop) (Q : R -> Prop) body : (forall s, P s -> lp (fun x => match x with Next s' => P s' | Break r => Q r end) (body s)) -> forall f s, P s -> lp Q (while_loop f body s).
Proof. intros HB f s HP r E. eapply (while_pres P Q); [|exact HP|exact E]. intros s0 x H0 E0. apply (HB s0 H0 x E0). Qed.

Section Mix3.
  Context {D : Type}.
  Notation info := (info D). Notation node := (node D). Notation mem := (mem D). Notation bst := (bst D). Notation bt := (bt D). Notation ctx := (ctx D).
  Definition lastis (n : Z) (b : bst) : Prop := a_last (b_arr b) = n.
  Lemma l_on_mem n f b : lastis n b -> lp (lastis n) (on_mem f b).
  Proof. intros H. unfold on_mem. apply lp_any. intros t. apply lp_ret. exact H. Qed.
  Lemma l_rot n f b j k : lastis n b -> lp (lastis n) (rot f b j k).
  Proof. intros H. unfold rot. apply lp_any. intros [t r]. apply lp_ret. exact H. Qed.
  Lemma l_os_size n b i : lastis n b -> lp (lastis n) (os_size b i).
  Proof. intros H. unfold os_size. destruct (b_os b); [apply l_on_mem; exact H|apply lp_ret; exact H]. Qed.
  Ltac lgo n := repeat (first [apply l_on_mem; assumption | apply l_rot; assumption | apply l_os_size; assumption | apply (lp_bind _ (lastis n)); [|let b := fresh "b" in let H := fresh "H" in intros b H]]).
  Lemma l_right n b j k : lastis n b -> lp (lastis n) (avl_right_rotate b j k).
  Proof. intros H. unfold avl_right_rotate. lgo n. Qed.
  Lemma l_left n b j k : lastis n b -> lp (lastis n) (avl_left_rotate b j k).
  Proof. intros H. unfold avl_left_rotate. lgo n. Qed.
  Lemma l_left_right n b j k : lastis n b -> lp (lastis n) (avl_left_right_rotate b j k).
  Proof. intros H. unfold avl_left_right_rotate. lgo n. Qed.
  Lemma l_right_left n b j k : lastis n b -> lp (lastis n) (avl_right_left_rotate b j k).
  Proof. intros H. unfold avl_right_left_rotate. lgo n. Qed.
  Lemma l_rebalance n b w x y : lastis n b -> lp (lastis n) (rebalance b w x y).
  Proof.
    intros H. unfold rebalance. apply lp_any. intros n0. apply lp_any. intros bf. destruct (negb _); [|apply lp_ret; exact H]. cbn zeta.
    apply lp_any. intros c1. apply (lp_bind _ (lastis n)); [destruct c1; [apply l_right; exact H|apply lp_ret; exact H]|]. clear b H. intros b H.
    apply lp_any. intros n1. apply lp_any. intros c2. apply (lp_bind _ (lastis n)); [destruct c2; [apply l_left; exact H|apply lp_ret; exact H]|]. clear b H. intros b H.
    apply lp_any. intros c3. apply (lp_bind _ (lastis n)); [destruct c3; [apply l_left_right; exact H|apply lp_ret; exact H]|]. clear b H. intros b H.
    apply lp_any. intros c4. destruct c4; [apply l_right_left; exact H|apply lp_ret; exact H].
  Qed.
  Lemma l_balance_insertion n b x y : lastis n b -> lp (lastis n) (balance_insertion b x y).
  Proof.
    intros H. unfold balance_insertion. apply (lp_while (fun s => lastis n (fst (fst s)))); [|exact H]. clear b H. intros [[b walk] path] H. cbn [fst] in H. destruct walk as [w|]; [|apply lp_ret; exact H].
    apply (lp_bind _ (lastis n)); [apply l_on_mem; exact H|]. clear b H. intros b H. apply (lp_bind _ (lastis n)); [apply l_os_size; exact H|]. clear b H. intros b H. destruct path as [|a [|a2 path]]; try apply lp_raise.
    apply (lp_bind _ (lastis n)); [apply l_rebalance; exact H|]. clear b H. intros b H. apply lp_any. intros n0. apply lp_ret. exact H.
  Qed.
  Lemma l_balance_deletion n b x : lastis n b -> lp (lastis n) (balance_deletion b x).
  Proof.
    intros H. unfold balance_deletion. apply (lp_while (fun s => lastis n (fst s))); [|exact H]. clear b H. intros [b walk] H. cbn [fst] in H. destruct walk as [w|]; [|apply lp_ret; exact H].
    apply (lp_bind _ (lastis n)); [apply l_on_mem; exact H|]. clear b H. intros b H. apply (lp_bind _ (lastis n)); [apply l_os_size; exact H|]. clear b H. intros b H. apply lp_any. intros n0. apply lp_any. intros bf.
    apply (lp_bind _ (lastis n)); [|clear b H; intros b H; apply lp_any; intros n1; apply lp_ret; exact H]. destruct (negb _); [|apply lp_ret; exact H].
    destruct (bf <? 0); cbn zeta; apply lp_any; intros cn; apply lp_any; intros bc; [destruct (bc <=? 0)|destruct (0 <=? bc)]; first [apply l_right; exact H|apply l_left_right; exact H|apply l_left; exact H|apply l_right_left; exact H].
  Qed.

  Lemma a_insert b T s k d : mgood b T s -> avl (b_os b) T -> exists (b' : bst) (T' : bt), avl_insert b k d = Ret b' /\ mgood b' T' (m_put k d s) /\ avl (b_os b') T' /\ b_os b' = b_os b.
  Proof.
    intros G AV. destruct (m_insert b T s k d G) as (b1 & T1 & E1 & O1 & R1 & G1 & Z1 & CS). unfold avl_insert. rewrite E1. cbn [bind].
    assert (FIN : forall c' S' last n, T1 = plug c' S' -> walks (b_os b1) c' S' last (cpar c') n -> exists (b' : bst) (T' : bt), balance_insertion b1 last (cpar c') = Ret b' /\ mgood b' T' (m_put k d s) /\ avl (b_os b') T' /\ b_os b' = b_os b).
    { intros c' S' last n ET W'. assert (SP := holed_slim _ _ (mg_h _ _ _ G1)). assert (SP' := SP). rewrite ET in SP'. destruct (z_balance_insertion_ok b1 (b_os b1) c' S' last (cpar c') n SP' eq_refl W' eq_refl) as (b' & T' & E2 & SP2 & K2 & ZE & A2). rewrite <- ET in ZE.
      exists b', T'. split; [exact E2|]. split; [apply (m_move b1 T1 _ b' T' G1 SP2 ZE K2); apply (l_balance_insertion (a_last (b_arr b1)) b1 last (cpar c') eq_refl b' E2)|]. destruct K2 as (K2 & _). split; [rewrite K2; exact A2|congruence]. }
    assert (HT1 := o_at _ _ (mg_h _ _ _ G1)). destruct CS as [(KF & Hs & c & c' & z & HK & NT & CZ & ET)|(KT & Hs & c & l & i & x & r & ET0 & Ek & ET)].
    - rewrite Hs. replace (b_size b + 1 - 1) with (b_size b) by lia. rewrite ET in HT1. rewrite (tget_ok _ _ _ (sub_cell _ _ _ _ _ _ _ HT1)). cbn [bind n_parent]. eapply FIN; [exact ET|]. rewrite O1. destruct HK as (ET0 & _). rewrite ET0 in AV. assert (AV' := AV). apply avl_plug in AV as [_ AV]. split.
      + cbn [avl]. unfold nodeok. cbn [height nodes k_height with_size new_info k_size]. split; [split; [reflexivity|]|split; [lia|auto]]. intros HO. assert (SZ := Z1 HO ltac:(apply (avl_sized (b_os b)); [rewrite ET0; exact AV'|exact HO])). rewrite ET in SZ. apply sized_plug in SZ as [SZ _]. cbn [sized nodes with_size k_size] in SZ. lia.
      + exists (-1). split; [eapply cz_avl; [exact CZ|exact AV]|]. right. cbn [height]. split; [reflexivity|]. split; [|reflexivity]. split; [reflexivity|]. cbn [height]. lia.
    - rewrite ET0 in AV. apply (avl_data _ _ _ _ _ d) in AV. rewrite <- ET in AV.
      assert (HI : In (b_size b1 - 1) (idx T1)). { assert (HN := mg_new _ _ _ G1). apply zk_idx in HN. exact HN. }
      destruct (In_plug T1 _ HI) as (c' & l' & x' & r' & ET'). rewrite ET' in HT1, AV. rewrite (tget_ok _ _ _ (sub_cell _ _ _ _ _ _ _ HT1)). cbn [bind n_parent]. apply avl_plug in AV as [A1 A2]. eapply FIN; [exact ET'|]. rewrite O1. split; [exact A1|]. eexists. split; [exact A2|]. left. auto.
  Qed.

  Lemma a_delete b T s k : mgood b T s -> avl (b_os b) T -> spare_newest s k = true -> exists (b' : bst) (T' : bt), avl_delete b k = Ret (b', true) /\ mgood b' T' (m_take k s) /\ avl (b_os b') T' /\ b_os b' = b_os b.
  Proof.
    intros G AV HM. unfold avl_delete. unfold spare_newest, absent_key in HM. destruct (is_key (m_ents s) k) eqn:EI.
    - cbn [negb orb] in HM. rewrite !andb_true_iff, !negb_true_iff in HM. destruct HM as (((H1 & H2) & H3) & H4). apply Z.eqb_neq in H1. apply Z.leb_le in H3, H4. assert (H2' : next_key (m_ents s) k <> Some (m_newest s)) by (intros X; rewrite X, oeqb_yes in H2; discriminate). clear H2.
      assert (LN := len_ents_nodes _ _ _ G). destruct (m_present b T s k G EI) as (c & l & i & x & r & ET & Ek & E0 & _).
      destruct (m_delete_info b T s k c l i x r G ET Ek E0 H1 (fun _ _ => H2') ltac:(lia) H4) as (b1 & c1 & S & c' & j & E1 & TK & HG & CZ & O1 & G1).
      { intros ->. cbn [plug] in ET. rewrite ET in AV, LN. destruct AV as (_ & HB & _). cbn [nodes] in LN. split; intros ->; cbn [height nodes] in HB, LN; [destruct (height_lone r) as [-> |X]|destruct (height_lone l) as [-> |X]]; try (pose proof (height_ge r); pose proof (height_ge l); lia); try (cbn [nodes] in LN; lia); apply lone_inv in X as (? & ? & ->); cbn [nodes] in LN; lia. }
      rewrite E1. cbn [bind]. assert (NT : c1 <> Top). { destruct TK as [c0 l0 i0 x0 NT|c0 i0 x0 r0 NT|i0 x0 j0 y0|i0 x0 j0 y0|c0 l0 i0 x0 fs j0 y0 s0 NL]; try assumption; [rewrite ET in LN; cbn [plug nodes] in LN; lia..|]. apply clefts_top. discriminate. }
      assert (HS := taken_shrunk (b_os b) _ _ _ _ _ _ _ _ TK CZ ltac:(rewrite <- ET; exact AV) NT). destruct (z_balance_deletion_ok b1 (b_os b) c' S _ (holed_slim _ _ (mg_h _ _ _ G1)) O1 HS) as (b2 & T2 & E2 & SP2 & K2 & ZE & AV2). rewrite E2. cbn [bind].
      exists b2, T2. split; [reflexivity|]. split; [apply (m_move b1 _ _ b2 T2 G1 SP2 ZE K2); apply (l_balance_deletion (a_last (b_arr b1)) b1 (cpar c') eq_refl b2 E2)|]. destruct K2 as (K2 & _). rewrite K2, O1. auto.
    - destruct (m_absent b T s k G EI) as (c & E1 & _ & E2). unfold delete_info. rewrite E1. cbn [bind]. rewrite E2. exists b, T. auto.
  Qed.

  Lemma a_run ops : forall b T s s' fs, mgood b T s -> avl (b_os b) T -> m_run always spare_newest s ops = Some (s', fs) ->
    exists (b' : bst) (T' : bt), perform_with avl_insert avl_delete b ops = Ret (b', map (fun _ => true) fs) /\ mgood b' T' s' /\ avl (b_os b') T' /\ b_os b' = b_os b.
  Proof.
    induction ops as [|[k d|k] ops IH]; intros b T s s' fs G AV; cbn [m_run perform_with].
    - intros [= <- <-]. exists b, T. auto.
    - cbn [always]. intros H. destruct (a_insert b T s k d G AV) as (b1 & T1 & E1 & G1 & A1 & O1). rewrite E1. cbn [bind]. destruct (IH _ _ _ _ _ G1 A1 H) as (b2 & T2 & E2 & G2 & A2 & O2). exists b2, T2. split; [exact E2|]. split; [exact G2|]. split; [exact A2|congruence].
    - destruct (spare_newest s k) eqn:EM; [|discriminate]. destruct (m_run always spare_newest (m_take k s) ops) as [[s1 fs1]|] eqn:ER; [|discriminate]. intros [= <- <-].
      destruct (a_delete b T s k G AV EM) as (b1 & T1 & E1 & G1 & A1 & O1). rewrite E1. cbn [bind]. destruct (IH _ _ _ _ _ G1 A1 ER) as (b2 & T2 & E2 & G2 & A2 & O2). rewrite E2. cbn [bind map]. exists b2, T2. split; [reflexivity|]. split; [exact G2|]. split; [exact A2|congruence].
  Qed.
  Lemma a_history start os ops s fs : m_history always spare_newest start ops = Some (s, fs) ->
    exists (b : bst) (T : bt), history_with avl_insert avl_delete start os ops = Ret (b, map (fun _ => true) fs) /\ mgood b T s /\ avl os T /\ b_os b = os.
  Proof.
    assert (ST : forall k (d : option D) ops, m_run always spare_newest (m_first k d) ops = Some (s, fs) -> exists (b : bst) (T : bt), perform_with avl_insert avl_delete (mkbst (mkaft [Some (set_inf (with_isroot true) (new_node (Some k) d))] 1 0) (Some 0) 1 None os) ops = Ret (b, map (fun _ => true) fs) /\ mgood b T s /\ avl os T /\ b_os b = os).
    { clear start ops. intros k d ops H. assert (G0 := m_start os k d _ eq_refl). destruct (a_run ops _ _ _ _ _ G0 (a_avl _ _ _ (one_agood os k d)) H) as (b & T & E1 & G1 & A1 & O1). cbn [b_os] in O1. exists b, T. rewrite O1 in A1. auto. }
    unfold m_history, history_with. destruct start as [[k d]|]; cbn [option_map fst snd bst_new bind]; [apply ST|]. destruct ops as [|[k d|k] ops]; try discriminate. intros H. destruct (ST k d ops H) as (b & T & E1 & X). exists b, T. split; [|exact X]. exact E1.
  Qed.
End Mix3.
