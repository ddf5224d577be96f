(** What the procedures of RedBlackTree do to the cells of the array, whatever the shape of the tree: which cells are in use, their keys and data, and
    which of them is marked as the root. *)
From Coq Require Import Sorting.Sorted.
From Verif Require Import Base TreeModel TreeModel2 TreeSpec TreeProofs TreeRotate TreeBst TreeTrav TreeQuery TreeLca TreeDel TreeHist TreeBalSpec TreeAvl TreeAvl2 TreeSim TreeTreap TreeSplay TreeRb TreeReins TreeMulti TreeDel2 TreeDel3 TreeDel4 TreeDel5 TreeRbDel2 TreeHist2Spec TreeHist2 TreeHist3 TreeMixSpec TreeMix TreeMix2 TreeMix3.

Section Mix7.
  Context {D : Type}.
  Notation info := (info D). Notation node := (node D). Notation mem := (mem D). Notation bst := (bst D). Notation bt := (bt D). Notation ctx := (ctx D).
  Definition what (t : mem) (i : Z) : option (option Z * option D) := option_map (fun n => ent (n_inf n)) (cell t i).
  Definition flag (t : mem) (i : Z) : bool := match cell t i with Some n => k_isroot (n_inf n) | None => false end.
  (** keys, data and marks stay *)
  Definition kept (t t' : mem) : Prop := len t' = len t /\ (forall i, what t' i = what t i) /\ forall i, flag t' i = flag t i.
  Lemma kept_refl t : kept t t.
  Proof. repeat split. Qed.
  Lemma kept_trans a b c : kept a b -> kept b c -> kept a c.
  Proof. intros (A1 & A2 & A3) (B1 & B2 & B3). split; [congruence|]. split; intros i; [rewrite B2|rewrite B3]; auto. Qed.
  Lemma tmod_inv (t : mem) i f t' : tmod t i f = Ret t' -> exists j n, i = Some j /\ cell t j = Some n /\ cell t' j = Some (f n) /\ frame t t' [j].
  Proof.
    unfold tmod. destruct i as [j|]; [|discriminate]. destruct (tget t (Some j)) as [n| |] eqn:EG; cbn [bind]; try discriminate. intros ES. apply tget_inv in EG. destruct (tmod_step t j f n EG) as (m' & E1 & H1 & H2). unfold tmod in E1. rewrite (tget_ok _ _ _ EG) in E1. cbn [bind] in E1. assert (m' = t') by congruence. subst m'. exists j, n. auto.
  Qed.
  Lemma l_tmod t i f : (forall n, ent (n_inf (f n)) = ent (n_inf n)) -> (forall n, k_isroot (n_inf (f n)) = k_isroot (n_inf n)) -> lp (kept t) (tmod t i f).
  Proof.
    intros H1 H2 t' ET. apply tmod_inv in ET as (j & n & -> & HC & HC' & HL & HF). split; [exact HL|].
    split; intros z; unfold what, flag; (destruct (Z.eq_dec z j) as [->|NE]; [rewrite HC, HC'; cbn [option_map]; rewrite ?H1, ?H2; reflexivity|rewrite HF by (intros [X|[]]; congruence); reflexivity]).
  Qed.
  Lemma lp_kept {A} t t1 (r : res A) (P : mem -> A -> Prop) : kept t t1 -> lp (P t1) r -> (forall x, P t1 x -> P t x) -> lp (P t) r.
  Proof. intros _ H1 H2 x E. apply H2, H1, E. Qed.
  Ltac tstep t := first [apply l_tmod; intros; reflexivity | apply lp_ret; apply kept_refl].
  Lemma l_then t (r : res mem) {A} (f : mem -> res A) (P : mem -> A -> Prop) : (forall t1 t2 x, kept t1 t2 -> P t2 x -> P t1 x) -> lp (kept t) r -> (forall t1, lp (P t1) (f t1)) -> lp (P t) (bind r f).
  Proof. intros HP H1 H2. apply (lp_bind _ (kept t)); [exact H1|]. intros t1 K x E. eapply HP; [exact K|]. apply H2. exact E. Qed.
  Lemma l_relink t p j k : lp (kept t) (relink t p j k).
  Proof. unfold relink. apply lp_any. intros n. destruct (oeqb _ _); apply l_tmod; reflexivity. Qed.
  Definition keptp (t : mem) (r : mem * option Z) : Prop := kept t (fst r).
  Lemma keptp_kept t1 t2 x : kept t1 t2 -> keptp t2 x -> keptp t1 x.
  Proof. unfold keptp. apply kept_trans. Qed.
  Lemma l_right_rotate t rt j k : lp (keptp t) (right_rotate t rt j k).
  Proof.
    unfold right_rotate. apply lp_any. intros kn. cbn zeta. apply (l_then t _ _ keptp keptp_kept); [destruct (n_right kn); tstep t|]. intros t1. apply (l_then t1 _ _ keptp keptp_kept); [tstep t|]. intros t2. apply lp_any. intros jn.
    apply (l_then t2 _ _ keptp keptp_kept); [tstep t|]. intros t3. apply lp_any. intros kn2. apply (l_then t3 _ _ keptp keptp_kept); [destruct (n_parent kn2); [apply l_relink|tstep t]|]. intros t4. apply (l_then t4 _ _ keptp keptp_kept); [tstep t|]. intros t5.
    apply (l_then t5 _ _ keptp keptp_kept); [tstep t|]. intros t6. apply lp_any. intros kn3. apply lp_ret. apply kept_refl.
  Qed.
  Lemma l_left_rotate t rt j k : lp (keptp t) (left_rotate t rt j k).
  Proof.
    unfold left_rotate. apply lp_any. intros kn. cbn zeta. apply (l_then t _ _ keptp keptp_kept); [destruct (n_left kn); tstep t|]. intros t1. apply (l_then t1 _ _ keptp keptp_kept); [tstep t|]. intros t2. apply lp_any. intros jn.
    apply (l_then t2 _ _ keptp keptp_kept); [tstep t|]. intros t3. apply lp_any. intros kn2. apply (l_then t3 _ _ keptp keptp_kept); [destruct (n_parent kn2); [apply l_relink|tstep t]|]. intros t4. apply (l_then t4 _ _ keptp keptp_kept); [tstep t|]. intros t5.
    apply (l_then t5 _ _ keptp keptp_kept); [tstep t|]. intros t6. apply lp_any. intros kn3. apply lp_ret. apply kept_refl.
  Qed.
  Lemma l_fix_size t w : lp (kept t) (fix_size t w).
  Proof. unfold fix_size. do 3 (apply lp_any; intros ?). apply l_tmod; reflexivity. Qed.

  (** the object: everything but the shape, the colors and the marks *)
  Record held (b b' : bst) : Prop := { h_what : forall i, what (b_mem b') i = what (b_mem b) i; h_len : len (b_mem b') = len (b_mem b); h_num : a_num (b_arr b') = a_num (b_arr b); h_last : a_last (b_arr b') = a_last (b_arr b); h_size : b_size b' = b_size b }.
  Lemma held_refl b : held b b.
  Proof. split; reflexivity. Qed.
  Lemma held_trans a b c : held a b -> held b c -> held a c.
  Proof. intros [A1 A2 A3 A4 A5] [B1 B2 B3 B4 B5]. split; try congruence; intros i; rewrite B1; apply A1. Qed.
  (** no cell is marked; only the root is; the root is *)
  Definition unmarked (b : bst) : Prop := forall i, flag (b_mem b) i = false.
  Definition one_mark (b : bst) : Prop := forall i, flag (b_mem b) i = true -> b_root b = Some i.
  Definition root_mark (b : bst) : Prop := exists i, b_root b = Some i /\ flag (b_mem b) i = true.
  Lemma kept_held b t rt : kept (b_mem b) t -> held b (set_root (set_mem b t) rt).
  Proof. intros (A1 & A2 & A3). split; cbn; auto. Qed.
  Lemma l_on_mem_kept b f : (forall t, lp (kept t) (f t)) -> lp (fun b' => held b b' /\ b_root b' = b_root b /\ forall i, flag (b_mem b') i = flag (b_mem b) i) (on_mem f b).
  Proof. intros H. unfold on_mem. apply (lp_bind _ (kept (b_mem b))); [apply H|]. intros t K. apply lp_ret. split; [apply (kept_held b t (b_root b) K)|]. split; [reflexivity|]. apply K. Qed.
  Lemma l_paint c i b : lp (fun b' => held b b' /\ b_root b' = b_root b /\ forall i, flag (b_mem b') i = flag (b_mem b) i) (paint c i b).
  Proof. apply l_on_mem_kept. intros t. apply l_tmod; reflexivity. Qed.
  Lemma l_rot_kept b f j k : (forall t rt j k, lp (keptp t) (f t rt j k)) -> lp (fun b' => held b b' /\ (unmarked b -> unmarked b')) (rot f b j k).
  Proof. intros H. unfold rot. apply (lp_bind _ (keptp (b_mem b))); [apply H|]. intros [t r] K. apply lp_ret. split; [apply kept_held; exact K|]. intros U i. unfold keptp in K. cbn [fst] in K. change (flag t i = false). rewrite (proj2 (proj2 K)). apply U. Qed.
  Lemma l_flag_root v b : lp (fun b' => held b b' /\ b_root b' = b_root b /\ exists j, b_root b = Some j /\ forall i, flag (b_mem b') i = if i =? j then v else flag (b_mem b) i) (flag_root v b).
  Proof.
    unfold flag_root, on_mem. intros b' EQ. destruct (tmod (b_mem b) (b_root b) (set_inf (with_isroot v))) as [t| |] eqn:ET; cbn [bind] in EQ; try discriminate. injection EQ as <-. apply tmod_inv in ET as (j & n & ER & HC & HC' & HL & HF).
    split; [split; cbn; auto|split; [reflexivity|]].
    - intros i. unfold what. change (b_mem (set_mem b t)) with t. destruct (Z.eq_dec i j) as [->|NE]; [rewrite HC, HC'; reflexivity|rewrite HF by (intros [X|[]]; congruence); reflexivity].
    - exists j. split; [exact ER|]. intros i. unfold flag. change (b_mem (set_mem b t)) with t. destruct (Z.eqb_spec i j) as [->|NE]; [rewrite HC'; reflexivity|]. rewrite HF by (intros [X|[]]; congruence). reflexivity.
  Qed.
  Lemma l_unflag b : one_mark b -> lp (fun b' => held b b' /\ unmarked b') (flag_root false b).
  Proof.
    intros O b' EQ. destruct (l_flag_root false b b' EQ) as (H & _ & j & ER & HF). split; [exact H|]. intros i. rewrite HF. destruct (Z.eqb_spec i j) as [|NE]; [reflexivity|]. destruct (flag (b_mem b) i) eqn:EF; [|reflexivity]. apply O in EF. congruence.
  Qed.
  Lemma l_reflag b : unmarked b -> lp (fun b' => held b b' /\ one_mark b' /\ root_mark b') (flag_root true b).
  Proof.
    intros U b' EQ. destruct (l_flag_root true b b' EQ) as (H & HR & j & ER & HF). split; [exact H|]. split.
    - intros i. rewrite HF. destruct (Z.eqb_spec i j) as [->|NE]; [congruence|]. rewrite U. discriminate.
    - exists j. split; [congruence|]. rewrite HF, Z.eqb_refl. reflexivity.
  Qed.
  (** a state with one mark *)
  Definition ok (wr : bool) (b b' : bst) : Prop := held b b' /\ one_mark b' /\ (wr = true -> root_mark b').
  Definition un (b b' : bst) : Prop := held b b' /\ unmarked b'.
  Lemma ok_paint wr b0 b c i : ok wr b0 b -> lp (ok wr b0) (paint c i b).
  Proof.
    intros (H & O & RM) b' EQ. destruct (l_paint c i b b' EQ) as (H1 & HR & HF). split; [eapply held_trans; eassumption|]. split.
    - intros z. rewrite HF, HR. apply O.
    - intros HW. destruct (RM HW) as (j & R1 & R2). exists j. rewrite HF, HR. auto.
  Qed.
  Lemma un_paint b0 b c i : un b0 b -> lp (un b0) (paint c i b).
  Proof. intros (H & O) b' EQ. destruct (l_paint c i b b' EQ) as (H1 & HR & HF). split; [eapply held_trans; eassumption|]. intros z. rewrite HF. apply O. Qed.
  Lemma un_right b0 b j k : un b0 b -> lp (un b0) (rot right_rotate b j k).
  Proof. intros (H & O) b' EQ. destruct (l_rot_kept b _ j k l_right_rotate b' EQ) as (H1 & H2). split; [eapply held_trans; eassumption|auto]. Qed.
  Lemma un_left b0 b j k : un b0 b -> lp (un b0) (rot left_rotate b j k).
  Proof. intros (H & O) b' EQ. destruct (l_rot_kept b _ j k l_left_rotate b' EQ) as (H1 & H2). split; [eapply held_trans; eassumption|auto]. Qed.
  Lemma ok_unflag wr b0 b : ok wr b0 b -> lp (un b0) (flag_root false b).
  Proof. intros (H & O & _) b' EQ. destruct (l_unflag b O b' EQ) as (H1 & H2). split; [eapply held_trans; eassumption|auto]. Qed.
  Lemma un_reflag wr b0 b : un b0 b -> lp (ok wr b0) (flag_root true b).
  Proof. intros (H & O) b' EQ. destruct (l_reflag b O b' EQ) as (H1 & H2 & H3). split; [eapply held_trans; eassumption|auto]. Qed.

  (** __fix_insert *)
  Lemma ok_rotate_insert wr b0 b i p : ok wr b0 b -> lp (fun r => ok wr b0 (fst r)) (rotate_insert b i p).
  Proof.
    intros H. unfold rotate_insert. apply (lp_bind _ (un b0)); [apply (ok_unflag wr); exact H|]. clear b H. intros b H. apply lp_any. intros left.
    apply (lp_bind _ (fun r => un b0 (fst (fst r)))).
    - destruct (negb left); apply lp_any; intros nl; (apply (lp_bind _ (fun r => un b0 (fst (fst r)))); [match goal with |- context [if ?v then _ else _] => destruct v end; [|apply lp_ret; exact H]; (apply (lp_bind _ (un b0)); [first [apply un_right|apply un_left]; exact H|]); intros b1 H1; cbn zeta; apply lp_any; intros q; apply lp_ret; exact H1|]);
        intros [[b1 ni] pi] H1; cbn [fst] in H1; cbn zeta; apply lp_any; intros q; (apply (lp_bind _ (un b0)); [first [apply un_right|apply un_left]; exact H1|]); intros b2 H2; apply lp_ret; exact H2.
    - clear b H left. intros [[b ni] pi] H. cbn [fst] in H. apply (lp_bind _ (un b0)); [apply un_paint; exact H|]. clear b H. intros b H. apply (lp_bind _ (un b0)); [apply un_paint; exact H|]. clear b H. intros b H. apply (lp_bind _ (ok wr b0)); [apply un_reflag; exact H|]. clear b H. intros b H. apply lp_ret. exact H.
  Qed.
  Lemma ok_fix_insert wr b0 b i : ok wr b0 b -> lp (ok wr b0) (fix_insert b i).
  Proof.
    intros H. unfold fix_insert. apply (lp_bind _ (ok wr b0)); [|clear b H; intros b H; apply ok_paint; exact H]. apply (lp_while (fun s => ok wr b0 (fst s))); [|exact H]. clear b i H. intros [b i] H. cbn [fst] in H. apply lp_any. intros p. destruct p as [p|]; [|apply lp_ret; exact H].
    apply lp_any. intros pr. apply lp_any. intros nr. destruct nr; [|apply lp_ret; exact H]. apply lp_any. intros gp. apply lp_any. intros u. apply lp_any. intros ur. apply (lp_bind _ (fun r => ok wr b0 (fst r))).
    - destruct ur; [|apply ok_rotate_insert; exact H]. apply (lp_bind _ (ok wr b0)); [apply ok_paint; exact H|]. clear b H. intros b H. apply (lp_bind _ (ok wr b0)); [apply ok_paint; exact H|]. clear b H. intros b H. apply (lp_bind _ (ok wr b0)); [apply ok_paint; exact H|]. clear b H. intros b H. apply lp_ret. exact H.
    - clear b H. intros [b ni] H. cbn [fst] in H. apply lp_any. intros n. destruct (k_isroot (n_inf n)); apply lp_ret; exact H.
  Qed.
  (** __fix_deletion *)
  Ltac painting b H := match type of H with ok ?wr ?b0 _ => apply (lp_bind _ (ok wr b0)) end; [apply ok_paint; exact H|]; clear b H; intros b H.
  Ltac upainting b H := match type of H with un ?b0 _ => apply (lp_bind _ (un b0)) end; [apply un_paint; exact H|]; clear b H; intros b H.
  Lemma un_ll b0 b i : un b0 b -> lp (un b0) (left_left_case b i).
  Proof. intros H. unfold left_left_case. apply lp_any. intros n. cbn zeta. do 2 (apply lp_any; intros ?). upainting b H. upainting b H. apply un_right. exact H. Qed.
  Lemma un_rr b0 b i : un b0 b -> lp (un b0) (right_right_case b i).
  Proof. intros H. unfold right_right_case. apply lp_any. intros n. cbn zeta. do 2 (apply lp_any; intros ?). upainting b H. upainting b H. apply un_left. exact H. Qed.
  Lemma un_rl b0 b i : un b0 b -> lp (un b0) (right_left_case b i).
  Proof. intros H. unfold right_left_case. apply lp_any. intros n. cbn zeta. apply lp_any; intros ?. upainting b H. apply (lp_bind _ (un b0)); [apply un_right; exact H|]. clear b H. intros b H. apply lp_any. intros c. apply un_left. exact H. Qed.
  Lemma un_lr b0 b i : un b0 b -> lp (un b0) (left_right_case b i).
  Proof. intros H. unfold left_right_case. apply lp_any. intros n. cbn zeta. apply lp_any; intros ?. upainting b H. apply (lp_bind _ (un b0)); [apply un_left; exact H|]. clear b H. intros b H. apply lp_any. intros c. apply un_right. exact H. Qed.
  Lemma ok_fix_deletion wr b0 b i : ok wr b0 b -> lp (ok wr b0) (fix_deletion b i).
  Proof.
    intros H. unfold fix_deletion. apply lp_any. intros color. apply (lp_while (fun s => ok wr b0 (fst (fst s)))); [|exact H]. clear b i color H. intros [[b i] color] H. cbn [fst] in H. destruct (negb _ && _); [|apply lp_ret; exact H]. apply lp_any. intros sb. apply lp_any. intros p. destruct sb as [sb|]; [|apply lp_ret; exact H].
    apply lp_any. intros sr. destruct sr.
    - apply (lp_bind _ (un b0)); [apply (ok_unflag wr); exact H|]. clear b H. intros b H. upainting b H. upainting b H. apply lp_any. intros left. apply (lp_bind _ (un b0)); [destruct left; [apply un_right|apply un_left]; exact H|]. clear b H. intros b H. apply (lp_bind _ (ok wr b0)); [apply un_reflag; exact H|]. clear b H. intros b H. apply lp_ret. exact H.
    - apply lp_any. intros rc. destruct rc.
      + apply (lp_bind _ (un b0)); [apply (ok_unflag wr); exact H|]. clear b H. intros b H. apply lp_any. intros [l r]. apply lp_any. intros lr. apply lp_any. intros left. apply (lp_bind _ (un b0)); [destruct lr, left; [apply un_ll|apply un_rl|apply un_lr|apply un_rr]; exact H|]. clear b H. intros b H.
        apply (lp_bind _ (ok wr b0)); [apply un_reflag; exact H|]. clear b H. intros b H. painting b H. apply lp_ret. exact H.
      + painting b H. apply lp_any. intros pc. destruct (pc =? 0); [apply lp_ret; exact H|]. painting b H. apply lp_ret. exact H.
  Qed.

  (** a cell becomes empty *)
  Record dropped (w : Z) (b b' : bst) : Prop := { d_what : forall i, what (b_mem b') i = if i =? w then None else what (b_mem b) i; d_last : a_last (b_arr b') = last_after b w; d_size : b_size b' = b_size b }.
  Lemma held_dropped w a b c : held a b -> dropped w b c -> dropped w a c.
  Proof. intros [A1 A2 A3 A4 A5] [B1 B2 B3]. split; [intros i; rewrite B1, A1; reflexivity|unfold last_after in *; rewrite <- A4; exact B2|congruence]. Qed.
  Lemma dropped_held w a b c : dropped w a b -> held b c -> dropped w a c.
  Proof. intros [B1 B2 B3] [A1 A2 A3 A4 A5]. split; [intros i; rewrite A1, B1; reflexivity|congruence|congruence]. Qed.
  Lemma what_used (t : mem) i : (exists n, cell t i = Some n) <-> what t i <> None.
  Proof. unfold what. destruct (cell t i); cbn; split; try congruence; eauto. intros (n & X). discriminate. Qed.
  Lemma l_update_size b i : lp (fun b' => held b b' /\ b_root b' = b_root b /\ forall i, flag (b_mem b') i = flag (b_mem b) i) (update_size b i).
  Proof.
    unfold update_size. destruct (b_os b); [|apply lp_ret; split; [apply held_refl|auto]]. apply (lp_bind _ (kept (b_mem b))).
    - apply (lp_while (fun s => kept (b_mem b) (fst s))); [|apply kept_refl]. intros [t w] K. cbn [fst] in K. destruct w as [w|]; [|apply lp_ret; exact K]. apply (lp_bind _ (kept (b_mem b))); [intros t' EQ; eapply kept_trans; [exact K|apply (l_fix_size t (Some w) t' EQ)]|]. clear t K. intros t K. apply lp_any. intros n. apply lp_ret. exact K.
    - intros t K. apply lp_ret. split; [apply (kept_held b t (b_root b) K)|]. split; [reflexivity|apply K].
  Qed.
  (** small enough to be not compacted *)
  Definition room (b : bst) (w : Z) : Prop := what (b_mem b) w <> None /\ w <= a_last (b_arr b) /\ len (b_mem b) <= 4 * (a_num (b_arr b) - 1).
  Lemma room_held b b' w : held b b' -> room b w -> room b' w.
  Proof. intros [A1 A2 A3 A4 A5] (R1 & R2 & R3). unfold room. rewrite A1, A2, A3, A4. auto. Qed.
  (** the cell was emptied, or nothing was *)
  Definition cut (w : Z) (b b' : bst) : Prop := one_mark b' /\ (dropped w b b' \/ a_num (b_arr b') = a_num (b_arr b)).
  Lemma l_aft_delete b w : room b w -> one_mark b -> lp (fun r => snd r = None /\ dropped w b (set_arr b (fst r)) /\ one_mark (set_arr b (fst r))) (aft_delete (b_arr b) (Some w)).
  Proof.
    intros (R1 & R2 & R3) O. apply what_used in R1 as (n & HC). destruct (s_aft_delete (b_arr b) w n HC R2 R3) as (m' & EQ & FL & FF). rewrite EQ. apply lp_ret. cbn [fst snd]. split; [reflexivity|].
    assert (HN : cell m' w = None). { unfold aft_delete in EQ. assert (HB := cell_inb _ _ _ HC). destruct ((w <=? a_last (b_arr b)) && (0 <=? w)); [|injection EQ as EQ; exfalso; assert (X := f_equal (@a_num D) EQ); cbn in X; lia]. assert (EA : aget (a_data (b_arr b)) w = Ret (Some n)). { unfold cell in HC. unfold b_mem in HC. destruct (aget (a_data (b_arr b)) w) as [[q|]| |]; congruence. }
      rewrite EA in EQ. cbn [bind] in EQ. unfold inb in HB. rewrite aset_ok in EQ by exact HB. cbn [bind] in EQ. unfold aft_modify in EQ. cbn [a_num a_data a_last] in EQ. destruct (4 * (a_num (b_arr b) - 1) <? len (zupd (a_data (b_arr b)) w None)) eqn:EL; [|injection EQ as <-; rewrite cell_zupd by exact HB; rewrite Z.eqb_refl; reflexivity].
      apply Z.ltb_lt in EL. rewrite len_zupd in EL. unfold b_mem in R3. lia. }
    assert (CC : forall i, cell m' i = if i =? w then None else cell (b_mem b) i). { intros i. destruct (Z.eqb_spec i w) as [->|NE]; [exact HN|]. apply FF. intros [X|[]]. congruence. }
    split; [split|].
    - intros i. unfold what. change (b_mem (set_arr _ _)) with m'. rewrite CC. destruct (i =? w); reflexivity.
    - reflexivity.
    - reflexivity.
    - intros i. unfold flag. change (b_mem (set_arr _ _)) with m'. rewrite CC. cbn [set_arr b_root]. intros X. apply O. unfold flag. destruct (i =? w); [discriminate|exact X].
  Qed.
  Lemma l_resize w b0 b i : dropped w b0 b -> one_mark b -> lp (fun b' => dropped w b0 b' /\ one_mark b') (update_size b i).
  Proof. intros DR O b' EQ. destruct (l_update_size b i b' EQ) as (H & HR & HF). split; [eapply dropped_held; eassumption|]. intros z. rewrite HF, HR. apply O. Qed.
  Lemma l_remove_node b w : room b w -> one_mark b -> lp (cut w b) (remove_node b (Some w)).
  Proof.
    intros R O. unfold remove_node. apply lp_any. intros p. apply lp_any. intros lf.
    assert (DEL : forall (f : aft D * option (list (option Z * Z)) -> res bst), (forall arr, dropped w b (set_arr b arr) -> one_mark (set_arr b arr) -> lp (cut w b) (f (arr, None))) -> lp (cut w b) (bind (aft_delete (b_arr b) (Some w)) f)).
    { intros f H. eapply lp_bind; [apply (l_aft_delete b w R O)|]. intros [arr d] (X1 & X2 & X3). cbn [fst snd] in *. subst d. apply H; assumption. }
    assert (FIN : forall arr i, dropped w b (set_arr b arr) -> one_mark (set_arr b arr) -> lp (cut w b) (update_size (set_arr b arr) i)). { intros arr i X1 X2 b' EQ. destruct (l_resize w b _ i X1 X2 b' EQ). split; auto. }
    destruct lf.
    - apply lp_any. intros pn. apply lp_any. intros rn. apply DEL. intros arr X1 X2. apply FIN; assumption.
    - apply lp_any. intros one. destruct one.
      + apply lp_any. intros pn. apply lp_any. intros rn. apply DEL. intros arr X1 X2. apply FIN; assumption.
      + intros b' EQ. destruct (l_update_size b p b' EQ) as (H & HR & HF). split; [intros z; rewrite HF, HR; apply O|right; apply (h_num _ _ H)].
  Qed.
  Lemma held_cut w a b c : held a b -> cut w b c -> cut w a c.
  Proof. intros H (O & [X|X]); split; auto; [left; eapply held_dropped; eassumption|right; rewrite X; apply (h_num _ _ H)]. Qed.
  Lemma cut_held w a b c : cut w a b -> held b c -> one_mark c -> cut w a c.
  Proof. intros (_ & [X|X]) H O; split; auto; [left; eapply dropped_held; eassumption|right; rewrite (h_num _ _ H); exact X]. Qed.
  Lemma ok_keep b0 b b' : ok false b0 b -> held b b' /\ b_root b' = b_root b /\ (forall i, flag (b_mem b') i = flag (b_mem b) i) -> ok false b0 b'.
  Proof. intros (H & O & _) (H1 & HR & HF). split; [eapply held_trans; eassumption|]. split; [intros z; rewrite HF, HR; apply O|discriminate]. Qed.
  Lemma l_set_link b0 b p i v : ok false b0 b -> lp (ok false b0) (set_link b p i v).
  Proof. intros H. unfold set_link. apply lp_any. intros left. intros b' EQ. eapply ok_keep; [exact H|]. eapply (l_on_mem_kept b); [|exact EQ]. intros t. destruct left; apply l_tmod; reflexivity. Qed.
  Lemma l_leaf_case b w w1 p : room b w -> one_mark b -> get_parent (b_mem b) (Some w) = Ret (Some p) -> lp (cut w b) (leaf_case b (Some w) w1).
  Proof.
    intros R O EP. unfold leaf_case. rewrite EP. cbn [bind]. apply lp_any. intros color. apply lp_any. intros black. assert (K : ok false b b) by (split; [apply held_refl|split; [exact O|discriminate]]).
    apply (lp_bind _ (ok false b)); [destruct black; [apply ok_fix_deletion; exact K|]; apply lp_any; intros sb; destruct sb; [apply ok_paint; exact K|apply lp_ret; exact K]|]. intros b1 K1. apply (lp_bind _ (ok false b)); [apply l_set_link; exact K1|]. intros b2 (K2 & O2 & _) b' EQ.
    eapply held_cut; [exact K2|]. apply (l_remove_node b2 w (room_held _ _ _ K2 R) O2 b' EQ).
  Qed.
  Lemma l_one_child_case b w w1 p : room b w -> one_mark b -> get_parent (b_mem b) (Some w) = Ret (Some p) -> lp (cut w b) (one_child_case b (Some w) w1).
  Proof.
    intros R O EP. unfold one_child_case. apply lp_any. intros color. rewrite EP. cbn [bind]. assert (K : ok false b b) by (split; [apply held_refl|split; [exact O|discriminate]]).
    apply (lp_bind _ (ok false b)); [apply l_set_link; exact K|]. intros b1 K1. apply (lp_bind _ (ok false b)). { intros b' EQ. eapply ok_keep; [exact K1|]. eapply (l_on_mem_kept b1); [|exact EQ]. intros t. apply l_tmod; reflexivity. }
    intros b2 (K2 & O2 & _). apply (lp_bind _ (cut w b)). { intros b' EQ. eapply held_cut; [exact K2|]. apply (l_remove_node b2 w (room_held _ _ _ K2 R) O2 b' EQ). }
    intros b3 K3. apply lp_any. intros black. assert (K4 : ok false b3 b3) by (split; [apply held_refl|split; [apply K3|discriminate]]). intros b' EQ. assert (K5 : ok false b3 b'). { destruct black; [eapply ok_fix_deletion; eassumption|eapply ok_paint; eassumption]. }
    destruct K5 as (H5 & O5 & _). eapply cut_held; eassumption.
  Qed.
End Mix7.
