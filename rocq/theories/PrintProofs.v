From Verif Require Import Base ArraysModel ArraysProofs LinkedModel LinkedProofs LinkedCircular LinkedDouble StackQueueModel StackQueueSpec StackQueueProofs DodaPacked PrintModel.

Section Lists.
  Context {K : Type}.
  Notation heap := (list (cell K)).
  Lemma ky_c (h : heap) a c k : nth_error h a = Some c -> ky h a = Some k -> c_key c = k.
  Proof. intros E H. unfold ky in H. rewrite E in H. cbn in H. congruence. Qed.

  Lemma print_loop (st : ll K) : forall ps p q ks acc fuel, chain (nx (l_heap st)) p ps q -> Forall2 (fun a k => ky (l_heap st) a = Some k) ps ks ->
    (forall pre a post, ps = pre ++ a :: post -> post <> [] -> nx (l_heap st) a <> Some (l_head st)) -> q = None \/ (q = l_head st /\ ps <> []) -> (length ps < fuel)%nat ->
    while_loop fuel (fun '(elements, cur) =>
      match cur with
      | None => Ret (Break elements)
      | Some a =>
        c <- deref (l_heap st) cur ;;
        let elements := elements ++ [c_key c] in
        if opt_eqb (c_next c) (l_head st) then Ret (Break elements) else Ret (Next (elements, c_next c))
      end) (acc, p) = Ret (acc ++ ks).
  Proof.
    induction ps as [|a ps IH]; intros p q ks acc fuel C F NB Q L; inversion F; subst; cbn [chain] in C.
    - subst p. destruct Q as [->|(_ & X)]; [|easy]. destruct fuel; [lia|]. cbn. rewrite app_nil_r. reflexivity.
    - destruct C as [-> (r & Hr & C)]. destruct fuel as [|fuel]; [cbn in L; lia|]. cbn [while_loop].
      destruct (nx_cell _ _ _ Hr) as (c & Ec & En). rewrite (deref_some _ _ _ Ec). cbn [bind]. rewrite (ky_c _ _ _ _ Ec H1), En.
      destruct ps as [|b ps].
      + cbn [chain] in C. subst r. inversion H3; subst. destruct Q as [->|(-> & _)].
        * destruct (opt_eqb None (l_head st)) eqn:E; [reflexivity|]. destruct fuel; [cbn in L; lia|]. reflexivity.
        * replace (opt_eqb (l_head st) (l_head st)) with true; [reflexivity|]. destruct (l_head st); [|reflexivity]. cbn. symmetry; apply Nat.eqb_refl.
      + assert (NE : opt_eqb r (l_head st) = false).
        { destruct (opt_eqb r (l_head st)) eqn:E; [|reflexivity]. exfalso. apply (NB [] a (b :: ps) eq_refl ltac:(discriminate)). rewrite Hr. f_equal.
          destruct r, (l_head st); cbn in E; try easy. apply Nat.eqb_eq in E. congruence. }
        rewrite NE. replace (acc ++ y :: l') with ((acc ++ [y]) ++ l') by (rewrite <- app_assoc; reflexivity).
        apply (IH r q); try assumption; [|destruct Q as [->|(-> & _)]; [left; reflexivity|right; split; [reflexivity|discriminate]]|cbn in *; lia].
        intros pre x post E NP. apply (NB (a :: pre) x post); [rewrite E; reflexivity|exact NP].
  Qed.
  Lemma no_back (st : ll K) ps q ks : rep st ps q ks -> forall pre a post, ps = pre ++ a :: post -> post <> [] -> nx (l_heap st) a <> Some (l_head st).
  Proof.
    intros R pre a post E NP H. assert (C := r_fw _ _ _ _ R). assert (ND := r_nd _ _ _ _ R). subst ps. pose proof (chain_hd _ _ _ _ C) as EH.
    apply chain_app in C. destruct C as (_ & C). cbn [hd_or chain] in C. destruct C as (_ & r & Hr & C). rewrite H in Hr. injection Hr as <-. destruct post as [|b post]; [easy|].
    cbn [chain] in C. destruct C as (E1 & _). rewrite E1 in EH. destruct pre as [|x pre]; cbn in EH; injection EH as ->.
    - cbn in ND. inversion ND as [|? ? N1 N2]; subst. apply N1. left; reflexivity.
    - cbn in ND. inversion ND as [|? ? N1 N2]; subst. apply N1. apply in_or_app. right. right. left. reflexivity.
  Qed.
  Lemma ll_printed_ok (st : ll K) ps ks : rep st ps None ks -> ll_printed (S (length (l_heap st))) st = Ret ks.
  Proof.
    intros R. unfold ll_printed. change (Ret ks) with (Ret ([] ++ ks)). eapply print_loop; [apply (r_fw _ _ _ _ R)|apply (r_keys _ _ _ _ R)|apply (no_back _ _ _ _ R)|left; reflexivity|].
    pose proof (rep_size_heap _ _ _ _ R). lia.
  Qed.
  Lemma cl_printed_ok (st : ll K) ps ks : crep st ps ks -> ll_printed (S (length (l_heap st))) st = Ret ks.
  Proof.
    intros R. unfold ll_printed. change (Ret ks) with (Ret ([] ++ ks)). pose proof (r_fw _ _ _ _ R) as C. pose proof (chain_hd _ _ _ _ C) as EH.
    eapply print_loop; [exact C|apply (r_keys _ _ _ _ R)|apply (no_back _ _ _ _ R)| |pose proof (rep_size_heap _ _ _ _ R); lia].
    destruct ps as [|a ps]; [left; reflexivity|right]. split; [symmetry; exact EH|discriminate].
  Qed.
  Lemma ls_loop (st : ll K) : forall ps p ks acc fuel, chain (nx (l_heap st)) p ps None -> Forall2 (fun a k => ky (l_heap st) a = Some k) ps ks -> (length ps < fuel)%nat ->
    while_loop fuel (fun '(elements, cur) =>
      match cur with
      | None => Ret (Break (rev elements))
      | Some a => c <- deref (l_heap st) cur ;; Ret (Next (elements ++ [c_key c], c_next c))
      end) (acc, p) = Ret (rev (acc ++ ks)).
  Proof.
    induction ps as [|a ps IH]; intros p ks acc fuel C F L; inversion F; subst; cbn [chain] in C; (destruct fuel as [|fuel]; [cbn in L; lia|]).
    - subst p. cbn. rewrite app_nil_r. reflexivity.
    - destruct C as [-> (r & Hr & C)]. cbn [while_loop]. destruct (nx_cell _ _ _ Hr) as (c & Ec & En). rewrite (deref_some _ _ _ Ec). cbn [bind]. rewrite (ky_c _ _ _ _ Ec H1), En.
      rewrite (IH r l' (acc ++ [y]) fuel C H3 ltac:(cbn in L; lia)). rewrite <- app_assoc. reflexivity.
  Qed.
  Lemma ls_printed_ok (st : ll K) l : lrel st l -> ls_printed (S (length (l_heap st))) st = Ret (rev l).
  Proof.
    intros (ps & R). unfold ls_printed. rewrite (ls_loop st ps _ l); [reflexivity|apply (r_fw _ _ _ _ R)|apply (r_keys _ _ _ _ R)|]. pose proof (rep_size_heap _ _ _ _ R). lia.
  Qed.

  Lemma sll_print ops ks rs : Forall no_before_op ops -> spec_ops ops [] = Some (ks, rs) ->
    exists st, cls_run SLL ops (ll_new K) = (st, rs) /\ ll_printed (S (length (l_heap st))) st = Ret ks.
  Proof. intros Ho H. destruct (sll_run_sim ops _ _ _ _ _ rep_new Ho H) as (st & ps & E & R). exists st. split; [exact E|]. eapply ll_printed_ok; eauto. Qed.
  Lemma dll_print ops ks rs : spec_ops ops [] = Some (ks, rs) ->
    exists st, cls_run DLL ops (ll_new K) = (st, rs) /\ ll_printed (S (length (l_heap st))) st = Ret ks.
  Proof.
    intros H. destruct (dll_run_sim ops (ll_new K) [] [] ks rs) as (st & ps & E & R); [split; [apply rep_new|reflexivity]|exact H|].
    exists st. split; [exact E|]. destruct R as (R & _). eapply ll_printed_ok; eauto.
  Qed.
  Lemma scl_print ops ks rs : hist_ok circ_ok ops [] -> spec_ops ops [] = Some (ks, rs) ->
    exists st, cls_run SCL ops (ll_new K) = (st, rs) /\ ll_printed (S (length (l_heap st))) st = Ret ks.
  Proof. intros Ho H. destruct (scl_run_sim ops (ll_new K) [] _ _ _ rep_new Ho H) as (st & ps & E & R). exists st. split; [exact E|]. eapply cl_printed_ok; eauto. Qed.
  Lemma dcl_print ops ks rs : hist_ok dcirc_ok ops [] -> spec_ops ops [] = Some (ks, rs) ->
    exists st, cls_run DCL ops (ll_new K) = (st, rs) /\ ll_printed (S (length (l_heap st))) st = Ret ks.
  Proof. intros Ho H. destruct (dcl_run_sim ops (ll_new K) [] _ _ _ dc_new Ho H) as (st & ps & E & R). exists st. split; [exact E|]. eapply cl_printed_ok, dc_crep; eauto. Qed.
  Lemma stack_print (items : list K) (ops : list (stack_op K)) : ls_printed (S (length (l_heap (fst (run_hist ls_step ops (ls_new items)))))) (fst (run_hist ls_step ops (ls_new items))) = Ret (fst (run_hist (stack_spec (OVal None)) ops items)) .
  Proof.
    destruct (run_sim _ _ _ _ ls_step (stack_spec (OVal None)) (@ls_rel K) ls_step_sim ops (ls_new items) items (ls_new_rel items)) as (_ & R).
    rewrite (ls_printed_ok _ _ R), rev_involutive. reflexivity.
  Qed.
  Lemma queue_print de (items : list K) (ops : list (queue_op K)) : ll_printed (S (length (l_heap (fst (run_hist (lq_step de) ops (lq_new items)))))) (fst (run_hist (lq_step de) ops (lq_new items))) = Ret (fst (run_hist (deque_spec de) ops items)) .
  Proof.
    destruct (run_sim _ _ _ _ (lq_step de) (deque_spec de) (@lrel K) (lq_step_sim de) ops (lq_new items) items (lq_new_rel items)) as (_ & ps & R).
    eapply ll_printed_ok; eauto.
  Qed.
End Lists.

Section Arrays.
  Context {A : Type}.
  Lemma firstn_snoc_zn (a : list (option A)) i : 0 <= i < len a -> firstn (Z.to_nat (i + 1)) a = firstn (Z.to_nat i) a ++ [zn None a i].
  Proof. intros H. unfold len in H. replace (Z.to_nat (i + 1)) with (S (Z.to_nat i)) by lia. rewrite (firstn_S_nth _ None) by lia. reflexivity. Qed.
  Lemma doda_printed_ok (d : doda A) : doda_inv d -> doda_printed d = Ret (firstn (Z.to_nat (d_last d + 1)) (d_data d)).
  Proof.
    intros I. pose proof (di_last _ I) as Hl. pose proof (di_size _ I) as Hs. unfold doda_printed.
    match goal with |- ?m = Ret ?x => assert (W : wp m (fun r => r = x)) end; [|apply wp_ex in W; destruct W as (r & E & ->); exact E].
    apply wp_for_range with (I := fun i out => out = firstn (Z.to_nat i) (d_data d) ++ repeat None (Z.to_nat (d_last d + 1 - i))).
    - cbn. f_equal. lia.
    - intros i out Hi ->. rewrite (lget_ok _ None) by lia. cbn [bind].
      assert (E : firstn (Z.to_nat (i + 1)) (d_data d) = firstn (Z.to_nat i) (d_data d) ++ [zn None (d_data d) i]) by (apply firstn_snoc_zn; lia).
      assert (ER : Z.to_nat (d_last d + 1 - i) = S (Z.to_nat (d_last d + 1 - (i + 1)))) by lia.
      destruct (zn None (d_data d) i) as [v|] eqn:Ev.
      + apply wp_aset; [rewrite len_app, len_repeat; unfold len in *; rewrite firstn_length; lia|]. unfold zupd.
        replace (Z.to_nat i) with (length (firstn (Z.to_nat i) (d_data d))) at 2 by (unfold len in Hs; rewrite firstn_length; lia).
        rewrite upd_repeat_frontier by lia. rewrite E. do 2 f_equal. lia.
      + apply wp_ret. rewrite E, ER. cbn [repeat]. rewrite <- app_assoc. reflexivity.
    - intros out ->. rewrite Z.max_r by lia. replace (Z.to_nat (d_last d + 1 - (d_last d + 1))) with 0%nat by lia. cbn [repeat]. rewrite app_nil_r. reflexivity.
  Qed.
  Lemma doda_reversed_ok (d : doda A) : doda_inv d -> doda_reversed d = Ret (rev (firstn (Z.to_nat (d_last d + 1)) (d_data d))).
  Proof.
    intros I. pose proof (di_last _ I) as Hl. pose proof (di_size _ I) as Hs. unfold doda_reversed.
    assert (G : forall n i acc, i = Z.of_nat n - 1 -> i < d_size d -> forM (zrange_down i (-1)) (fun i acc => x <- lget (d_data d) i ;; Ret (acc ++ [x])) acc = Ret (acc ++ rev (firstn n (d_data d)))).
    { induction n as [|n IH]; intros i acc Ei Hi.
      - rewrite zrange_down_nil by lia. cbn. rewrite app_nil_r. reflexivity.
      - rewrite zrange_down_cons by lia. cbn [forM]. rewrite (lget_ok _ None) by lia. cbn [bind]. rewrite (IH (i - 1)) by lia.
        rewrite (firstn_S_nth _ None) by (unfold len in Hs; lia). rewrite rev_app_distr. cbn [rev app]. rewrite <- app_assoc. cbn [app]. unfold zn. do 3 f_equal. f_equal. lia. }
    apply (G (Z.to_nat (d_last d + 1)) (d_last d)); lia.
  Qed.
  Lemma dynamic_print ln ld (d0 : doda A) ops : doda_start ln ld d0 -> exists d shown, doda_run ops d0 = Ret d /\ doda_printed d = Ret shown /\ doda_reversed d = Ret (rev shown) /\
    content shown = content (d_data d) /\ (forall i v, nth_error shown i = Some v -> doda_get d (Z.of_nat i) = Ret v) /\ (forall i v, doda_get d i = Ret (Some v) -> nth_error shown (Z.to_nat i) = Some (Some v)).
  Proof.
    intros S. destruct (doda_run_spec ops d0 (doda_start_inv _ _ _ S)) as (d & E & I & _). exists d. eexists. split; [exact E|]. split; [apply doda_printed_ok, I|]. split; [apply doda_reversed_ok, I|].
    pose proof (di_last _ I) as Hl. pose proof (di_size _ I) as Hs.
    split; [apply inv_content_firstn, I|]. split.
    - intros i v H. assert (L : (i < length (firstn (Z.to_nat (d_last d + 1)) (d_data d)))%nat) by (apply nth_error_Some; congruence). rewrite firstn_length in L.
      unfold doda_get. destruct (Z.leb_spec (d_size d) (Z.of_nat i)); [lia|]. destruct (Z.ltb_spec (Z.of_nat i) 0); [lia|]. cbn [orb]. rewrite (lget_ok _ None) by lia. unfold zn. rewrite Nat2Z.id. f_equal. apply nth_error_nth.
      rewrite <- (firstn_skipn (Z.to_nat (d_last d + 1)) (d_data d)), nth_error_app1; [exact H|rewrite firstn_length; lia].
    - intros i v H. unfold doda_get in H. destruct (Z.leb_spec (d_size d) i); [discriminate|]. destruct (Z.ltb_spec i 0); [discriminate|]. cbn [orb] in H. rewrite (lget_ok _ None) in H by lia. injection H as H.
      assert (i <= d_last d). { destruct (Z_le_gt_dec i (d_last d)); [assumption|]. rewrite (di_tail _ I) in H by lia. discriminate. }
      assert (NE : nth_error (d_data d) (Z.to_nat i) = Some (Some v)). { rewrite <- H. unfold zn. apply nth_error_nth'. unfold len in Hs. lia. }
      rewrite <- (firstn_skipn (Z.to_nat (d_last d + 1)) (d_data d)), nth_error_app1 in NE; [exact NE|rewrite firstn_length; unfold len in Hs; lia].
  Qed.
  Lemma firstn_repeat_tail (a : list (option A)) n : (forall i, Z.of_nat n <= i < len a -> zn None a i = None) -> (n <= length a)%nat -> a = firstn n a ++ repeat None (length a - n).
  Proof.
    intros H L. rewrite <- (firstn_skipn n a) at 1. f_equal. apply nth_ext with (d := None) (d' := None); [rewrite skipn_length, repeat_length; reflexivity|].
    intros i Hi. rewrite skipn_length in Hi. rewrite nth_repeat. transitivity (zn None a (Z.of_nat (n + i))); [|apply H; unfold len; lia]. unfold zn. rewrite Nat2Z.id.
    transitivity (nth (n + i) (firstn n a ++ skipn n a) None); [|rewrite firstn_skipn; reflexivity]. rewrite app_nth2 by (rewrite firstn_length; lia). f_equal. rewrite firstn_length. lia.
  Qed.
  Lemma array_stack_print (items : list A) (ops : list (stack_op A)) : exists spare, as_printed (fst (run_hist as_step ops (as_new items))) = map Some (fst (run_hist (stack_spec (OErr IndexError)) ops items)) ++ repeat (@None A) spare.
  Proof.
    destruct (run_sim _ _ _ _ as_step (stack_spec (OErr IndexError)) (@as_rel A) as_step_sim ops (as_new items) items (as_new_rel items)) as (_ & I & Ec & Hp).
    set (d := fst (run_hist as_step ops (as_new items))) in *. pose proof (di_last _ I) as Hl. pose proof (di_size _ I) as Hs. pose proof (di_num _ I) as Hn. exists (length (d_data d) - Z.to_nat (d_last d + 1))%nat.
    unfold as_printed. rewrite (firstn_repeat_tail (d_data d) (Z.to_nat (d_last d + 1))) at 1; [|intros i Hi; apply (di_tail _ I); lia|unfold len in Hs; lia]. f_equal.
    pose proof (inv_content_firstn d I) as E. rewrite <- Ec, <- E. apply content_all_some. rewrite E. unfold len in *. rewrite firstn_length. lia.
  Qed.
End Arrays.
