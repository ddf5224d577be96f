From Verif Require Import Base ArraysModel ArraysProofs LinkedModel LinkedProofs StackQueueModel StackQueueSpec.

Lemma run_sim S L O R (step : S -> O -> S * R) (spec : L -> O -> L * R) (Rel : S -> L -> Prop) :
  (forall s l o, Rel s l -> snd (step s o) = snd (spec l o) /\ Rel (fst (step s o)) (fst (spec l o))) ->
  forall ops s l, Rel s l -> snd (run_hist step ops s) = snd (run_hist spec ops l) /\
    Rel (fst (run_hist step ops s)) (fst (run_hist spec ops l)).
Proof.
  intros H. induction ops as [|o ops IH]; intros s l HR; simpl; [auto|].
  destruct (H s l o HR) as [E R1]. destruct (step s o) as [s1 r1], (spec l o) as [l1 r2]; simpl in *.
  destruct (IH s1 l1 R1) as [E2 R2]. destruct (run_hist step ops s1), (run_hist spec ops l1); simpl in *.
  split; [congruence|assumption].
Qed.

Section DodaMore.
  Context {A : Type}.

  (** append before the final _modify, cell by cell *)
  Lemma doda_append_raw (d : doda A) x : doda_inv d -> exists data1 size1,
    doda_append d x = doda_modify (Doda data1 size1 (d_num d + 1) (d_last d + 1) (d_ln d) (d_ld d)) /\
    doda_inv (Doda data1 size1 (d_num d + 1) (d_last d + 1) (d_ln d) (d_ld d)) /\
    (size1 = d_size d /\ d_last d + 1 < d_size d \/ size1 = 2 * d_size d + 1 /\ d_last d + 1 = d_size d) /\
    content data1 = content (d_data d) ++ [x] /\
    (forall i, 0 <= i < size1 -> zn None data1 i = if i =? d_last d + 1 then Some x else if i <? d_size d then zn None (d_data d) i else None).
  Proof.
    intros I. pose proof (di_last _ I) as Hl. pose proof (di_size _ I) as Hs. pose proof (di_num _ I) as Hn.
    destruct (Z.eqb_spec (d_last d + 1) (d_size d)) as [El|El].
    - set (data1 := (d_data d ++ [Some x]) ++ repeat None (Z.to_nat (d_size d))).
      assert (Ec : content data1 = content (d_data d) ++ [x]).
      { unfold data1. rewrite !content_app, content_repeat, app_nil_r. reflexivity. }
      assert (Hcell : forall i, 0 <= i < 2 * d_size d + 1 -> zn None data1 i = if i =? d_last d + 1 then Some x else if i <? d_size d then zn None (d_data d) i else None).
      { intros i Hi. unfold data1, zn. unfold len in Hs. destruct (Z.eqb_spec i (d_last d + 1)).
        - rewrite app_nth1 by (rewrite app_length; simpl; lia). rewrite app_nth2 by lia.
          replace (Z.to_nat i - length (d_data d))%nat with 0%nat by lia. reflexivity.
        - destruct (Z.ltb_spec i (d_size d)).
          + rewrite app_nth1 by (rewrite app_length; simpl; lia). rewrite app_nth1 by lia. reflexivity.
          + rewrite app_nth2 by (rewrite app_length; simpl; lia).
            destruct (nth_in_or_default (Z.to_nat i - length (d_data d ++ [Some x])) (repeat (@None A) (Z.to_nat (d_size d))) None) as [Hin|Hd]; [|exact Hd].
            apply repeat_spec in Hin. exact Hin. }
      exists data1, (2 * d_size d + 1). split; [|split; [|split; [right; lia|split; [exact Ec|exact Hcell]]]].
      + unfold doda_append. rewrite (proj2 (Z.eqb_eq _ _) El).
        match goal with |- context [forM ?l ?b ?s] =>
          assert (E : forM l b s = Ret (d_data d ++ repeat None (Z.to_nat (d_size d + 1)))) end.
        { match goal with |- ?m = _ => assert (W : wp m (fun r => r = (d_data d ++ repeat None (Z.to_nat (d_size d + 1))))) end.
          { apply wp_for_range with (I := fun i arr => arr = firstn (Z.to_nat i) (d_data d) ++ repeat None (Z.to_nat (2 * d_size d + 1 - i))).
            - simpl. f_equal; lia.
            - intros i arr Hi ->. rewrite (aget_ok _ None) by lia. cbn [bind]. apply wp_aset.
              + rewrite len_app, len_repeat. unfold len. rewrite firstn_length. unfold len in Hs. lia.
              + unfold zupd. replace (Z.to_nat (i+1)) with (S (Z.to_nat i)) by lia.
                unfold len in Hs. rewrite (firstn_S_nth _ None) by lia.
                replace (Z.to_nat i) with (length (firstn (Z.to_nat i) (d_data d))) at 2 by (rewrite firstn_length; lia).
                rewrite upd_repeat_frontier by lia. unfold zn. f_equal. f_equal. lia.
            - intros arr ->. rewrite firstn_all2 by (unfold len in Hs; lia). do 2 f_equal. lia. }
          apply wp_ex in W. destruct W as (r & E & ->). exact E. }
        rewrite E. cbn [bind]. rewrite aset_ok by (rewrite len_app, len_repeat; lia). cbn [bind d_data d_size d_num d_last d_ln d_ld].
        do 2 f_equal. unfold zupd, data1. replace (Z.to_nat (d_last d + 1)) with (length (d_data d)) by (unfold len in Hs; lia).
        rewrite upd_repeat_frontier by lia. f_equal. f_equal. lia.
      + constructor; cbn [d_data d_size d_num d_last d_ln d_ld].
        * unfold data1. rewrite !len_app, len_repeat. change (len [Some x]) with 1. lia.
        * lia.
        * intros i Hi. rewrite Hcell by lia. destruct (Z.eqb_spec i (d_last d + 1)); [lia|]. destruct (Z.ltb_spec i (d_size d)); [lia|reflexivity].
        * rewrite Ec, len_app. change (len [x]) with 1. lia.
        * apply I.
    - set (data1 := zupd (d_data d) (d_last d + 1) (Some x)).
      assert (Hcell : forall i, 0 <= i < d_size d -> zn None data1 i = if i =? d_last d + 1 then Some x else if i <? d_size d then zn None (d_data d) i else None).
      { intros i Hi. unfold data1. rewrite zn_zupd by lia. rewrite (Z.eqb_sym (d_last d + 1) i). destruct (Z.eqb_spec i (d_last d + 1)); [reflexivity|].
        destruct (Z.ltb_spec i (d_size d)); [reflexivity|lia]. }
      assert (E1 : doda_append d x = doda_modify (Doda data1 (d_size d) (d_num d + 1) (d_last d + 1) (d_ln d) (d_ld d))).
      { unfold doda_append. rewrite (proj2 (Z.eqb_neq _ _) El). rewrite aset_ok by lia. reflexivity. }
      assert (Ec : content data1 = content (d_data d) ++ [x]).
      { unfold data1, zupd. rewrite upd_split by (unfold len in Hs; lia). rewrite content_app.
        rewrite (inv_content_firstn d I). f_equal.
        change (Some x :: skipn (S (Z.to_nat (d_last d + 1))) (d_data d)) with ([Some x] ++ skipn (S (Z.to_nat (d_last d + 1))) (d_data d)).
        rewrite content_app. simpl. f_equal.
        assert (E0 := inv_content_firstn d I).
        rewrite <- (firstn_skipn (S (Z.to_nat (d_last d + 1))) (d_data d)) in E0 at 2.
        rewrite content_app in E0. unfold len in Hs. rewrite (firstn_S_nth _ None) in E0 by lia.
        rewrite content_app, <- app_assoc in E0.
        rewrite <- app_nil_r in E0 at 1. apply app_inv_head in E0. symmetry in E0. apply app_eq_nil in E0. apply E0. }
      exists data1, (d_size d). split; [exact E1|]. split; [|split; [left; lia|split; [exact Ec|exact Hcell]]].
      constructor; cbn [d_data d_size d_num d_last d_ln d_ld].
      + unfold data1. rewrite len_zupd. exact Hs.
      + lia.
      + intros i Hi. rewrite Hcell by lia. destruct (Z.eqb_spec i (d_last d + 1)); [lia|].
        destruct (Z.ltb_spec i (d_size d)); [|reflexivity]. apply (di_tail _ I). lia.
      + rewrite Ec, len_app. change (len [x]) with 1. lia.
      + apply I.
  Qed.

  Lemma doda_delete_raw (d : doda A) i v : doda_inv d -> 0 <= i <= d_last d -> zn None (d_data d) i = Some v ->
    let d1 := Doda (zupd (d_data d) i None) (d_size d) (d_num d - 1) (if d_last d =? i then d_last d - 1 else d_last d) (d_ln d) (d_ld d) in
    doda_get d i = Ret (Some v) /\ doda_delete d i = doda_modify d1 /\ doda_inv d1 /\
    content (zupd (d_data d) i None) = content (firstn (Z.to_nat i) (d_data d)) ++ content (skipn (S (Z.to_nat i)) (d_data d)).
  Proof.
    intros I Hi Ev d1. pose proof (di_last _ I) as Hl. pose proof (di_size _ I) as Hs. pose proof (di_num _ I) as Hn.
    split; [|split; [|split]].
    - unfold doda_get. destruct (Z.leb_spec (d_size d) i); [lia|]. destruct (Z.ltb_spec i 0); [lia|]. simpl. rewrite (lget_ok _ None) by lia. congruence.
    - unfold doda_delete. destruct (Z.leb_spec i (d_last d)); [|lia]. destruct (Z.leb_spec 0 i); [|lia]. simpl.
      rewrite (aget_ok _ None) by lia. rewrite Ev. cbn [bind]. rewrite aset_ok by lia. reflexivity.
    - destruct (content_upd_none (d_data d) i v ltac:(lia) Ev) as [C1 C2].
      subst d1. constructor; cbn [d_data d_size d_num d_last d_ln d_ld].
      + rewrite len_zupd; exact Hs.
      + destruct (Z.eqb_spec (d_last d) i); lia.
      + intros k Hk. destruct (Z.eq_dec k i) as [->|Hne]; [apply zn_zupd_eq; lia|].
        rewrite zn_zupd_ne; [|lia|destruct (Z.eqb_spec (d_last d) i); lia|congruence].
        apply (di_tail _ I). destruct (Z.eqb_spec (d_last d) i); lia.
      + rewrite C2, Hn, C1, !len_app, len_cons. lia.
      + apply I.
    - apply (content_upd_none (d_data d) i v); [lia|exact Ev].
  Qed.

  Lemma content_all_some (a : list (option A)) : len (content a) = len a -> a = map Some (content a).
  Proof.
    induction a as [|[x|] a IH]; intros H; [reflexivity| |].
    - change (content (Some x :: a)) with (x :: content a) in *. rewrite !len_cons in H. simpl. f_equal. apply IH. lia.
    - change (content (None :: a)) with (content a) in H. rewrite len_cons in H. pose proof (content_length_le a). lia.
  Qed.

  (** a packed array: no holes below [_last_pos_filled] *)
  Lemma packed_cells (d : doda A) i : doda_inv d -> d_last d = d_num d - 1 -> 0 <= i < d_num d ->
    zn None (d_data d) i = nth_error (content (d_data d)) (Z.to_nat i).
  Proof.
    intros I Hp Hi. pose proof (inv_content_firstn d I) as E. pose proof (di_num _ I) as Hn. pose proof (di_last _ I) as Hl. pose proof (di_size _ I) as Hs.
    assert (E2 : firstn (Z.to_nat (d_last d + 1)) (d_data d) = map Some (content (d_data d))).
    { rewrite <- E. apply content_all_some. rewrite E. unfold len in *. rewrite firstn_length. lia. }
    unfold zn. rewrite <- (firstn_skipn (Z.to_nat (d_last d + 1)) (d_data d)) at 1. unfold len in *.
    rewrite app_nth1 by (rewrite firstn_length; lia). rewrite E2.
    destruct (nth_error (content (d_data d)) (Z.to_nat i)) as [v|] eqn:Ev; [|apply nth_error_None in Ev; lia].
    rewrite (nth_indep _ None (Some v)) by (rewrite map_length; lia). rewrite map_nth. f_equal. apply nth_error_nth. exact Ev.
  Qed.
End DodaMore.

(** ** C06 *)
Section AStack.
  Context {A : Type}.
  Definition as_rel (d : doda A) (l : list A) : Prop :=
    doda_inv d /\ content (d_data d) = l /\ d_last d = d_num d - 1.

  Lemma last_error_nth (l : list A) : l <> [] -> nth_error l (Z.to_nat (len l - 1)) = last_error l.
  Proof.
    intros H. destruct (exists_last H) as (l' & x & ->). rewrite last_error_snoc. unfold len. rewrite app_length. simpl.
    rewrite nth_error_app2 by lia. replace (Z.to_nat _ - length l')%nat with 0%nat by lia. reflexivity.
  Qed.

  Lemma as_step_sim d l o : as_rel d l ->
    snd (as_step d o) = snd (stack_spec (OErr IndexError) l o) /\ as_rel (fst (as_step d o)) (fst (stack_spec (OErr IndexError) l o)).
  Proof.
    intros (I & Ec & Hp). pose proof (di_num _ I) as Hn. pose proof (di_last _ I) as Hl. rewrite Ec in Hn.
    assert (Hempty : as_is_empty d = match l with [] => true | _ => false end).
    { unfold as_is_empty. destruct l; [rewrite len_nil in Hn; apply Z.eqb_eq; lia|].
      rewrite len_cons in Hn. pose proof (len_nonneg _ l). apply Z.eqb_neq. lia. }
    destruct o as [x| | | |]; simpl.
    - destruct (doda_append_raw d x I) as (data1 & size1 & E & I1 & Hsz & Ec1 & _).
      pose proof (di_last _ I1) as Hl1; cbn [d_last d_size] in Hl1.
      destruct (doda_modify_spec _ I1) as (d' & Em & I' & Ec' & _ & _ & Fn & _ & _ & Fs & Fc); [cbn [d_size]; lia|].
      rewrite E, Em. simpl. split; [reflexivity|]. split; [exact I'|]. split; [rewrite Ec'; cbn [d_data]; congruence|].
      destruct Fs as [Hlt|Hsame]; [destruct (Fc Hlt) as (_ & F2 & _); rewrite F2, Fn; reflexivity|subst d'; cbn [d_last d_num]; lia].
    - rewrite Hempty. destruct (list_snoc_case _ l) as [El|(l' & x & El)]; subst l; [rewrite El in *|rewrite El in *]; simpl.
      + repeat split; auto; apply I.
      + assert (Hne : content (d_data d) <> []) by (rewrite El; destruct l'; discriminate).
        rewrite last_error_snoc. replace (match l' ++ [x] with [] => true | _ :: _ => false end) with false by (destruct l'; reflexivity).
        assert (Ev : zn None (d_data d) (d_last d) = Some x).
        { rewrite (packed_cells d (d_last d) I Hp) by (rewrite len_app in Hn; pose proof (len_nonneg _ l'); change (len [x]) with 1 in Hn; lia).
          rewrite Hp, Hn, El. rewrite last_error_nth by (destruct l'; discriminate). apply last_error_snoc. }
        assert (Hpos : 0 <= d_last d) by (rewrite len_app in Hn; pose proof (len_nonneg _ l'); change (len [x]) with 1 in Hn; lia).
        destruct (doda_delete_raw d (d_last d) x I ltac:(lia) Ev) as (Eg & Ed & I1 & Ec1).
        pose proof (di_last _ I1) as Hl1; cbn [d_last d_size] in Hl1.
        destruct (doda_modify_spec _ I1) as (d' & Em & I' & Ec' & _ & _ & Fn & _ & _ & Fs & Fc); [cbn [d_size]; lia|].
        rewrite Eg. cbn [bind]. rewrite Ed, Em. simpl. split; [reflexivity|]. split; [exact I'|]. split.
        * rewrite Ec'. cbn [d_data]. rewrite Ec1. rewrite removelast_last.
          destruct (content_upd_none (d_data d) (d_last d) x) as [C1 C2]; [pose proof (di_size _ I); lia|exact Ev|].
          assert (E0 := inv_content_firstn d I). unfold len in *. pose proof (di_size _ I) as Hsz. unfold len in Hsz.
          replace (Z.to_nat (d_last d + 1)) with (S (Z.to_nat (d_last d))) in E0 by lia.
          rewrite (firstn_S_nth _ None) in E0 by lia. rewrite content_app in E0. unfold zn in Ev. rewrite Ev in E0. simpl in E0.
          rewrite El in E0. apply app_inj_tail in E0. destruct E0 as [E0 _].
          rewrite C1, E0 in El. apply app_inv_head in El.
          assert (E3 : content (skipn (S (Z.to_nat (d_last d))) (d_data d)) = []) by congruence. rewrite E3, app_nil_r. exact E0.
        * destruct Fs as [Hlt|Hsame]; [destruct (Fc Hlt) as (_ & F2 & _); rewrite F2, Fn; reflexivity|].
          subst d'; cbn [d_last d_num]. rewrite Z.eqb_refl. lia.
    - destruct (list_snoc_case _ l) as [El|(l' & x & El)]; subst l; rewrite El in *; simpl.
      + rewrite len_nil in Hn. unfold doda_get. replace (d_last d) with (-1) by lia. simpl. rewrite orb_true_r. simpl.
        repeat split; auto; apply I.
      + rewrite last_error_snoc. assert (Hpos : 0 <= d_last d) by (rewrite len_app in Hn; pose proof (len_nonneg _ l'); change (len [x]) with 1 in Hn; lia).
        assert (Ev : zn None (d_data d) (d_last d) = Some x).
        { rewrite (packed_cells d (d_last d) I Hp) by lia.
          rewrite Hp, Hn, El. rewrite last_error_nth by (destruct l'; discriminate). apply last_error_snoc. }
        destruct (doda_delete_raw d (d_last d) x I ltac:(lia) Ev) as (Eg & _). rewrite Eg. simpl. repeat split; auto; apply I.
    - split; [congruence|]. repeat split; auto; apply I.
    - rewrite Hempty. split; [reflexivity|]. repeat split; auto; apply I.
  Qed.

  Lemma as_new_rel items : as_rel (as_new items) items.
  Proof.
    unfold as_new. destruct items as [|x items].
    - split; [apply doda_inv_new; lia|]. split; reflexivity.
    - split; [apply doda_inv_list; lia|]. split; [apply content_map_some|reflexivity].
  Qed.

  Lemma array_stack_lifo (items : list A) ops :
    snd (run_hist as_step ops (as_new items)) = snd (run_hist (stack_spec (OErr IndexError)) ops items).
  Proof. apply (run_sim _ _ _ _ _ _ as_rel as_step_sim). apply as_new_rel. Qed.
End AStack.

(** ** C07, C09 *)
Section LStack.
  Context {A : Type}.
  Definition lrel (st : ll A) (l : list A) : Prop := exists ps, rep st ps None l.

  Lemma lrel_append_left st l x : lrel st l -> exists s, sll_appendleft (fuel_of st) st x = (s, Ret tt) /\ lrel s (x :: l).
  Proof.
    intros [ps R]. destruct (sll_op_sim st ps l (LAppendLeft x) _ _ R I eq_refl) as (s & ps' & E & R').
    simpl in E. unfold sll_appendleft. change (fuel_of st) with (S (S (length (l_heap st)))).
    destruct (sll_insert_at _ st 0 x) as [s0 r0]. inversion E; subst. destruct r0 as [[]| |]; try discriminate. exists s. split; [reflexivity|]. exists ps'; exact R'.
  Qed.
  Lemma lrel_append st l x : lrel st l -> exists s, sll_append (fuel_of st) st x = (s, Ret tt) /\ lrel s (l ++ [x]).
  Proof.
    intros [ps R]. destruct (sll_op_sim st ps l (LAppend x) _ _ R I eq_refl) as (s & ps' & E & R').
    simpl in E. unfold sll_append. change (fuel_of st) with (S (S (length (l_heap st)))).
    destruct (sll_insert_at _ st (l_size st) x) as [s0 r0]. inversion E; subst. destruct r0 as [[]| |]; try discriminate. exists s. split; [reflexivity|]. exists ps'; exact R'.
  Qed.
  Lemma lrel_size st l : lrel st l -> l_size st = len l.
  Proof. intros [ps R]. rewrite (r_size _ _ _ _ R). eapply rep_len; eauto. Qed.

  Lemma out_node_eq (s : ll A) r k : out_node s r = LKey k -> of_node (s, r) = (s, OVal (Some k)).
  Proof.
    unfold out_node, of_node, node_out, ky. destruct r as [a| |]; try discriminate.
    destruct (nth_error (l_heap s) a); simpl; intros E; inversion E; reflexivity.
  Qed.
  Lemma lrel_popleft st x l : lrel st (x :: l) -> exists s, of_node (sll_popleft (fuel_of st) st) = (s, OVal (Some x)) /\ lrel s l.
  Proof.
    intros [ps R].
    assert (E0 : spec_op (x :: l) LPopLeft = Some (l, LKey x)).
    { unfold spec_op, spec_extract. change (0 <? 0) with false. cbv iota zeta. rewrite len_cons. pose proof (len_nonneg _ l).
      destruct (Z.eqb_spec (len l + 1) 0); [lia|]. destruct (Z.leb_spec (len l + 1) 0); [lia|]. reflexivity. }
    destruct (sll_op_sim st ps _ LPopLeft _ _ R I E0) as (s & ps' & E & R'). simpl in E. unfold sll_popleft.
    change (fuel_of st) with (S (S (length (l_heap st)))).
    destruct (sll_extract _ st 0) as [s0 r0] eqn:Ex. inversion E; subst. exists s. split; [apply out_node_eq; assumption|exists ps'; exact R'].
  Qed.
  Lemma lrel_popright st x l : lrel st (l ++ [x]) -> exists s, of_node (sll_popright (fuel_of st) st) = (s, OVal (Some x)) /\ lrel s l.
  Proof.
    intros [ps R].
    assert (E0 : spec_op (l ++ [x]) LPopRight = Some (l, LKey x)).
    { unfold spec_op, spec_extract. change (-1 <? 0) with true. cbv iota zeta. rewrite len_app. change (len [x]) with 1. pose proof (len_nonneg _ l).
      destruct (Z.eqb_spec (len l + 1) 0); [lia|]. destruct (Z.leb_spec (len l + 1) (len l + 1 + -1)); [lia|].
      destruct (Z.ltb_spec (len l + 1 + -1) 0); [lia|].
      replace (Z.to_nat (len l + 1 + -1)) with (length l) by (unfold len; lia).
      rewrite nth_error_app2, Nat.sub_diag by lia. simpl. unfold del.
      replace (Z.to_nat (len l + 1 + -1)) with (length l) by (unfold len; lia).
      rewrite firstn_app, firstn_all, Nat.sub_diag, firstn_O, app_nil_r, skipn_all2 by (rewrite app_length; simpl; lia).
      rewrite app_nil_r. reflexivity. }
    destruct (sll_op_sim st ps _ LPopRight _ _ R I E0) as (s & ps' & E & R'). simpl in E. unfold sll_popright.
    change (fuel_of st) with (S (S (length (l_heap st)))).
    destruct (sll_extract _ st (-1)) as [s0 r0] eqn:Ex. inversion E; subst. exists s. split; [apply out_node_eq; assumption|exists ps'; exact R'].
  Qed.
  Lemma lrel_head st l : lrel st l -> node_out st (l_head st) = OVal (hd_error l).
  Proof.
    intros [ps R]. pose proof (r_fw _ _ _ _ R) as C. pose proof (r_keys _ _ _ _ R) as F. rewrite (chain_hd _ _ _ _ C).
    inversion F; subst; simpl; [reflexivity|]. unfold ky in H. destruct (nth_error (l_heap st) x); [|discriminate]. simpl in *. congruence.
  Qed.

  Lemma size0 (l : list A) : (len l =? 0) = match l with [] => true | _ => false end.
  Proof. destruct l; [reflexivity|]. rewrite len_cons. pose proof (len_nonneg _ l). apply Z.eqb_neq. lia. Qed.

  Definition ls_rel (st : ll A) (l : list A) : Prop := lrel st (rev l).

  Lemma ls_step_sim st l o : ls_rel st l ->
    snd (ls_step st o) = snd (stack_spec (OVal None) l o) /\ ls_rel (fst (ls_step st o)) (fst (stack_spec (OVal None) l o)).
  Proof.
    unfold ls_rel. intros R. pose proof (lrel_size _ _ R) as Hs.
    assert (Hlr : len (rev l) = len l) by (unfold len; rewrite rev_length; reflexivity). rewrite Hlr in Hs.
    destruct o as [x| | | |]; simpl.
    - destruct (lrel_append_left _ _ x R) as (s & E & R'). rewrite E. simpl. split; [reflexivity|]. rewrite rev_app_distr. exact R'.
    - rewrite Hs, size0. destruct (list_snoc_case _ l) as [->|(l' & x & ->)]; [auto|].
      rewrite last_error_snoc. replace (match l' ++ [x] with [] => true | _ :: _ => false end) with false by (destruct l'; reflexivity).
      rewrite rev_app_distr in R. simpl in R. destruct (lrel_popleft _ _ _ R) as (s & E & R'). rewrite E. simpl.
      rewrite removelast_last. auto.
    - rewrite (lrel_head _ _ R). unfold last_error. destruct (rev l) eqn:E; simpl; split; auto; rewrite E; exact R.
    - split; [congruence|exact R].
    - rewrite Hs, size0. auto.
  Qed.

  Lemma ls_new_rel items : ls_rel (ls_new items) items.
  Proof.
    unfold ls_new. 
    assert (G : forall xs st l, ls_rel st l -> ls_rel (fold_left (fun st x => fst (ls_step st (SPush x))) xs st) (l ++ xs)).
    { induction xs as [|x xs IH]; intros st l R; simpl; [rewrite app_nil_r; exact R|].
      replace (l ++ x :: xs) with ((l ++ [x]) ++ xs) by (rewrite <- app_assoc; reflexivity). apply IH.
      apply (proj2 (ls_step_sim st l (SPush x) R)). }
    apply (G items (ll_new A) []). exists []. apply rep_new.
  Qed.

  Lemma ll_stack_lifo (items : list A) ops :
    snd (run_hist ls_step ops (ls_new items)) = snd (run_hist (stack_spec (OVal None)) ops items).
  Proof. apply (run_sim _ _ _ _ _ _ ls_rel ls_step_sim). apply ls_new_rel. Qed.

  Lemma lq_step_sim de st l o : lrel st l ->
    snd (lq_step de st o) = snd (deque_spec de l o) /\ lrel (fst (lq_step de st o)) (fst (deque_spec de l o)).
  Proof.
    intros R. pose proof (lrel_size _ _ R) as Hs. destruct o as [x|x| | | |]; simpl.
    - destruct (lrel_append _ _ x R) as (s & E & R'). rewrite E. auto.
    - destruct de; [|auto]. destruct (lrel_append_left _ _ x R) as (s & E & R'). rewrite E. auto.
    - rewrite Hs, size0. destruct l as [|x l]; [auto|]. destruct (lrel_popleft _ _ _ R) as (s & E & R'). rewrite E. auto.
    - destruct de; simpl; [|auto]. rewrite Hs, size0. destruct (list_snoc_case _ l) as [->|(l' & x & ->)]; [auto|].
      rewrite last_error_snoc. replace (match l' ++ [x] with [] => true | _ :: _ => false end) with false by (destruct l'; reflexivity).
      destruct (lrel_popright _ _ _ R) as (s & E & R'). rewrite E. simpl. rewrite removelast_last. auto.
    - split; [congruence|exact R].
    - rewrite Hs, size0. auto.
  Qed.
  Lemma lq_new_rel items : lrel (lq_new items) items.
  Proof.
    unfold lq_new.
    assert (G : forall xs st l, lrel st l -> lrel (fold_left (fun st x => fst (lq_step false st (QAppend x))) xs st) (l ++ xs)).
    { induction xs as [|x xs IH]; intros st l R; simpl; [rewrite app_nil_r; exact R|].
      replace (l ++ x :: xs) with ((l ++ [x]) ++ xs) by (rewrite <- app_assoc; reflexivity). apply IH.
      apply (proj2 (lq_step_sim false st l (QAppend x) R)). }
    apply (G items (ll_new A) []). exists []. apply rep_new.
  Qed.
  Lemma ll_queue_deque de (items : list A) ops :
    snd (run_hist (lq_step de) ops (lq_new items)) = snd (run_hist (deque_spec de) ops items).
  Proof. apply (run_sim _ _ _ _ _ _ lrel (lq_step_sim de)). apply lq_new_rel. Qed.
End LStack.

(** ** C08 / C10 partial *)
Section AQueue.
  Context {A : Type}.
  (** [c] bounds the number of dead cells in front; [any]: something was removed before *)
  Record aq_rel (q : aqueue A) (l : list A) (c : Z) (any : bool) : Prop :=
    { ar_inv : doda_inv (q_items q);
      ar_lf : d_ln (q_items q) = 1 /\ d_ld (q_items q) = 4;
      ar_content : content (d_data (q_items q)) = l;
      ar_empty : l = [] -> d_last (q_items q) = -1 /\ -1 <= q_rear q /\ c = 0 /\ d_size (q_items q) <= 1;
      ar_cells : l <> [] -> 0 <= q_front q <= c /\ d_last (q_items q) = q_front q + len l - 1 /\ d_last (q_items q) <= q_rear q /\
          d_size (q_items q) <= 4 * len l /\
          (forall i, q_front q <= i < q_front q + len l -> zn None (d_data (q_items q)) i = nth_error l (Z.to_nat (i - q_front q)));
      ar_any : any = false -> c = 0 /\ q_rear q = len l - 1 }.

  Lemma packed_new (l : list A) i : 0 <= i < len l -> zn None (map Some l) i = nth_error l (Z.to_nat i).
  Proof.
    intros Hi. unfold zn, len in *. destruct (nth_error l (Z.to_nat i)) as [v|] eqn:E; [|apply nth_error_None in E; lia].
    rewrite (nth_indep _ None (Some v)) by (rewrite map_length; lia). rewrite map_nth. f_equal. apply nth_error_nth; exact E.
  Qed.

  Lemma aq_new_rel items de : aq_rel (aq_new items de) items 0 false.
  Proof.
    unfold aq_new. destruct items as [|x items].
    - constructor; simpl; auto; try apply doda_inv_new; try lia; try congruence; rewrite ?len_nil; try lia.
    - constructor; cbn [q_items q_front q_rear q_de].
      + apply doda_inv_list; lia.
      + simpl; auto.
      + apply content_map_some.
      + discriminate.
      + intros _. unfold doda_new_list; cbn [d_last d_size d_data]. rewrite len_cons. pose proof (len_nonneg _ items). repeat split; try lia.
        intros i Hi. rewrite Z.sub_0_r. apply packed_new. rewrite len_cons. lia.
      + intros _. split; reflexivity.
  Qed.

  Lemma aq_append_ok q l c any x : aq_rel q l c any -> c <= len l ->
    exists q', aq_append q x = Ret (q', OUnit) /\ aq_rel q' (l ++ [x]) c any /\ q_de q' = q_de q.
  Proof.
    intros R Hc. pose proof (ar_inv _ _ _ _ R) as I. destruct (ar_lf _ _ _ _ R) as [L1 L2].
    pose proof (di_num _ I) as Hn. rewrite (ar_content _ _ _ _ R) in Hn.
    unfold aq_append. destruct (doda_append_raw (q_items q) x I) as (data1 & size1 & E & I1 & Hsz & Ec1 & Hcell).
    pose proof (di_last _ I1) as Hl1; cbn [d_last d_size] in Hl1. pose proof (di_last _ I) as Hl0.
    assert (Hnoc : (d_num (q_items q) + 1) * 4 >= size1).
    { destruct l as [|y l].
      - destruct (ar_empty _ _ _ _ R eq_refl) as (E1 & E2 & E3 & E4). rewrite len_nil in *.
        destruct Hsz as [[-> _]|[-> Hf]]; lia.
      - destruct (ar_cells _ _ _ _ R ltac:(discriminate)) as (E1 & E2 & E3 & E4 & _).
        destruct Hsz as [[-> _]|[-> Hf]]; lia. }
    assert (Em : doda_modify (Doda data1 size1 (d_num (q_items q) + 1) (d_last (q_items q) + 1) (d_ln (q_items q)) (d_ld (q_items q))) =
       Ret (Doda data1 size1 (d_num (q_items q) + 1) (d_last (q_items q) + 1) (d_ln (q_items q)) (d_ld (q_items q)))).
    { unfold doda_modify; cbn [d_data d_size d_num d_last d_ln d_ld]. rewrite L1, L2.
      destruct (Z.eqb_spec size1 0); [lia|]. destruct (Z.ltb_spec ((d_num (q_items q) + 1) * 4) (1 * size1)); [lia|]. reflexivity. }
    rewrite E, Em. cbn [bind]. eexists; split; [reflexivity|]. split; [|reflexivity].
    assert (He : aq_is_empty q = match l with [] => true | _ => false end) by (unfold aq_is_empty; rewrite Hn; apply size0).
    constructor; cbn [q_items q_front q_rear q_de d_data d_size d_num d_last d_ln d_ld]; auto.
    - congruence || (rewrite Ec1, (ar_content _ _ _ _ R); reflexivity).
    - intros Hx; destruct l; discriminate.
    - intros _. rewrite He, len_app. change (len [x]) with 1. destruct l as [|y l].
      + destruct (ar_empty _ _ _ _ R eq_refl) as (E1 & E2 & E3 & E4). rewrite len_nil in *.
        repeat split; try lia.
        intros i Hi. rewrite Hcell by lia. destruct (Z.eqb_spec i (d_last (q_items q) + 1)); [|lia].
        replace (Z.to_nat (i - 0)) with 0%nat by lia. reflexivity.
      + destruct (ar_cells _ _ _ _ R ltac:(discriminate)) as (E1 & E2 & E3 & E4 & E5).
        repeat split; try lia.
        intros i Hi. rewrite Hcell by lia. destruct (Z.eqb_spec i (d_last (q_items q) + 1)).
        * rewrite nth_error_app2 by (unfold len in *; lia). replace (Z.to_nat (i - q_front q) - length (y :: l))%nat with 0%nat by (unfold len in *; lia). reflexivity.
        * destruct (Z.ltb_spec i (d_size (q_items q))); [|lia]. rewrite E5 by lia. rewrite nth_error_app1 by (unfold len in *; lia). reflexivity.
    - intros Ha. destruct (ar_any _ _ _ _ R Ha) as [E1 E2]. split; [exact E1|]. rewrite len_app. change (len [x]) with 1. lia.
  Qed.

  Lemma nth_error_hd_skip (l : list A) (n : nat) v l' : l = v :: l' -> nth_error l' n = nth_error l (S n).
  Proof. intros ->. reflexivity. Qed.

  Lemma nth_zn_map (l : list A) k (v : option A) i : 0 <= i < len l -> zn None (map Some l ++ repeat v k) i = nth_error l (Z.to_nat i).
  Proof.
    intros Hi. unfold zn, len in *. rewrite app_nth1 by (rewrite map_length; lia). apply (packed_new l i). unfold len; lia.
  Qed.

  Lemma aq_popleft_ok q v l c any : aq_rel q (v :: l) c any ->
    exists q', aq_popleft q = Ret (q', OVal (Some v)) /\ aq_rel q' l (match l with [] => 0 | _ => c + 1 end) true /\ q_de q' = q_de q.
  Proof.
    intros R. pose proof (ar_inv _ _ _ _ R) as I. destruct (ar_lf _ _ _ _ R) as [L1 L2].
    pose proof (di_num _ I) as Hn. rewrite (ar_content _ _ _ _ R), len_cons in Hn.
    destruct (ar_cells _ _ _ _ R ltac:(discriminate)) as (E1 & E2 & E3 & E4 & E5). rewrite len_cons in *.
    pose proof (len_nonneg _ l) as Hll. pose proof (di_last _ I) as Hl0.
    assert (Ev : zn None (d_data (q_items q)) (q_front q) = Some v).
    { rewrite E5 by lia. rewrite Z.sub_diag. reflexivity. }
    destruct (doda_delete_raw (q_items q) (q_front q) v I ltac:(lia) Ev) as (Eg & Ed & I1 & Ec1).
    pose proof (di_last _ I1) as Hl1; cbn [d_last d_size] in Hl1.
    destruct (doda_modify_spec _ I1) as (d' & Em & I' & Ec' & F1 & F2 & Fn & Fsz & _ & Fs & Fc); [cbn [d_size]; lia|].
    cbn [d_data d_size d_num d_last d_ln d_ld] in *.
    destruct (content_upd_none (d_data (q_items q)) (q_front q) v) as [C1 C2]; [pose proof (di_size _ I); lia|exact Ev|].
    assert (Hpre : content (firstn (Z.to_nat (q_front q)) (d_data (q_items q))) = [] /\ content (d_data d') = l).
    { rewrite Ec'. rewrite C2. rewrite (ar_content _ _ _ _ R) in C1.
      assert (Hlen : len (content (skipn (S (Z.to_nat (q_front q))) (d_data (q_items q)))) >= len l).
      { (* l is stored right after front *)
        assert (Hsub : forall n m, (n + m <= length l)%nat -> firstn m (skipn (S (Z.to_nat (q_front q)) + n) (d_data (q_items q))) = map Some (firstn m (skipn n l))).
        { intros n m; revert n; induction m as [|m IH]; intros n Hnm; [reflexivity|].
          assert (Hx : nth_error l n = zn None (d_data (q_items q)) (q_front q + 1 + Z.of_nat n)).
          { rewrite E5 by (unfold len in *; lia). replace (Z.to_nat (q_front q + 1 + Z.of_nat n - q_front q)) with (S n) by lia. reflexivity. }
          pose proof (di_size _ I) as Hs.
          destruct (nth_error l n) as [w|] eqn:Ew; [|apply nth_error_None in Ew; lia].
          assert (Hsk : forall (T : Type) (a : list T) k d0, (k < length a)%nat -> skipn k a = nth k a d0 :: skipn (S k) a).
          { intros T a; induction a as [|z a IHa]; intros k d0 Hk; simpl in *; [lia|]. destruct k; [reflexivity|]. simpl. apply IHa; lia. }
          rewrite (Hsk _ (d_data (q_items q)) _ None) by (unfold len in *; lia).
          rewrite (Hsk _ l n w) by lia. cbn [firstn map]. f_equal.
          - unfold zn in Hx. replace (Z.to_nat (q_front q + 1 + Z.of_nat n)) with (S (Z.to_nat (q_front q)) + n)%nat in Hx by lia.
            rewrite <- Hx. f_equal. symmetry. apply nth_error_nth. exact Ew.
          - specialize (IH (S n) ltac:(lia)). replace (S (Z.to_nat (q_front q)) + S n)%nat with (S (S (Z.to_nat (q_front q)) + n)) in IH by lia. exact IH. }
        specialize (Hsub 0%nat (length l) ltac:(lia)). rewrite Nat.add_0_r in Hsub. simpl in Hsub. rewrite firstn_all in Hsub.
        rewrite <- (firstn_skipn (length l) (skipn (S (Z.to_nat (q_front q))) (d_data (q_items q)))).
        simpl. rewrite Hsub, content_app, content_map_some, len_app. pose proof (len_nonneg _ (content (skipn (length l) (skipn (S (Z.to_nat (q_front q))) (d_data (q_items q)))))). simpl in *. lia. }
      assert (Hz : content (firstn (Z.to_nat (q_front q)) (d_data (q_items q))) = []).
      { apply (f_equal len) in C1. rewrite len_cons, len_app, len_cons in C1.
        destruct (content (firstn (Z.to_nat (q_front q)) (d_data (q_items q)))); [reflexivity|]. rewrite len_cons in C1. pose proof (len_nonneg _ l0). lia. }
      split; [exact Hz|]. rewrite Hz in *. simpl in *. inversion C1. reflexivity. }
    destruct Hpre as [Hpre Hcont].
    unfold aq_popleft. assert (He : aq_is_empty q = false) by (unfold aq_is_empty; apply Z.eqb_neq; lia). rewrite He.
    rewrite Eg. cbn [bind].
    unfold aq_will_shrink. rewrite L1, L2. destruct (Z.eqb_spec (d_size (q_items q)) 0); [lia|].
    rewrite ?L1, ?L2 in Fs; rewrite ?L1, ?L2 in Fc; rewrite ?L1, ?L2 in F1; rewrite ?L1, ?L2 in F2.
    destruct l as [|w l].
    - (* last element *)
      assert (Hlt : (d_num (q_items q) - 1) * 4 < 1 * d_size (q_items q)) by (rewrite len_nil in *; lia).
      destruct (Fc Hlt) as (G1 & G2 & G3).
      destruct (Z.eqb_spec (q_front q) (q_rear q)) as [Efr|Efr]; cbn [bind].
      + rewrite Ed, Em. cbn [bind]. eexists; split; [reflexivity|]. split; [|reflexivity].
        constructor; cbn [q_items q_front q_rear q_de]; auto; try congruence.
        * intros _. rewrite len_nil in *. repeat split; lia.
      + destruct (Z.ltb_spec ((d_num (q_items q) - 1) * 4) (1 * d_size (q_items q))); [|lia]. cbn [bind].
        rewrite Ed, Em. cbn [bind]. eexists; split; [reflexivity|]. split; [|reflexivity].
        constructor; cbn [q_items q_front q_rear q_de]; auto; try congruence.
        * intros _. rewrite len_nil in *. repeat split; lia.
    - rewrite len_cons in *. pose proof (len_nonneg _ l) as Hll'.
      destruct (Z.eqb_spec (q_front q) (q_rear q)) as [Efr|Efr]; [lia|].
      destruct (Z.ltb_spec ((d_num (q_items q) - 1) * 4) (1 * d_size (q_items q))) as [Hlt|Hge]; cbn [bind].
      + destruct (Fc Hlt) as (G1 & G2 & G3). rewrite Ed, Em. cbn [bind]. eexists; split; [reflexivity|]. split; [|reflexivity].
        assert (G1' : d_data d' = map Some (w :: l) ++ repeat None (Z.to_nat (d_num (q_items q) - 1 + 1))).
        { rewrite G1. rewrite <- Ec', Hcont. reflexivity. }
        constructor; cbn [q_items q_front q_rear q_de]; auto; try congruence.
        intros _. rewrite len_cons. repeat split; try lia.
        intros i Hi. rewrite G1', Z.sub_0_r. apply nth_zn_map. rewrite len_cons; lia.
      + destruct Fs as [Hlt|Hsame]; [lia|]. rewrite Ed, Em. cbn [bind]. eexists; split; [reflexivity|]. split; [|reflexivity].
        rewrite Hsame in *. cbn [d_data d_size d_num d_last d_ln d_ld] in *.
        constructor; cbn [q_items q_front q_rear q_de d_data d_size d_num d_last d_ln d_ld]; auto; try congruence.
        intros _. rewrite len_cons. destruct (Z.eqb_spec (d_last (q_items q)) (q_front q)); [lia|]. repeat split; try lia.
        intros i Hi. rewrite zn_zupd_ne by (pose proof (di_size _ I); lia). rewrite E5 by lia.
        replace (Z.to_nat (i - q_front q)) with (S (Z.to_nat (i - (q_front q + 1)))) by lia. reflexivity.
  Qed.

  Lemma aq_appendleft_ok q l c x : aq_rel q l c false -> q_de q = true ->
    exists q', aq_appendleft q x = Ret (q', OUnit) /\ aq_rel q' (x :: l) c false /\ q_de q' = q_de q.
  Proof.
    intros R Hde. pose proof (ar_inv _ _ _ _ R) as I. destruct (ar_any _ _ _ _ R eq_refl) as [Hc Hr].
    pose proof (di_num _ I) as Hn. rewrite (ar_content _ _ _ _ R) in Hn. pose proof (len_nonneg _ l) as Hll.
    unfold aq_appendleft. rewrite Hde. cbn [negb].
    assert (He : aq_is_empty q = match l with [] => true | _ => false end) by (unfold aq_is_empty; rewrite Hn; apply size0).
    rewrite He.
    set (front := if match l with [] => true | _ => false end then 0 else q_front q).
    assert (Hf : front = 0).
    { unfold front. destruct l; [reflexivity|]. destruct (ar_cells _ _ _ _ R ltac:(discriminate)) as (E1 & _). lia. }
    set (rear := if match l with [] => true | _ => false end then -1 else q_rear q).
    assert (Hrr : rear = len l - 1) by (unfold rear; destruct l; [reflexivity|exact Hr]).
    match goal with |- context [forM ?a ?b ?s] => assert (E : forM a b s = Ret (x :: l)) end.
    { match goal with |- ?m = _ => assert (W : wp m (fun r => r = x :: l)) end.
      { rewrite Hf, Hrr. replace (len l - 1 + 1) with (len l) by lia.
        apply wp_for_range with (I := fun i t => t = x :: firstn (Z.to_nat i) l).
        - reflexivity.
        - intros i t Hi ->.
          assert (Hne : l <> []) by (intros ->; rewrite len_nil in Hi; lia).
          destruct (ar_cells _ _ _ _ R Hne) as (E1 & E2 & _ & _ & E5). pose proof (di_size _ I) as Hs. pose proof (di_last _ I) as Hl0.
          rewrite (lget_ok _ None) by lia. cbn [bind]. rewrite E5 by lia. replace (i - q_front q) with i by lia.
          destruct (nth_error l (Z.to_nat i)) as [w|] eqn:Ew; [|apply nth_error_None in Ew; unfold len in Hi; lia].
          simpl. f_equal. replace (Z.to_nat (i + 1)) with (S (Z.to_nat i)) by lia.
          rewrite (firstn_S_nth _ w) by (unfold len in Hi; lia). f_equal. f_equal. symmetry. apply nth_error_nth. exact Ew.
        - intros t ->. f_equal. rewrite firstn_all2 by (unfold len; lia). reflexivity. }
      apply wp_ex in W. destruct W as (r & E & ->). exact E. }
    rewrite E. cbn [bind]. eexists; split; [reflexivity|]. split; [|reflexivity].
    rewrite Hf, Hrr. constructor; cbn [q_items q_front q_rear q_de].
    - apply doda_inv_list; lia.
    - simpl; auto.
    - apply content_map_some.
    - discriminate.
    - intros _. unfold doda_new_list; cbn [d_last d_size d_data]. rewrite len_cons. repeat split; try lia.
      intros i Hi. rewrite Z.sub_0_r. apply packed_new. rewrite len_cons. lia.
    - intros _. split; [exact Hc|]. rewrite len_cons. lia.
  Qed.

  Lemma aq_run ops : forall q l c any, aq_rel q l c any -> aq_hist_ok (q_de q) ops l c any ->
    snd (run_hist aq_step ops q) = snd (run_hist (deque_spec (q_de q)) ops l).
  Proof.
    induction ops as [|o ops IH]; intros q l c any R H; [reflexivity|]. cbn [run_hist].
    pose proof (ar_inv _ _ _ _ R) as I. pose proof (di_num _ I) as Hn. rewrite (ar_content _ _ _ _ R) in Hn.
    assert (He : aq_is_empty q = match l with [] => true | _ => false end) by (unfold aq_is_empty; rewrite Hn; apply size0).
    assert (Hsame : forall r, aq_hist_ok (q_de q) ops l c any ->
       snd (let (s2, rs) := run_hist aq_step ops q in (s2, r :: rs)) = snd (let (s2, rs) := run_hist (deque_spec (q_de q)) ops l in (s2, r :: rs))).
    { intros r Hok. specialize (IH q l c any R Hok). destruct (run_hist aq_step ops q), (run_hist (deque_spec (q_de q)) ops l); simpl in *. congruence. }
    destruct o as [x|x| | | |]; cbn [aq_hist_ok] in H; cbn [aq_step deque_spec].
    - destruct H as [Hc H]. destruct (aq_append_ok q l c any x R Hc) as (q' & E & R' & Ede). rewrite E. cbn [out_of].
      rewrite <- Ede in H. specialize (IH q' _ c any R' H). rewrite Ede in IH.
      destruct (run_hist aq_step ops q'), (run_hist (deque_spec (q_de q)) ops (l ++ [x])); simpl in *. congruence.
    - destruct (q_de q) eqn:Hde.
      + destruct H as [-> H]. destruct (aq_appendleft_ok q l c x R Hde) as (q' & E & R' & Ede). rewrite E. cbn [out_of].
        rewrite Hde in Ede. rewrite <- Ede in H. specialize (IH q' _ c false R' H). rewrite Ede in IH.
        destruct (run_hist aq_step ops q'), (run_hist (deque_spec true) ops (x :: l)); simpl in *. congruence.
      + unfold aq_appendleft. rewrite Hde. cbn [negb out_of]. apply Hsame. exact H.
    - destruct l as [|v l].
      + unfold aq_popleft. rewrite He. cbn [out_of].
        assert (Hc0 : c = 0) by (apply (ar_empty _ _ _ _ R); reflexivity). rewrite Hc0 in *. apply Hsame. exact H.
      + destruct (aq_popleft_ok q v l c any R) as (q' & E & R' & Ede). rewrite E. cbn [out_of].
        assert (H' : aq_hist_ok (q_de q') ops l (match l with [] => 0 | _ => c + 1 end) true) by (rewrite Ede; destruct l; exact H).
        specialize (IH q' _ _ true R' H'). rewrite Ede in IH.
        destruct (run_hist aq_step ops q'), (run_hist (deque_spec (q_de q)) ops l); simpl in *. congruence.
    - destruct H as [Hd H]. unfold aq_pop. destruct (q_de q) eqn:Hde.
      + destruct Hd as [Hd| ->]; [discriminate|]. rewrite He. cbn [negb out_of last_error rev hd_error]. apply Hsame. exact H.
      + cbn [negb out_of]. apply Hsame. exact H.
    - rewrite Hn. apply Hsame. exact H.
    - rewrite He. apply Hsame. exact H.
  Qed.

  Lemma array_queue_ok (items : list A) de ops : aq_hist_ok de ops items 0 false ->
    snd (run_hist aq_step ops (aq_new items de)) = snd (run_hist (deque_spec de) ops items).
  Proof.
    intros H. assert (E : q_de (aq_new items de) = de) by (unfold aq_new; destruct items; reflexivity).
    rewrite <- E at 2. eapply aq_run; [apply aq_new_rel|rewrite E; exact H].
  Qed.
End AQueue.
