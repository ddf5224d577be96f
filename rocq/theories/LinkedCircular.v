(** C13: SinglyCircularLinkedList stays circular. *)
From Verif Require Import Base LinkedModel ArraysProofs LinkedProofs.

Section Circ.
  Context {K : Type}.

  Definition crep (st : ll K) (ps : list nat) (ks : list K) : Prop := rep st ps (hd_error ps) ks.

  Lemma rep_ext (st st' : ll K) ps q ks : rep st ps q ks -> l_head st' = l_head st -> l_tail st' = l_tail st -> l_size st' = l_size st ->
    (forall a, In a ps -> nx (l_heap st') a = nx (l_heap st) a) -> (forall a, In a ps -> ky (l_heap st') a = ky (l_heap st) a) -> rep st' ps q ks.
  Proof.
    intros [N C T S F] E1 E2 E3 E4 E5. constructor; try congruence.
    - rewrite E1. eapply chain_ext; eauto.
    - clear -F E5. induction F; constructor; [rewrite E5 by (left; reflexivity); assumption|]. apply IHF. intros; apply E5; right; assumption.
  Qed.

  (** in a circular list a node's successor is the head exactly when it is the last node *)
  Lemma circ_next st l1 a l2 ks : crep st (l1 ++ a :: l2) ks ->
    exists c, nth_error (l_heap st) a = Some c /\ c_next c = hd_or l2 (hd_error (l1 ++ a :: l2)) /\
      opt_eqb (c_next c) (l_head st) = match l2 with [] => true | _ => false end.
  Proof.
    intros R. pose proof (r_fw _ _ _ _ R) as C. pose proof (r_nd _ _ _ _ R) as ND.
    pose proof (chain_hd _ _ _ _ C) as Eh.
    apply chain_app in C. destruct C as [_ C]. simpl in C. destruct C as [_ (r & Hr & C)].
    rewrite (chain_hd _ _ _ _ C) in Hr. destruct (nx_cell _ _ _ Hr) as (c & Ec & En). exists c. split; [exact Ec|]. split; [exact En|].
    rewrite En, Eh. destruct l2 as [|b l2].
    - simpl. destruct l1; simpl; apply Nat.eqb_refl.
    - simpl. destruct l1 as [|x l1]; simpl in *.
      + apply eqb_ne. intros ->. inversion ND; subst. apply H1. left; reflexivity.
      + apply eqb_ne. intros ->. inversion ND; subst. apply H1. rewrite in_app_iff; simpl; auto.
  Qed.

  Lemma circ_tail_fix st l1 a l2 ks : crep st (l1 ++ a :: l2) ks ->
    match deref (l_heap st) (Some a) with
    | Ret c => ((if opt_eqb (c_next c) (l_head st) then LL (l_heap st) (l_head st) (Some a) (l_size st) else st), @Ret unit tt)
    | _ => (st, Raise AttributeError)
    end = (st, Ret tt).
  Proof.
    intros R. destruct (circ_next _ _ _ _ _ R) as (c & Ec & _ & Eo). rewrite (deref_some _ _ _ Ec), Eo.
    destruct l2 as [|b l2]; [|reflexivity].
    pose proof (r_tail _ _ _ _ R) as T. rewrite last_error_snoc in T. destruct st; simpl in *. subst. reflexivity.
  Qed.

  Lemma scl_ins_sim st ps ks i k ks' r :
    crep st ps ks -> (- len ks < i \/ len ks = 0) -> spec_insert ks i k = Some (ks', r) ->
    exists st' ps', (let (s, x) := scl_insert_at (S (S (length (l_heap st)))) st i k in (s, out_unit x)) = (st', r) /\ crep st' ps' ks'.
  Proof.
    intros R Hi H. pose proof (rep_len _ _ _ _ R) as El. pose proof (r_size _ _ _ _ R) as Es. pose proof (len_nonneg _ ks) as Hn.
    unfold spec_insert in H. rewrite <- (norm_index_spec (len ks) i) in H by assumption.
    remember (norm_insert_index (len ks) i) as j eqn:Ej. symmetry in Ej.
    destruct (Z.ltb_spec (len ks) j).
    { injection H as <- <-. exists st, ps. unfold scl_insert_at, sll_insert_at. rewrite Es, El, Ej.
      destruct (Z.ltb_spec (len ks) j); [|lia]. auto. }
    destruct (Z.ltb_spec j 0); [discriminate|]. injection H as <- <-.
    destruct ps as [|p0 ps0].
    - rewrite len_nil in El. rewrite <- El in *. rewrite len_nil in Es.
      assert (ks = []) by (destruct ks; [reflexivity|]; rewrite len_cons in El; pose proof (len_nonneg _ ks); lia). subst ks.
      assert (Hj0 : j = 0) by lia. rewrite Hj0 in *.
      assert (Hi' : i = 0 \/ i = -1).
      { unfold norm_insert_index in Ej. simpl in Ej. destruct (Z.eqb_spec i 0), (Z.eqb_spec i (-1)); simpl in Ej; auto.
        destruct (Z.ltb_spec i 0); lia. }
      unfold scl_insert_at. rewrite (sll_insert_first _ _ _ _ 0) by (auto; lia). cbn [l_size l_head l_heap l_tail].
      change (1 =? 1) with true. cbn iota. set (new := length (l_heap st)).
      set (h0 := l_heap st ++ [Cell k None None]).
      set (s2 := LL _ _ _ _).
      assert (Hnn : nx h0 new = Some None) by (unfold h0; rewrite nx_new; fold new; rewrite Nat.eqb_refl; reflexivity).
      assert (C2 : crep s2 [new] [k]).
      { constructor; unfold s2; cbn [l_heap l_head l_tail l_size hd_error].
        - constructor; [simpl; tauto|constructor].
        - simpl. split; [reflexivity|]. exists (Some new). rewrite nx_set_next, Nat.eqb_refl, Hnn. auto.
        - reflexivity.
        - reflexivity.
        - constructor; [|constructor]. rewrite ky_set_next. unfold h0. rewrite ky_new. fold new. rewrite Nat.eqb_refl. reflexivity. }
      assert (G : ll_getitem (S (S new)) s2 i = Ret (Some new)).
      { apply (getitem_spec _ s2 [] new [] (Some new) [k]); [exact C2| |simpl; lia]. unfold s2; simpl.
        destruct Hi' as [-> | ->]; reflexivity. }
      rewrite G.
      assert (Eh : l_tail s2 = Some new) by reflexivity.
      set (s3 := if i =? 0 then _ else s2).
      assert (C3 : crep s3 ([] ++ [new]) [k]).
      { subst s3. destruct (i =? 0); [|exact C2]. eapply rep_ext; [exact C2| reflexivity..| |].
        - cbn [l_heap]. rewrite Eh. intros a [<-|[]]. rewrite nx_set_next, Nat.eqb_refl. unfold s2. cbn [l_heap].
          rewrite nx_set_next, Nat.eqb_refl, Hnn. reflexivity.
        - intros a _. cbn [l_heap]. rewrite Eh. apply ky_set_next. }
      rewrite (circ_tail_fix s3 [] new [] _ C3). exists s3, [new]. split; [reflexivity|].
      replace (ins [] 0 k) with [k] by reflexivity. exact C3.
    - destruct (split_at (p0 :: ps0) j) as (l1 & l2 & Eps & Hl & _ & _); [lia|].
      assert (R0 : rep st (l1 ++ l2) (Some p0) ks) by (rewrite <- Eps; exact R).
      pose proof (rep_size_heap _ _ _ _ R0) as Hh. rewrite app_length in Hh.
      destruct (sll_insert_at_spec (S (S (length (l_heap st)))) st l1 l2 (Some p0) ks k i j R0) as (s1 & E & R1 & Hhs); [rewrite <- Eps; discriminate|rewrite Es, El; exact Ej|exact Hl|lia|].
      set (new := length (l_heap st)) in *.
      unfold scl_insert_at. rewrite E.
      assert (Es1 : l_size s1 = len ks + 1).
      { rewrite (r_size _ _ _ _ R1), len_app, len_cons, Z.add_assoc, <- len_app, <- Eps, El. reflexivity. }
      assert (Hk1 : 1 <= len ks) by (rewrite <- El, len_cons; pose proof (len_nonneg _ ps0); lia).
      destruct (Z.eqb_spec (l_size s1) 1) as [|_]; [lia|].
      destruct (Z.eq_dec j 0) as [Ej0|Ej0].
      + (* new head *)
        assert (Hi0 : i = 0).
        { rewrite norm_index_spec in Ej by lia. destruct (Z.eqb_spec (len ks) 0); [lia|]. simpl in Ej. destruct (Z.ltb_spec i 0); lia. }
        assert (l1 = []) by (destruct l1; [reflexivity|]; rewrite len_cons in Hl; pose proof (len_nonneg _ l1); lia). subst l1.
        simpl in Eps, R1. subst l2 i.
        rewrite (getitem_spec _ s1 [] new (p0 :: ps0) (Some p0) _ 0 R1) by (simpl; auto; lia).
        rewrite Z.eqb_refl.
        set (s3 := LL _ _ _ _).
        assert (C3 : crep s3 ([] ++ new :: p0 :: ps0) (ins ks j k)).
        { destruct (list_snoc_case _ (p0 :: ps0)) as [|(l' & t & Et)]; [discriminate|].
          assert (Etl : l_tail s1 = Some t).
          { rewrite (r_tail _ _ _ _ R1). rewrite last_error_cons by discriminate. rewrite Et. apply last_error_snoc. }
          unfold s3. rewrite Etl. simpl. destruct R1 as [N C T S F]. constructor; cbn [l_heap l_head l_tail l_size hd_error]; auto.
          - rewrite Et in *. change (new :: l' ++ [t]) with ((new :: l') ++ [t]) in *.
            eapply chain_redirect; [exact C| |].
            + intros b Hb. rewrite nx_set_next, eqb_ne; [reflexivity|]. intros ->.
              apply (NoDup_app_disj _ _ _ b N Hb). left; reflexivity.
            + rewrite nx_set_next, Nat.eqb_refl. destruct (chain_def _ _ _ _ t C) as [r Hr]; [rewrite in_app_iff; simpl; auto|].
              rewrite Hr. reflexivity.
          - congruence.
          - eapply Forall2_imp; [|exact F]. intros b k' Hb; cbv beta in *. rewrite ky_set_next. exact Hb. }
        rewrite (circ_tail_fix s3 [] new _ _ C3). eexists; eexists; split; [reflexivity|exact C3].
      + (* not the head: the cycle is already right *)
        destruct l1 as [|x l1]; [rewrite len_nil in Hl; lia|].
        assert (x = p0) by (simpl in Eps; congruence). subst x.
        assert (C1 : crep s1 ((p0 :: l1) ++ new :: l2) (ins ks j k)) by exact R1.
        assert (G : exists m1 n m2, (p0 :: l1) ++ new :: l2 = m1 ++ n :: m2 /\ ll_getitem (S (S new)) s1 i = Ret (Some n)).
        { destruct (Z.ltb_spec i 0) as [Hneg|Hpos].
          - (* negative: the node after the new one *)
            rewrite norm_index_spec in Ej by lia. destruct (Z.eqb_spec (len ks) 0) as [|_]; [lia|]. simpl in Ej. destruct (Z.ltb_spec i 0); [|lia].
            destruct l2 as [|n l2].
            { exfalso. rewrite app_nil_r in Eps. rewrite Eps in El. rewrite El in Hl. lia. }
            exists ((p0 :: l1) ++ [new]), n, l2. split; [rewrite <- app_assoc; reflexivity|].
            apply (getitem_spec _ s1 ((p0 :: l1) ++ [new]) n l2 (Some p0) (ins ks j k)).
            + rewrite <- app_assoc. exact R1.
            + destruct (Z.ltb_spec i 0); [|lia]. rewrite len_app, Hl. change (len [new]) with 1. lia.
            + rewrite app_length. simpl in Hh |- *. lia.
          - exists (p0 :: l1), new, l2. split; [reflexivity|]. apply (getitem_spec _ s1 (p0 :: l1) new l2 (Some p0) (ins ks j k)); [exact R1| |lia].
            destruct (Z.ltb_spec i 0); [lia|]. rewrite norm_index_spec in Ej by lia. destruct (Z.eqb_spec i (-1)); [lia|].
            rewrite andb_false_r in Ej. destruct (Z.ltb_spec i 0); [lia|]. lia. }
        destruct G as (m1 & n' & m2 & Em & G). rewrite G.
        assert (Hi0 : (i =? 0) = false).
        { apply Z.eqb_neq. intros ->. rewrite norm_index_spec in Ej by lia. rewrite andb_false_r in Ej. simpl in Ej. lia. }
        rewrite Hi0. rewrite Em in C1. rewrite (circ_tail_fix s1 m1 n' m2 _ C1).
        eexists; eexists; split; [reflexivity|exact C1].
  Qed.

  Lemma scl_ext_sim st ps ks i ks' r :
    crep st ps ks -> (- len ks < i \/ len ks <= 1) -> spec_extract ks i = Some (ks', r) ->
    exists st' ps', (let (s, x) := scl_extract (S (S (length (l_heap st)))) st i in (s, out_node s x)) = (st', r) /\ crep st' ps' ks'.
  Proof.
    intros R Hi H. pose proof (rep_len _ _ _ _ R) as El. pose proof (r_size _ _ _ _ R) as Es. pose proof (len_nonneg _ ks) as Hn.
    unfold spec_extract in H. remember (if i <? 0 then len ks + i else i) as j eqn:Ej. symmetry in Ej.
    destruct (Z.eqb_spec (len ks) 0).
    { injection H as <- <-. exists st, ps. unfold scl_extract, sll_extract. rewrite Es, El. destruct (Z.eqb_spec (len ks) 0); [auto|lia]. }
    destruct (Z.leb_spec (len ks) j).
    { injection H as <- <-. exists st, ps. unfold scl_extract, sll_extract. rewrite Es, El. destruct (Z.eqb_spec (len ks) 0); [lia|].
      destruct (Z.leb_spec (len ks) (if i <? 0 then len ks + i else i)); [auto|lia]. }
    destruct (Z.ltb_spec j 0); [discriminate|].
    destruct (split_elem _ _ _ _ j R) as (l1 & a & l2 & k & -> & Hl & Hk & _ & Hlt); [lia|].
    rewrite Hk in H. injection H as <- <-.
    pose proof (rep_size_heap _ _ _ _ R) as Hh.
    destruct (sll_extract_spec (S (S (length (l_heap st)))) st l1 a l2 (hd_error (l1 ++ a :: l2)) ks i j R) as (s1 & k' & E & Hk' & Hka & Hhd & R1 & _); [rewrite Es, El; exact Ej|exact Hl|lia|].
    assert (k' = k) by congruence. subst k'.
    unfold scl_extract. rewrite E.
    assert (Hout : forall s2, (forall b, ky (l_heap s2) b = ky (l_heap s1) b) -> out_node s2 (Ret a) = LKey k).
    { intros s2 Hs2. unfold out_node. rewrite Hs2, Hka. reflexivity. }
    rewrite len_app, len_cons in El. pose proof (len_nonneg _ l2) as Hl2.
    destruct l1 as [|x l1].
    - simpl in *. rewrite len_nil in *. subst j.
      destruct l2 as [|b l2].
      + rewrite (r_tail _ _ _ _ R1). simpl.
        eexists; exists []. split; [f_equal; apply Hout; reflexivity|].
        constructor; simpl; [constructor|reflexivity|reflexivity|rewrite (r_size _ _ _ _ R1); reflexivity|].
        pose proof (r_keys _ _ _ _ R1) as F. inversion F. constructor.
      + assert (Hi0 : i = 0).
        { rewrite len_cons in El. pose proof (len_nonneg _ l2). destruct (Z.ltb_spec i 0); lia. }
        subst i. rewrite Z.eqb_refl.
        destruct (list_snoc_case _ (b :: l2)) as [|(l' & t & Et)]; [discriminate|].
        assert (Etl : l_tail s1 = Some t) by (rewrite (r_tail _ _ _ _ R1), Et; apply last_error_snoc).
        rewrite Etl. eexists; exists (b :: l2). split; [f_equal; apply Hout; intros; cbn [l_heap]; apply ky_set_next|].
        destruct R1 as [N C T S F]. constructor; cbn [l_heap l_head l_tail l_size hd_error]; auto.
        * rewrite Hhd. rewrite Hhd in C. rewrite Et in *. eapply chain_redirect; [exact C| |].
          -- intros c Hc. rewrite nx_set_next, eqb_ne; [reflexivity|]. intros ->. apply (NoDup_app_disj _ _ _ c N Hc). left; reflexivity.
          -- rewrite nx_set_next, Nat.eqb_refl. destruct (chain_def _ _ _ _ t C) as [r Hr]; [rewrite in_app_iff; simpl; auto|].
             rewrite Hr. rewrite <- Et. reflexivity.
        * congruence.
        * eapply Forall2_imp; [|exact F]. intros c k' Hb; cbv beta in *. rewrite ky_set_next. exact Hb.
    - assert (Hi0 : (i =? 0) = false).
      { apply Z.eqb_neq. intros ->. rewrite len_cons in Hl. pose proof (len_nonneg _ l1). simpl in Ej. lia. }
      assert (Htl : exists t, l_tail s1 = Some t).
      { rewrite (r_tail _ _ _ _ R1). destruct (list_snoc_case _ ((x :: l1) ++ l2)) as [|(l' & t & Et)]; [discriminate|].
        rewrite Et, last_error_snoc. eauto. }
      destruct Htl as [t Et]. rewrite Et, Hi0.
      exists s1, ((x :: l1) ++ l2). split; [f_equal; apply Hout; reflexivity|exact R1].
  Qed.

  (** the restriction: no negative index equal to (or below) -len, except on lists where it is harmless *)
  Definition circ_ok (l : list K) (o : lop K) : Prop :=
    match o with
    | LInsertAt i _ => - len l < i \/ len l = 0
    | LExtract i => - len l < i \/ len l <= 1
    | LInsertBefore _ _ => False
    | _ => True
    end.
  Fixpoint hist_ok (P : list K -> lop K -> Prop) (ops : list (lop K)) (l : list K) : Prop :=
    match ops with
    | [] => True
    | o :: ops' => P l o /\ match spec_op l o with Some (l1, _) => hist_ok P ops' l1 | None => False end
    end.

  Lemma scl_op_sim st ps ks o ks' r : crep st ps ks -> circ_ok ks o -> spec_op ks o = Some (ks', r) ->
    exists st' ps', cls_op SCL st o = (st', r) /\ crep st' ps' ks'.
  Proof.
    intros R Ho H. pose proof (rep_len _ _ _ _ R) as El. pose proof (r_size _ _ _ _ R) as Es. pose proof (len_nonneg _ ks) as Hn.
    destruct o as [i k|i k|i k|i|k|k| | |i]; cbn [spec_op cls_op SCL k_insert_at k_insert_after k_extract circ_ok] in *.
    - eapply scl_ins_sim; eauto.
    - unfold spec_insert_rel in H. unfold with_node.
      destruct (Z.leb_spec (len ks) (if i <? 0 then len ks + i else i)).
      { inversion H; subst. erewrite getitem_err by eauto. eauto. }
      destruct (Z.ltb_spec (if i <? 0 then len ks + i else i) 0); [discriminate|].
      destruct (split_elem _ _ _ _ (if i <? 0 then len ks + i else i) R) as (l1 & a & l2 & k' & -> & Hl & Hk & Hka & Hlt); [lia|].
      pose proof (rep_size_heap _ _ _ _ R) as Hh.
      rewrite (getitem_spec _ st l1 a l2 (hd_error (l1 ++ a :: l2)) ks); [|exact R|rewrite Es, El; symmetry; exact Hl|lia].
      injection H as <- <-.
      destruct (sll_insert_after_spec st l1 a l2 (hd_error (l1 ++ a :: l2)) ks k R) as (s1 & E & E1 & E2 & E3 & R' & _).
      unfold scl_insert_after. rewrite E. set (new := length (l_heap st)) in *.
      destruct (nx_cell _ _ _ E3) as (c & Ec & En). rewrite (deref_some _ _ _ Ec). rewrite <- Hl.
      eexists; exists (l1 ++ a :: new :: l2). split; [reflexivity|].
      assert (Hq : hd_error (l1 ++ a :: l2) = hd_error (l1 ++ a :: new :: l2)) by (destruct l1; reflexivity).
      rewrite Hq in R'.
      assert (C' : crep (LL (l_heap s1) (l_head s1) (last_error (l1 ++ a :: new :: l2)) (l_size s1)) ((l1 ++ [a]) ++ new :: l2) (ins ks (len l1 + 1) k)).
      { rewrite <- app_assoc. exact R'. }
      destruct (circ_next _ _ _ _ _ C') as (c' & Ec' & _ & Eo). cbn [l_heap l_head] in Ec', Eo.
      assert (c' = c) by congruence. subst c'. rewrite Eo.
      assert (Hsome : exists z, hd_error (l1 ++ a :: l2) = Some z) by (destruct l1; simpl; eauto). destruct Hsome as [z Hz].
      rewrite Hz in E2.
      destruct l2 as [|b l2].
      + rewrite last_error_app in R' by discriminate. exact R'.
      + simpl in E2. destruct s1 as [h hd tl sz]; cbn [l_heap l_head l_tail l_size] in *.
        replace tl with (last_error (l1 ++ a :: new :: b :: l2)); [exact R'|].
        rewrite E2, (r_tail _ _ _ _ R). rewrite !last_error_app by discriminate. rewrite !(last_error_cons _ a) by discriminate.
        rewrite (last_error_cons _ new) by discriminate. reflexivity.
    - contradiction.
    - eapply scl_ext_sim; eauto.
    - eapply scl_ins_sim; [exact R|rewrite Es, El; lia|]. rewrite Es, El. inversion H; subst.
      unfold spec_insert. replace ((len ks =? 0) && (len ks =? -1)) with false by (destruct (Z.eqb_spec (len ks) (-1)); [lia|rewrite andb_false_r; reflexivity]).
      destruct (Z.ltb_spec (len ks) 0); [lia|]. rewrite Z.ltb_irrefl. destruct (Z.ltb_spec (len ks) 0); [lia|].
      unfold ins, len. rewrite Nat2Z.id, firstn_all, skipn_all. reflexivity.
    - eapply scl_ins_sim; [exact R|lia|]. inversion H; subst. unfold spec_insert.
      rewrite andb_false_r. simpl. destruct (Z.ltb_spec (len ks) 0); [lia|]. reflexivity.
    - eapply scl_ext_sim; [exact R| |exact H]. lia.
    - eapply scl_ext_sim; [exact R| |exact H]. lia.
    - destruct (get_sim _ _ _ _ _ _ _ R H) as [-> E]. rewrite E. eauto.
  Qed.

  Lemma scl_run_sim ops : forall st ps ks ks' rs, crep st ps ks -> hist_ok circ_ok ops ks -> spec_ops ops ks = Some (ks', rs) ->
    exists st' ps', cls_run SCL ops st = (st', rs) /\ crep st' ps' ks'.
  Proof.
    induction ops as [|o ops IH]; intros st ps ks ks' rs R Ho H; simpl in *.
    - inversion H; subst. eauto.
    - destruct Ho as [Ho1 Ho2]. destruct (spec_op ks o) as [[l1 r]|] eqn:E1; [|discriminate].
      destruct (spec_ops ops l1) as [[l2 rs']|] eqn:E2; [|discriminate]. inversion H; subst.
      destruct (scl_op_sim _ _ _ _ _ _ R Ho1 E1) as (s1 & p1 & -> & R1).
      destruct (IH _ _ _ _ _ R1 Ho2 E2) as (s2 & p2 & -> & R2). eauto.
  Qed.

  Lemma follow_chain (step : cell K -> option nat) (h : list (cell K)) : forall ps p q ks,
    chain (fun a => option_map step (nth_error h a)) p ps q -> Forall2 (fun a k => ky h a = Some k) ps ks ->
    follow step (length ps) h p = combine ps ks.
  Proof.
    induction ps as [|a ps IH]; intros p q ks H F; inversion F; subst; simpl in *; [reflexivity|].
    destruct H as [-> (r & Hr & H)].
    destruct (nth_error h a) as [c|] eqn:Ec; [|discriminate]. simpl in Hr. inversion Hr; subst.
    unfold ky in H2. rewrite Ec in H2. simpl in H2. inversion H2; subst. f_equal. eapply IH; eauto.
  Qed.

  (** circular shape, as seen by following [next]: [size] distinct nodes, carrying the keys [ks], then back at the head;
      [tail] is the last of them *)
  Definition circular_shape (st : ll K) (ks : list K) : Prop :=
    l_size st = len ks /\
    map snd (follow c_next (length ks) (l_heap st) (l_head st)) = ks /\
    NoDup (map fst (follow c_next (length ks) (l_heap st) (l_head st))) /\
    match l_head st, l_tail st with
    | None, None => ks = []
    | Some hd, Some tl => ks <> [] /\
        last_error (map fst (follow c_next (length ks) (l_heap st) (l_head st))) = Some tl /\
        nx (l_heap st) tl = Some (Some hd)
    | _, _ => False
    end.

  Lemma combine_fst A B (a : list A) (b : list B) : length a = length b -> map fst (combine a b) = a.
  Proof. revert b; induction a; intros [|y b] H; simpl in *; try lia; [reflexivity|]. f_equal. apply IHa. lia. Qed.
  Lemma combine_snd A B (a : list A) (b : list B) : length a = length b -> map snd (combine a b) = b.
  Proof. revert b; induction a; intros [|y b] H; simpl in *; try lia; [reflexivity|]. f_equal. apply IHa. lia. Qed.

  Lemma crep_shape st ps ks : crep st ps ks -> circular_shape st ks.
  Proof.
    intros R. pose proof (rep_len _ _ _ _ R) as El. assert (El' : length ps = length ks) by (unfold len in El; lia).
    pose proof (follow_chain c_next (l_heap st) ps _ _ ks (r_fw _ _ _ _ R) (r_keys _ _ _ _ R)) as Ef. rewrite El' in Ef.
    unfold circular_shape. rewrite Ef, combine_fst, combine_snd by exact El'.
    split; [rewrite (r_size _ _ _ _ R); exact El|]. split; [reflexivity|]. split; [apply (r_nd _ _ _ _ R)|].
    pose proof (r_fw _ _ _ _ R) as C. pose proof (chain_hd _ _ _ _ C) as Eh. pose proof (r_tail _ _ _ _ R) as Et.
    destruct (list_snoc_case _ ps) as [->|(l & t & ->)].
    - simpl in *. rewrite Eh, Et. simpl. destruct ks; [reflexivity|discriminate].
    - rewrite Et, last_error_snoc.
      assert (Hh : exists z, hd_error (l ++ [t]) = Some z) by (destruct l; simpl; eauto). destruct Hh as [z Hz].
      assert (Eh' : l_head st = Some z) by (rewrite Eh; destruct l; simpl in *; congruence). rewrite Eh'.
      split; [intros ->; rewrite app_length in El'; simpl in El'; lia|]. split; [reflexivity|].
      rewrite Hz in C. apply chain_app in C. destruct C as [_ C]. simpl in C. destruct C as [_ (r & Hr & C)]. congruence.
  Qed.

  Lemma scl_history ops ks rs : hist_ok circ_ok ops [] -> spec_ops ops [] = Some (ks, rs) ->
    exists st, cls_run SCL ops (ll_new K) = (st, rs) /\ circular_shape st ks.
  Proof.
    intros Ho H. destruct (scl_run_sim ops (ll_new K) [] _ _ _ rep_new Ho H) as (st & ps & E & R).
    exists st. split; [exact E|]. eapply crep_shape; eauto.
  Qed.
End Circ.
