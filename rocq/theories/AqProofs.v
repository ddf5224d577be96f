(** Proofs: ArrayQueue follows AqSpec.place_step. *)
From Verif Require Import Base ArraysModel ArraysProofs StackQueueModel StackQueueSpec StackQueueProofs LinkedProofs MatProofs AqSpec.

Section Aq.
  Context {A : Type}.
  Record aq_at (q : aqueue A) (l : list A) (f r cap : Z) : Prop :=
    { at_rel : exists c, aq_rel q l c true; at_f : q_front q = f; at_r : q_rear q = r; at_cap : d_size (q_items q) = cap }.

  Lemma aq_rel_front q (l : list A) c any : aq_rel q l c any -> aq_rel q l (match l with [] => 0 | _ => q_front q end) true.
  Proof.
    intros R. constructor; try apply R; try discriminate.
    - intros E. destruct (ar_empty _ _ _ _ R E) as (E1 & E2 & E3 & E4). subst l. auto.
    - intros E. destruct (ar_cells _ _ _ _ R E) as (E1 & E2 & E3 & E4 & E5). destruct l; [contradiction|]. repeat split; try lia; assumption.
  Qed.
  Lemma aq_at_new items de : match place0 items with (f, r, cap) => aq_at (aq_new items de) items f r cap end.
  Proof.
    pose proof (aq_rel_front _ _ _ _ (aq_new_rel items de)) as R. unfold place0. destruct items as [|x items]; constructor; try reflexivity; try (eexists; exact R).
  Qed.

  Lemma modify_size (d d' : doda A) : doda_inv d -> 0 < d_size d -> d_ln d = 1 -> d_ld d = 4 -> doda_modify d = Ret d' ->
    d_size d' = cells_after (d_num d) (d_size d) /\ (contracts (d_num d) (d_size d) = false -> d' = d).
  Proof.
    intros I Hp L1 L2 E. destruct (doda_modify_spec d I Hp) as (d2 & E2 & _ & _ & _ & _ & _ & _ & _ & Fs & Fc). rewrite E in E2. injection E2 as <-.
    rewrite L1, L2 in *. unfold cells_after, contracts. destruct (Z.ltb_spec (d_num d * 4) (d_size d)).
    - destruct Fc as (_ & _ & F); [lia|]. split; [exact F|discriminate].
    - destruct Fs as [Fs| ->]; [lia|]. auto.
  Qed.

  Lemma at_append q l f r cap x : aq_at q l f r cap -> match place_step (q_de q) l (f, r, cap) (QAppend x) with
    | Some (f', r', cap') => exists q', aq_append q x = Ret (q', OUnit) /\ aq_at q' (l ++ [x]) f' r' cap' /\ q_de q' = q_de q
    | None => exists q', aq_append q x = Ret (q', OUnit) /\ forall q2 v, aq_popleft q' <> Ret (q2, OVal (Some v)) end.
  Proof.
    intros [(c & R0) Hf Hr Hcap]. pose proof (aq_rel_front _ _ _ _ R0) as R. pose proof (ar_inv _ _ _ _ R) as I. destruct (ar_lf _ _ _ _ R) as [L1 L2].
    pose proof (di_num _ I) as Hn. rewrite (ar_content _ _ _ _ R) in Hn.
    unfold aq_append. destruct (doda_append_raw (q_items q) x I) as (data1 & size1 & E & I1 & Hsz & Ec1 & Hcell).
    pose proof (di_last _ I1) as Hl1; cbn [d_last d_size] in Hl1. pose proof (di_last _ I) as Hl0. pose proof (len_nonneg _ l) as Hll.
    assert (He : aq_is_empty q = match l with [] => true | _ => false end) by (unfold aq_is_empty; rewrite Hn; apply size0).
    assert (Good : size1 <= (d_num (q_items q) + 1) * 4 -> exists q', (d <- doda_append (q_items q) x ;; Ret (AQ d (if aq_is_empty q then 0 else q_front q) (q_rear q + 1) (q_de q), @OUnit A)) = Ret (q', OUnit) /\
      aq_at q' (l ++ [x]) (match l with [] => 0 | _ => f end) (r + 1) size1 /\ q_de q' = q_de q).
    { intros Hnoc.
      assert (Em : doda_modify (Doda data1 size1 (d_num (q_items q) + 1) (d_last (q_items q) + 1) (d_ln (q_items q)) (d_ld (q_items q))) =
         Ret (Doda data1 size1 (d_num (q_items q) + 1) (d_last (q_items q) + 1) (d_ln (q_items q)) (d_ld (q_items q)))).
      { unfold doda_modify; cbn [d_data d_size d_num d_last d_ln d_ld]. rewrite L1, L2.
        destruct (Z.eqb_spec size1 0); [lia|]. destruct (Z.ltb_spec ((d_num (q_items q) + 1) * 4) (1 * size1)); [lia|]. reflexivity. }
      rewrite E, Em. cbn [bind]. eexists; split; [reflexivity|]. split; [|reflexivity]. rewrite He.
      constructor; cbn [q_items q_front q_rear q_de d_data d_size d_num d_last d_ln d_ld]; [|destruct l; congruence|congruence|reflexivity].
      exists (match l with [] => 0 | _ => f end).
      constructor; cbn [q_items q_front q_rear q_de d_data d_size d_num d_last d_ln d_ld]; auto.
      - rewrite Ec1, (ar_content _ _ _ _ R). reflexivity.
      - intros Hx; destruct l; discriminate.
      - intros _. rewrite len_app. change (len [x]) with 1. destruct l as [|y l].
        + destruct (ar_empty _ _ _ _ R eq_refl) as (E1 & E2 & E3 & E4). rewrite len_nil in *.
          repeat split; try lia.
          intros i Hi. rewrite Hcell by lia. destruct (Z.eqb_spec i (d_last (q_items q) + 1)); [|lia].
          replace (Z.to_nat (i - 0)) with 0%nat by lia. reflexivity.
        + destruct (ar_cells _ _ _ _ R ltac:(discriminate)) as (E1 & E2 & E3 & E4 & E5).
          repeat split; try lia.
          intros i Hi. rewrite Hcell by lia. destruct (Z.eqb_spec i (d_last (q_items q) + 1)).
          * rewrite nth_error_app2 by (unfold len in *; lia). replace (Z.to_nat (i - q_front q) - length (y :: l))%nat with 0%nat by (unfold len in *; lia). reflexivity.
          * destruct (Z.ltb_spec i (d_size (q_items q))); [|lia]. rewrite E5 by lia. rewrite nth_error_app1 by (unfold len in *; lia). reflexivity.
      - discriminate. }
    destruct l as [|y l].
    - cbn [place_step]. destruct (ar_empty _ _ _ _ R eq_refl) as (E1 & E2 & E3 & E4). rewrite len_nil in *.
      assert (size1 = 1) as -> by (destruct Hsz as [[-> ?]|[-> ?]]; lia). apply Good. lia.
    - cbn [place_step]. destruct (ar_cells _ _ _ _ R ltac:(discriminate)) as (E1 & E2 & E3 & E4 & E5).
      destruct (Z.eqb_spec (f + len (y :: l)) cap) as [Efull|Nfull].
      + assert (size1 = 2 * cap + 1) as -> by (destruct Hsz as [[-> ?]|[-> ?]]; lia).
        destruct (Z.leb_spec (len (y :: l) + 2) f) as [Hbad|Hgood]; [|apply Good; lia].
        (* contraction *)
        destruct (doda_modify_spec _ I1) as (d' & Em & I' & Ec' & F1 & F2 & Fn & Fsz & _ & Fs & Fc); [cbn [d_size]; lia|].
        cbn [d_data d_size d_num d_last d_ln d_ld] in *. rewrite L1, L2 in *. destruct Fc as (G1 & G2 & G3); [lia|].
        rewrite E, Em. cbn [bind]. eexists. split; [reflexivity|]. intros q2 v K. rewrite He in K. unfold aq_popleft in K. cbn [q_items q_front q_rear q_de] in K.
        assert (N0 : aq_is_empty (AQ d' (q_front q) (q_rear q + 1) (q_de q)) = false) by (unfold aq_is_empty; cbn [q_items]; apply Z.eqb_neq; lia). rewrite N0 in K.
        unfold doda_get in K. destruct (Z.leb_spec (d_size d') (q_front q)); [discriminate K|]. destruct (Z.ltb_spec (q_front q) 0); [lia|]. cbn [orb] in K.
        pose proof (di_size _ I') as Hs'. rewrite (lget_ok _ None) in K by lia. rewrite (di_tail _ I') in K by lia. cbn [bind] in K.
        destruct (if q_front q =? q_rear q + 1 then _ else _) as [[? ?]| |]; cbn [bind] in K; [|discriminate K..].
        destruct (doda_delete _ _); cbn [bind] in K; discriminate K.
      + assert (size1 = cap) as -> by (destruct Hsz as [[-> ?]|[-> ?]]; lia). apply Good. lia.
  Qed.

  Lemma at_popleft q v l f r cap : aq_at q (v :: l) f r cap -> match place_step (q_de q) (v :: l) (f, r, cap) QPopLeft with
    | Some (f', r', cap') => exists q', aq_popleft q = Ret (q', OVal (Some v)) /\ aq_at q' l f' r' cap' /\ q_de q' = q_de q
    | None => False end.
  Proof.
    intros [(c & R) Hf Hr Hcap]. destruct (aq_popleft_ok q v l c true R) as (q' & E & R' & Ede).
    pose proof (ar_inv _ _ _ _ R) as I. destruct (ar_lf _ _ _ _ R) as [L1 L2].
    pose proof (di_num _ I) as Hn. rewrite (ar_content _ _ _ _ R) in Hn. rewrite len_cons in Hn. pose proof (len_nonneg _ l) as Hll.
    destruct (ar_cells _ _ _ _ R ltac:(discriminate)) as (E1 & E2 & E3 & E4 & E5). rewrite len_cons in *. pose proof (di_last _ I) as Hl0.
    assert (Ev : zn None (d_data (q_items q)) (q_front q) = Some v) by (rewrite E5 by lia; rewrite Z.sub_diag; reflexivity).
    destruct (doda_delete_raw (q_items q) (q_front q) v I ltac:(lia) Ev) as (Eg & Ed & I1 & Ec1).
    assert (Em : exists d', doda_delete (q_items q) (q_front q) = Ret d' /\ d_size d' = cells_after (len l) cap /\ (contracts (len l) cap = false -> d_size d' = cap)).
    { pose proof (di_last _ I1) as Hl1; cbn [d_last d_size] in Hl1.
      destruct (doda_modify_spec _ I1) as (d' & Em & _); [cbn [d_size]; lia|]. exists d'. split; [rewrite Ed; exact Em|].
      destruct (modify_size _ d' I1 ltac:(cbn [d_size]; lia) L1 L2 Em) as [M1 M2]. cbn [d_num d_size] in *. replace (d_num (q_items q) - 1) with (len l) in * by lia.
      rewrite Hcap in *. split; [exact M1|]. intros H. rewrite (M2 H). reflexivity. }
    destruct Em as (d' & Edel & M1 & M2).
    unfold place_step. rewrite len_cons. replace (len l + 1 - 1) with (len l) by lia.
    unfold aq_popleft in E. assert (He : aq_is_empty q = false) by (unfold aq_is_empty; apply Z.eqb_neq; lia). rewrite He, Eg in E. cbn [bind] in E.
    unfold aq_will_shrink in E. rewrite L1, L2, Hf, Hr in E. destruct (Z.eqb_spec (d_size (q_items q)) 0); [lia|]. cbn [bind] in E.
    rewrite Hf in Edel. replace (d_num (q_items q) - 1) with (len l) in E by lia. rewrite Hcap in E. rewrite Z.mul_1_l in E. fold (contracts (len l) cap) in E.
    destruct (f =? r) eqn:Efr.
    - cbn [bind] in E. rewrite Edel in E. cbn [bind] in E. injection E as <-. eexists. split; [unfold aq_popleft|].
      { rewrite He, Eg. cbn [bind]. rewrite Hf, Hr, Efr. cbn [bind]. rewrite Edel. reflexivity. }
      split; [|reflexivity]. constructor; cbn [q_items q_front q_rear]; [eexists; exact R'|reflexivity|reflexivity|exact M1].
    - cbn [bind] in E. rewrite Edel in E. cbn [bind] in E. injection E as <-.
      destruct (contracts (len l) cap) eqn:Ec; eexists; (split; [unfold aq_popleft; rewrite He, Eg; cbn [bind]; rewrite Hf, Hr, Efr; unfold aq_will_shrink; rewrite L1, L2;
        destruct (Z.eqb_spec (d_size (q_items q)) 0); [lia|]; replace (d_num (q_items q) - 1) with (len l) by lia; rewrite Hcap, Z.mul_1_l; fold (contracts (len l) cap); rewrite Ec; cbn [bind]; rewrite Edel; reflexivity|]);
        (split; [|reflexivity]); constructor; cbn [q_items q_front q_rear]; try reflexivity; try (eexists; exact R'); auto.
  Qed.

  Lemma at_appendleft q l f r cap x : aq_at q l f r cap -> q_de q = true -> match place_step true l (f, r, cap) (QAppendLeft x) with
    | Some (f', r', cap') => exists q', aq_appendleft q x = Ret (q', OUnit) /\ aq_at q' (x :: l) f' r' cap' /\ q_de q' = q_de q
    | None => (exists e, aq_appendleft q x = Raise e) \/
        exists q', aq_appendleft q x = Ret (q', OUnit) /\ (NoDup (x :: l) -> forall q2, aq_popleft q' <> Ret (q2, OVal (Some x))) end.
  Proof.
    intros [(c & R0) Hf Hr Hcap] Hde. pose proof (aq_rel_front _ _ _ _ R0) as R. clear R0.
    pose proof (ar_inv _ _ _ _ R) as I. pose proof (di_num _ I) as Hn. rewrite (ar_content _ _ _ _ R) in Hn.
    assert (He : aq_is_empty q = match l with [] => true | _ => false end) by (unfold aq_is_empty; rewrite Hn; apply size0).
    destruct l as [|y l].
    - cbn [place_step]. destruct (ar_empty _ _ _ _ R eq_refl) as (E1 & E2 & E3 & E4).
      unfold aq_appendleft. rewrite Hde, He. cbn [negb forM bind]. change (zrange 0 (-1 + 1)) with (@nil Z). cbn [forM bind].
      eexists. split; [reflexivity|]. split; [|reflexivity]. constructor; try reflexivity. exists 0. constructor; cbn [q_items q_front q_rear q_de]; try discriminate.
      + apply doda_inv_list; lia.
      + simpl; auto.
      + reflexivity.
      + intros _. unfold doda_new_list; cbn [d_last d_size d_data]. change (len [x]) with 1. repeat split; try lia. intros i Hi. rewrite Z.sub_0_r. apply (packed_new [x]). change (len [x]) with 1; lia.
    - cbn [place_step]. destruct (ar_cells _ _ _ _ R ltac:(discriminate)) as (E1 & E2 & E3 & E4 & E5).
      destruct ((f =? 0) && (r =? len (y :: l) - 1)) eqn:Eg.
      + apply andb_true_iff in Eg as [G1 G2]. apply Z.eqb_eq in G1, G2.
        assert (R' : aq_rel q (y :: l) 0 false). { constructor; try apply R; try discriminate; [|intros _; split; [reflexivity|lia]]. intros _. repeat split; try lia. exact E5. }
        destruct (aq_appendleft_ok q (y :: l) 0 x R' Hde) as (q' & E & Rq & Ede). exists q'. split; [exact E|]. split; [|exact Ede].
        destruct (ar_any _ _ _ _ Rq eq_refl) as [_ Hrr]. pose proof (aq_rel_front _ _ _ _ Rq) as Rf.
        destruct (ar_cells _ _ _ _ Rq ltac:(discriminate)) as (F1 & F2 & F3 & _).
        constructor; [eexists; exact Rf|lia|rewrite Hrr, len_cons; lia|].
        unfold aq_appendleft in E. rewrite Hde, He in E. cbn [negb] in E. destruct (forM _ _ _) as [t| |] in E; cbn [bind] in E; try discriminate E. injection E as <-.
        pose proof (ar_content _ _ _ _ Rq) as Et. cbn [q_items doda_new_list d_data] in Et. rewrite content_map_some in Et. subst t. cbn [q_items doda_new_list d_size]. rewrite len_cons. reflexivity.
      + unfold aq_appendleft. rewrite Hde, He. cbn [negb]. 
        assert (Rd : forall i t, f <= i < f + len (y :: l) -> (v <- lget (d_data (q_items q)) i ;; match v with Some w => Ret (t ++ [w]) | None => Raise TypeError end) = Ret (t ++ firstn 1 (skipn (Z.to_nat (i - f)) (y :: l)))).
        { intros i t Hi. pose proof (di_size _ I). pose proof (di_last _ I). rewrite (lget_ok _ None) by lia. cbn [bind]. rewrite E5 by lia. rewrite Hf.
          destruct (nth_error (y :: l) (Z.to_nat (i - f))) as [w|] eqn:Ew; [|apply nth_error_None in Ew; unfold len in *; lia].
          apply nth_error_split in Ew as (l1 & l2 & Ew & El). rewrite Ew, <- El, skipn_app, skipn_all, Nat.sub_diag. reflexivity. }
        assert (Loop : forall n, (n <= length (y :: l))%nat -> forM (zrange f (f + Z.of_nat n)) (fun i temp => v <- lget (d_data (q_items q)) i ;; match v with Some w => Ret (temp ++ [w]) | None => Raise TypeError end) [x] = Ret (x :: firstn n (y :: l))).
        { induction n as [|n IH]; intros Hn'; [rewrite Z.add_0_r; unfold zrange; rewrite Z.sub_diag; reflexivity|].
          replace (f + Z.of_nat (S n)) with (f + Z.of_nat n + 1) by lia. rewrite (zrange_snoc _ (f + Z.of_nat n + 1)), Z.add_simpl_r by lia. rewrite forM_app, IH by lia. cbn [forM bind]. rewrite Rd by (unfold len; lia). cbn [bind].
          replace (Z.to_nat (f + Z.of_nat n - f)) with n by lia. f_equal. cbn [app]. f_equal.
          rewrite <- (firstn_skipn n (y :: l)) at 3. rewrite firstn_app, firstn_length_le by lia. rewrite (firstn_all2 (firstn n (y :: l))) by (rewrite firstn_length_le; lia). replace (S n - n)%nat with 1%nat by lia. reflexivity. }
        specialize (Loop (length (y :: l)) (le_n _)). rewrite firstn_all in Loop. fold (len (y :: l)) in Loop.
        destruct (Z.eq_dec r (f + len (y :: l) - 1)) as [Er|Nr].
        * right. rewrite Hf, Hr, Er. replace (f + len (y :: l) - 1 + 1) with (f + len (y :: l)) by lia. rewrite Loop. cbn [bind]. eexists. split; [reflexivity|].
          assert (0 < f). { destruct (Z.eqb_spec f 0), (Z.eqb_spec r (len (y :: l) - 1)); try discriminate Eg; lia. }
          intros ND q2 K. unfold aq_popleft in K. unfold aq_is_empty in K. cbn [q_items q_front q_rear q_de doda_new_list d_num] in K.
          destruct (Z.eqb_spec (len (x :: y :: l)) 0) as [Z0|_]; [rewrite !len_cons in Z0; pose proof (len_nonneg _ l); lia|].
          unfold doda_get in K. unfold doda_new_list in K; cbn [d_size d_data] in K. destruct (Z.leb_spec (len (x :: y :: l)) f) as [|Hlt]; [discriminate K|]. destruct (Z.ltb_spec f 0); [lia|]. cbn [orb] in K.
          rewrite (lget_ok _ None) in K by (unfold len in *; rewrite map_length; lia). cbn [bind] in K. rewrite packed_new in K by lia.
          destruct (nth_error (x :: y :: l) (Z.to_nat f)) as [w|] eqn:Ew; [|apply nth_error_None in Ew; unfold len in *; lia].
          destruct (if f =? _ then _ else _) as [[? ?]| |] in K; cbn [bind] in K; try discriminate K. destruct (doda_delete _ _) in K; cbn [bind] in K; try discriminate K. injection K as _ ->.
          rewrite NoDup_nth_error in ND. assert (Z.to_nat f = 0)%nat; [|lia]. symmetry. apply ND; [simpl; lia|]. rewrite Ew. reflexivity.
        * left. assert (Hbig : f + len (y :: l) - 1 < r) by lia. rewrite Hf, Hr.
          assert (Sp : zrange f (r + 1) = zrange f (f + len (y :: l)) ++ (f + len (y :: l)) :: zrange (f + len (y :: l) + 1) (r + 1)).
          { rewrite <- zrange_cons by lia. apply zrange_split; unfold len in *; lia. }
          rewrite Sp, forM_app, Loop. cbn [forM bind].
          assert (Bad : exists e, (v <- lget (d_data (q_items q)) (f + len (y :: l)) ;; match v with Some w => Ret ((x :: y :: l) ++ [w]) | None => Raise TypeError end) = Raise e).
          { pose proof (di_size _ I) as Hs. pose proof (di_last _ I). destruct (Z_lt_le_dec (f + len (y :: l)) (d_size (q_items q))).
            - rewrite (lget_ok _ None) by lia. cbn [bind]. rewrite (di_tail _ I) by lia. eauto.
            - assert (Eo : lget (d_data (q_items q)) (f + len (y :: l)) = Raise IndexError). { pose proof (len_nonneg _ (y :: l)). unfold lget. destruct (Z.ltb_spec (f + len (y :: l)) 0); [lia|]. apply aget_err. lia. } rewrite Eo. cbn [bind]. eauto. }
          destruct Bad as (e & Bad). rewrite Bad. cbn [bind]. eauto.
  Qed.

  Lemma at_pop q l f r cap : aq_at q l f r cap -> q_de q = true -> l <> [] -> match place_step true l (f, r, cap) QPop with
    | Some (f', r', cap') => exists q', aq_pop q = Ret (q', OVal (last_error l)) /\ aq_at q' (removelast l) f' r' cap' /\ q_de q' = q_de q
    | None => forall q' v, aq_pop q <> Ret (q', OVal (Some v)) end.
  Proof.
    intros [(c & R0) Hf Hr Hcap] Hde Hne. pose proof (aq_rel_front _ _ _ _ R0) as R. clear R0.
    destruct (list_snoc_case _ l) as [->|(l' & v & ->)]; [contradiction|]. clear Hne. rewrite last_error_snoc, removelast_last.
    pose proof (ar_inv _ _ _ _ R) as I. destruct (ar_lf _ _ _ _ R) as [L1 L2].
    pose proof (di_num _ I) as Hn. rewrite (ar_content _ _ _ _ R) in Hn.
    assert (Hne : l' ++ [v] <> []) by (destruct l'; discriminate).
    destruct (ar_cells _ _ _ _ R Hne) as (E1 & E2 & E3 & E4 & E5). rewrite len_app in *. change (len [v]) with 1 in *. pose proof (len_nonneg _ l') as Hll.
    pose proof (di_last _ I) as Hl0. pose proof (di_size _ I) as Hs0.
    assert (He : aq_is_empty q = false) by (unfold aq_is_empty; apply Z.eqb_neq; lia).
    assert (Ps : place_step true (l' ++ [v]) (f, r, cap) QPop = if r =? f + len l' then Some (if f =? r then (-1, -1, cells_after (len l') cap) else if contracts (len l') cap then (0, r, cells_after (len l') cap) else (f, r - 1, cap)) else None).
    { unfold place_step. destruct (l' ++ [v]) as [|z zs] eqn:El; [destruct l'; discriminate El|]. rewrite <- El, len_app. change (len [v]) with 1. replace (f + (len l' + 1) - 1) with (f + len l') by lia. replace (len l' + 1 - 1) with (len l') by lia. reflexivity. }
    rewrite Ps. destruct (Z.eqb_spec r (f + len l')) as [Er|Nr].
    - assert (Ev : zn None (d_data (q_items q)) r = Some v).
      { rewrite E5 by lia. rewrite nth_error_app2 by (unfold len in *; lia). replace (Z.to_nat (r - q_front q) - length l')%nat with 0%nat by (unfold len in *; lia). reflexivity. }
      destruct (doda_delete_raw (q_items q) r v I ltac:(lia) Ev) as (Eg & Ed & I1 & Ec1).
      destruct (content_upd_none (d_data (q_items q)) r v ltac:(lia) Ev) as [C1 C2].
      assert (Ct : content (skipn (S (Z.to_nat r)) (d_data (q_items q))) = []).
      { pose proof (content_firstn_tail (d_data (q_items q)) (S (Z.to_nat r))) as T. pose proof (f_equal content (firstn_skipn (S (Z.to_nat r)) (d_data (q_items q)))) as Sp. rewrite content_app in Sp.
        rewrite T in Sp. 2:{ intros i Hi. pose proof (di_tail _ I (Z.of_nat i)) as Tl. unfold zn in Tl. rewrite Nat2Z.id in Tl. apply Tl. unfold len in *. lia. }
        apply (f_equal (@length A)) in Sp. rewrite app_length in Sp. destruct (content (skipn _ _)); [reflexivity|simpl in Sp; lia]. }
      assert (Cl : content (zupd (d_data (q_items q)) r None) = l').
      { rewrite C2, Ct, app_nil_r. rewrite (ar_content _ _ _ _ R), Ct in C1. apply app_inj_tail in C1. symmetry. apply C1. }
      pose proof (di_last _ I1) as Hl1; cbn [d_last d_size] in Hl1.
      destruct (doda_modify_spec _ I1) as (d' & Em & I' & Ec' & F1 & F2 & Fn & Fsz & _ & Fs & Fc); [cbn [d_size]; lia|].
      destruct (modify_size _ d' I1 ltac:(cbn [d_size]; lia) L1 L2 Em) as [M1 M2].
      cbn [d_data d_size d_num d_last d_ln d_ld] in *. replace (d_num (q_items q) - 1) with (len l') in * by lia. rewrite Cl in Ec'.
      rewrite L1, L2 in *. rewrite Cl in Fc.
      assert (Ep : aq_pop q = Ret (AQ d' (if f =? r then -1 else if contracts (len l') cap then 0 else f) (if f =? r then -1 else if contracts (len l') cap then r else r - 1) (q_de q), OVal (Some v))).
      { unfold aq_pop. rewrite Hde, He. cbn [negb]. rewrite Hr, Eg. cbn [bind]. rewrite Hf. unfold aq_will_shrink. rewrite L1, L2, Hcap. destruct (Z.eqb_spec cap 0); [lia|].
        replace (d_num (q_items q) - 1) with (len l') by lia. rewrite Z.mul_1_l. fold (contracts (len l') cap).
        destruct (f =? r); cbn [bind]; [|destruct (contracts (len l') cap); cbn [bind]]; rewrite Ed, Em; cbn [bind]; rewrite ?Hde; reflexivity. }
      assert (Rel : aq_rel (AQ d' (if f =? r then -1 else if contracts (len l') cap then 0 else f) (if f =? r then -1 else if contracts (len l') cap then r else r - 1) (q_de q)) l' (match l' with [] => 0 | _ => f end) true).
      { unfold contracts in *. destruct l' as [|w l'].
        - rewrite len_nil in *. destruct Fc as (G1 & G2 & G3); [lia|]. constructor; cbn [q_items q_front q_rear q_de]; auto; try congruence.
          intros _. destruct (Z.eqb_spec f r); [|lia]. repeat split; lia.
        - rewrite len_cons in *. pose proof (len_nonneg _ l'). destruct (Z.eqb_spec f r); [lia|]. destruct (Z.ltb_spec ((len l' + 1) * 4) cap).
          + destruct Fc as (G1 & G2 & G3); [lia|]. constructor; cbn [q_items q_front q_rear q_de]; auto; try congruence.
            intros _. rewrite len_cons. repeat split; try lia. intros i Hi. rewrite G1, Z.sub_0_r. apply nth_zn_map. rewrite len_cons; lia.
          + assert (Ef : ((len l' + 1) * 4 <? d_size (q_items q)) = false) by (apply Z.ltb_ge; lia). specialize (M2 Ef). subst d'. constructor; cbn [q_items q_front q_rear q_de d_data d_size d_num d_last d_ln d_ld]; auto; try congruence.
            intros _. rewrite len_cons. destruct (Z.eqb_spec (d_last (q_items q)) r); [|lia]. repeat split; try lia.
            intros i Hi. rewrite zn_zupd_ne by lia. rewrite E5 by lia. rewrite Hf. rewrite nth_error_app1 by (unfold len in *; simpl; lia). reflexivity. }
      rewrite Hcap in M1. rewrite Hcap in M2 at 1. destruct (f =? r) eqn:Efr; [|destruct (contracts (len l') cap) eqn:Ec]; eexists; (split; [exact Ep|]); (split; [|reflexivity]); constructor; cbn [q_items q_front q_rear]; try reflexivity; try (eexists; exact Rel); try exact M1.
      rewrite (M2 eq_refl). exact Hcap.
    - intros q' w K. unfold aq_pop in K. rewrite Hde, He in K. cbn [negb] in K. unfold doda_get in K. rewrite Hr in K.
      destruct (Z.leb_spec (d_size (q_items q)) r); [discriminate K|]. destruct (Z.ltb_spec r 0); [lia|]. cbn [orb] in K.
      rewrite (lget_ok _ None) in K by lia. rewrite (di_tail _ I) in K by lia. cbn [bind] in K.
      destruct (if q_front q =? r then _ else _) as [[? ?]| |] in K; cbn [bind] in K; try discriminate K. destruct (doda_delete _ _) in K; cbn [bind] in K; discriminate K.
  Qed.

  Lemma at_step q l f r cap o : aq_at q l f r cap -> forall f' r' cap', place_step (q_de q) l (f, r, cap) o = Some (f', r', cap') ->
    snd (aq_step q o) = snd (deque_spec (q_de q) l o) /\ aq_at (fst (aq_step q o)) (fst (deque_spec (q_de q) l o)) f' r' cap' /\ q_de (fst (aq_step q o)) = q_de q.
  Proof.
    intros H f' r' cap' P. destruct H as [(c & R) Hf Hr Hcap] eqn:EH; clear EH. assert (H0 : aq_at q l f r cap) by (constructor; eauto).
    pose proof (ar_inv _ _ _ _ R) as I. pose proof (di_num _ I) as Hn. rewrite (ar_content _ _ _ _ R) in Hn.
    assert (He : aq_is_empty q = match l with [] => true | _ => false end) by (unfold aq_is_empty; rewrite Hn; apply size0).
    destruct o as [x|x| | | |]; cbn [aq_step deque_spec].
    - pose proof (at_append q l f r cap x H0) as S. rewrite P in S. destruct S as (q' & E & S & Ed). rewrite E. cbn [out_of fst snd]. auto.
    - destruct (q_de q) eqn:Hde.
      + pose proof (at_appendleft q l f r cap x H0 Hde) as S. rewrite P in S. destruct S as (q' & E & S & Ed). rewrite E. cbn [out_of fst snd]. rewrite Hde in Ed. auto.
      + unfold aq_appendleft. rewrite Hde. cbn [negb out_of fst snd]. split; [reflexivity|]. split; [|exact Hde]. destruct l; cbn [place_step] in P; injection P as <- <- <-; exact H0.
    - destruct l as [|v l].
      + unfold aq_popleft. rewrite He. cbn [out_of fst snd]. cbn [place_step] in P. injection P as <- <- <-. auto.
      + pose proof (at_popleft q v l f r cap H0) as S. rewrite P in S. destruct S as (q' & E & S & Ed). rewrite E. cbn [out_of fst snd]. auto.
    - destruct (q_de q) eqn:Hde.
      + destruct l as [|v l].
        * unfold aq_pop. rewrite Hde, He. cbn [negb out_of fst snd last_error rev hd_error]. cbn [place_step] in P. injection P as <- <- <-. auto.
        * pose proof (at_pop q (v :: l) f r cap H0 Hde ltac:(discriminate)) as S. rewrite P in S. destruct S as (q' & E & S & Ed). rewrite E.
          destruct (list_snoc_case _ (v :: l)) as [Z0|(l1 & z & Z0)]; [discriminate Z0|]. rewrite Z0 in *. rewrite last_error_snoc in *. cbn [out_of fst snd]. rewrite Hde in Ed. auto.
      + unfold aq_pop. rewrite Hde. cbn [negb out_of fst snd]. split; [reflexivity|]. split; [|exact Hde]. destruct l; cbn [place_step] in P; injection P as <- <- <-; exact H0.
    - cbn [fst snd]. rewrite Hn. destruct l; cbn [place_step] in P; injection P as <- <- <-; auto.
    - cbn [fst snd]. rewrite He. destruct l; cbn [place_step] in P; injection P as <- <- <-; auto.
  Qed.
  (** what goes wrong goes wrong visibly, at once or at the next popleft *)
  Lemma at_step_wrong q l f r cap o : aq_at q l f r cap -> place_step (q_de q) l (f, r, cap) o = None -> NoDup (fst (deque_spec (q_de q) l o)) ->
    snd (run_hist aq_step [o; QPopLeft] q) <> snd (run_hist (deque_spec (q_de q)) [o; QPopLeft] l).
  Proof.
    intros H P ND K. cbn [run_hist] in K.
    destruct (aq_step q o) as [q1 a1] eqn:S1. destruct (deque_spec (q_de q) l o) as [l1 b1] eqn:D1. destruct (aq_step q1 QPopLeft) as [q2 a2] eqn:S2. destruct (deque_spec (q_de q) l1 QPopLeft) as [l2 b2] eqn:D2.
    cbn [snd fst] in *. injection K as -> ->.
    destruct o as [x|x| | | |]; cbn [aq_step deque_spec] in *.
    - pose proof (at_append q l f r cap x H) as S. rewrite P in S. destruct S as (q' & E & S). rewrite E in S1. cbn [out_of] in S1. inversion S1; subst q1; clear S1. inversion D1; subst l1; clear D1.
      assert (X : exists w l3, l ++ [x] = w :: l3) by (destruct l; simpl; eauto). destruct X as (w & l3 & X). rewrite X in D2. injection D2 as <- <-.
      unfold out_of in S2. destruct (aq_popleft q') as [[q3 a3]| |] eqn:Ep; try discriminate S2. injection S2 as <- ->. exact (S _ _ eq_refl).
    - destruct (q_de q) eqn:Hde; [|destruct l; discriminate P].
      pose proof (at_appendleft q l f r cap x H Hde) as S. rewrite P in S. injection D1 as <- <-. destruct S as [(e & E)|(q' & E & S)]; rewrite E in S1; cbn [out_of] in S1; [discriminate S1|].
      injection S1 as <-. injection D2 as <- <-. unfold out_of in S2. destruct (aq_popleft q') as [[q3 a3]| |] eqn:Ep; try discriminate S2. injection S2 as <- ->. exact (S ND _ eq_refl).
    - destruct l; discriminate P.
    - destruct (q_de q) eqn:Hde; [|destruct l; discriminate P]. destruct l as [|v l]; [discriminate P|].
      pose proof (at_pop q (v :: l) f r cap H Hde ltac:(discriminate)) as S. rewrite P in S.
      destruct (list_snoc_case _ (v :: l)) as [Z0|(l3 & z & Z0)]; [discriminate Z0|]. rewrite Z0 in *. rewrite last_error_snoc in D1. injection D1 as <- <-.
      unfold out_of in S1. destruct (aq_pop q) as [[q3 a3]| |] eqn:Ep; try discriminate S1. injection S1 as <- ->. exact (S _ _ eq_refl).
    - destruct l; discriminate P.
    - destruct l; discriminate P.
  Qed.

  Lemma at_run ops : forall q l f r cap l' f' r' cap', aq_at q l f r cap -> place_run (q_de q) ops l (f, r, cap) = Some (l', (f', r', cap')) ->
    snd (run_hist aq_step ops q) = snd (run_hist (deque_spec (q_de q)) ops l) /\ l' = fst (run_hist (deque_spec (q_de q)) ops l) /\
    aq_at (fst (run_hist aq_step ops q)) l' f' r' cap' /\ q_de (fst (run_hist aq_step ops q)) = q_de q.
  Proof.
    induction ops as [|o ops IH]; intros q l f r cap l' f' r' cap' H P; cbn [place_run run_hist] in *.
    - injection P as -> -> -> ->. auto.
    - destruct (place_step (q_de q) l (f, r, cap) o) as [[[f1 r1] cap1]|] eqn:E; [|discriminate P].
      destruct (at_step q l f r cap o H _ _ _ E) as (S1 & S2 & S3). destruct (aq_step q o) as [q1 a1]. destruct (deque_spec (q_de q) l o) as [l1 b1]. cbn [fst snd] in *.
      rewrite <- S3 in P. destruct (IH q1 l1 f1 r1 cap1 l' f' r' cap' S2 P) as (I1 & I2 & I3 & I4). rewrite S3 in *.
      destruct (run_hist aq_step ops q1), (run_hist (deque_spec (q_de q)) ops l1). cbn [fst snd] in *. subst. auto.
  Qed.
End Aq.
Lemma run_hist_app {S O R} (step : S -> O -> S * R) ops1 : forall ops2 s,
  run_hist step (ops1 ++ ops2) s = (fst (run_hist step ops2 (fst (run_hist step ops1 s))), snd (run_hist step ops1 s) ++ snd (run_hist step ops2 (fst (run_hist step ops1 s)))).
Proof.
  induction ops1 as [|o ops1 IH]; intros ops2 s; cbn [app run_hist fst snd]; [destruct (run_hist step ops2 s); reflexivity|].
  destruct (step s o) as [s1 r]. rewrite IH. destruct (run_hist step ops1 s1); reflexivity.
Qed.
