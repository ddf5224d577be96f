(** Proofs about SkipList, continued: extract. *)
From Verif Require Import Base SkipModel SkipSpec SkipProofs SkipProofs2 SkipProofs3.

Lemma sub_app_tl {A} (l m : list A) : sublist (l ++ tl m) (l ++ m).
Proof. apply sub_app; [apply sub_refl|]. destruct m as [|x m]; [constructor|]. apply sub_skip, sub_refl. Qed.
Lemma sub_nodup {A} (l m : list A) : sublist l m -> NoDup m -> NoDup l.
Proof. induction 1 as [|y l m S IH|y l m S IH]; intros H; [constructor|inversion H; auto|]. inversion H; subst. constructor; [intros I; apply (sub_in _ _ S) in I; contradiction|auto]. Qed.
Lemma sub_asc l m : sublist l m -> ascending m -> ascending l.
Proof. induction 1 as [|y l m S IH|y l m S IH]; intros H; [exact H|apply IH, H|]. destruct H as (A & B). split; [|auto]. rewrite Forall_forall in *. intros x Hx. apply A, (sub_in _ _ S x Hx). Qed.
Lemma sub_map {A B} (f : A -> B) l m : sublist l m -> sublist (map f l) (map f m).
Proof. induction 1; cbn [map]; auto using @sublist. Qed.
Lemma sub_forall {A} (P : A -> Prop) l m : sublist l m -> Forall P m -> Forall P l.
Proof. intros S. rewrite !Forall_forall. intros F x Hx. apply F, (sub_in _ _ S x Hx). Qed.

Section Ext.
  Context {D : Type}.
  Notation heap := (list (snode D)).
  Implicit Type h : heap.

  Section Rem.
    Context (ky : nat -> xkey) (dn : nat -> option nat) (k : Z).
    Notation pre := (SkipProofs.pre ky k). Notation post := (SkipProofs.post ky k).
    Definition hot (L : lvl) : bool := xeq (ky (nxt ky k L)) k.
    Definition rem (L : lvl) : lvl := Lv (lh L) (pre (lm L) ++ tl (post (lm L))) (lt L).
    Lemma rem_sub L : lvl_keys ky L -> sublist (lm (rem L)) (lm L).
    Proof. intros (_ & _ & F & A). cbn [rem lm]. rewrite (split_ok ky k (lm L) F A) at 3. apply sub_app_tl. Qed.
    Lemma rem_addrs L : lvl_keys ky L -> sublist (addrs (rem L)) (addrs L).
    Proof. intros KL. unfold addrs. cbn [rem lh lt]. apply sub_keep. apply sub_app; [apply (rem_sub L KL)|apply sub_refl]. Qed.
    Lemma rem_keys L : lvl_keys ky L -> lvl_keys ky (rem L).
    Proof. intros KL. assert (S := rem_sub L KL). destruct KL as (A & B & F & O). split; [exact A|]. split; [exact B|]. split; [apply (sub_forall _ _ _ S F)|apply (sub_asc _ _ (sub_map _ _ _ S) O)]. Qed.
    Lemma hot_post L : lvl_keys ky L -> hot L = true -> exists y p, post (lm L) = y :: p /\ ky y = Fin k /\ nxt ky k L = y.
    Proof.
      intros (_ & B & F & _) H. unfold hot, nxt in H. unfold nxt. destruct (post (lm L)) as [|y p] eqn:E; cbn [hd] in *; [rewrite B in H; discriminate|]. exists y, p. split; [reflexivity|]. split; [|reflexivity].
      destruct (ky y) as [|z|] eqn:Ey; try discriminate. cbn in H. apply Z.eqb_eq in H. congruence.
    Qed.
    Lemma ds_split L ds : lvl_keys ky L -> Forall2 (fun m d => dn m = Some d /\ ky d = ky m) (lm L) ds -> ds = pre ds ++ post ds.
    Proof.
      intros (_ & _ & F & A) F2. apply split_ok.
      - clear A. induction F2 as [|m d l ds (E1 & E2) F2 IH]; [constructor|]. inversion F as [|? ? (z & Ez) Fl]; subst. constructor; [exists z; congruence|auto].
      - replace (map (kz ky) ds) with (map (kz ky) (lm L)); [exact A|]. clear A F. induction F2 as [|m d l ds (E1 & E2) F2 IH]; [reflexivity|]. cbn [map]. rewrite IH. f_equal. unfold kz. rewrite E2. reflexivity.
    Qed.
    Lemma link_hot L L' : lvl_keys ky L -> lvl_keys ky L' -> hot L = true -> hot L' = true -> link ky dn L L' -> link ky dn (rem L) (rem L').
    Proof.
      intros KL KL' H H' (A & B & ds & S & F2). split; [exact A|]. split; [exact B|]. exists (pre ds ++ tl (post ds)). cbn [rem lm].
      assert (FP : Forall2 (fun m d => dn m = Some d /\ ky d = ky m) (pre (lm L)) (pre ds)) by (apply filter_f2; [exact F2|intros a c (_ & E); rewrite E; reflexivity]).
      assert (FQ : Forall2 (fun m d => dn m = Some d /\ ky d = ky m) (post (lm L)) (post ds)) by (apply filter_f2; [exact F2|intros a c (_ & E); rewrite E; reflexivity]).
      assert (SP := sub_filter (fun a => xge (ky a) k) _ _ S). fold (post ds) in SP. fold (post (lm L')) in SP. destruct (hot_post L KL H) as (y & p & E1 & _). destruct (hot_post L' KL' H') as (y' & p' & E2 & _). rewrite E1 in *. rewrite E2 in *.
      inversion FQ as [|? e ? q Hq FQ' E3 E4]; subst. rewrite <- E4 in SP. cbn [tl]. split.
      - apply sub_app; [apply sub_filter; exact S|apply (sub_tl _ _ _ _ SP)].
      - apply Forall2_app; assumption.
    Qed.
    Lemma link_cold L L' : lvl_keys ky L -> lvl_keys ky L' -> hot L = false -> hot L' = true -> link ky dn L L' -> link ky dn L (rem L').
    Proof.
      intros KL KL' H H' (A & B & ds & S & F2). split; [exact A|]. split; [exact B|]. exists ds. split; [|exact F2]. cbn [rem lm]. rewrite (ds_split L ds KL F2).
      assert (SP := sub_filter (fun a => xge (ky a) k) _ _ S). fold (post ds) in SP. fold (post (lm L')) in SP. destruct (hot_post L' KL' H') as (y' & p' & E2 & Ey & _). rewrite E2 in *. cbn [tl].
      apply sub_app; [apply sub_filter; exact S|]. apply (sub_drop y'); [exact SP|]. intros x l' E ->. assert (I : In y' (post ds)) by (rewrite E; left; reflexivity).
      assert (FQ : Forall2 (fun m d => dn m = Some d /\ ky d = ky m) (post (lm L)) (post ds)) by (apply filter_f2; [exact F2|intros a c (_ & E0); rewrite E0; reflexivity]). rewrite E in FQ. inversion FQ as [|m ? l ? (_ & Q) _ E3]; subst.
      unfold hot, nxt in H. rewrite <- E3 in H. cbn [hd] in H. rewrite <- Q, Ey in H. cbn in H. rewrite Z.eqb_refl in H. discriminate.
    Qed.
    Lemma linked_hot Lo : Forall (lvl_keys ky) Lo -> Forall (fun L => hot L = true) Lo -> linked ky dn Lo -> linked ky dn (map rem Lo).
    Proof.
      induction Lo as [|L Lo IH]; [auto|]. intros FK FH (A & B). inversion FK; subst. inversion FH; subst. cbn [map]. split; [|apply IH; assumption]. destruct Lo as [|L' Lo]; cbn [map].
      - destruct A as (A1 & A2 & A3). split; [exact A1|]. split; [exact A2|]. apply (sub_forall _ _ (lm L)); [apply rem_sub; assumption|exact A3].
      - inversion H2; subst. inversion H4; subst. apply link_hot; assumption.
    Qed.
    Lemma linked_rem Up Lo : Forall (lvl_keys ky) (Up ++ Lo) -> Forall (fun L => hot L = true) Lo -> (forall Up' U, Up = Up' ++ [U] -> hot U = false) -> linked ky dn (Up ++ Lo) -> linked ky dn (Up ++ map rem Lo).
    Proof.
      induction Up as [|U Up IH]; cbn [app]; intros FK FH C LN; [apply linked_hot; assumption|]. inversion FK as [|? ? KU FK']; subst. destruct LN as (A & B). split; [|apply IH; auto; intros Up' U' E; apply (C (U :: Up') U'); rewrite E; reflexivity].
      destruct Up as [|U' Up]; cbn [app] in *; [|exact A]. destruct Lo as [|L' Lo]; cbn [map]; [exact A|]. inversion FH; subst. inversion FK'; subst. apply link_cold; auto. apply (C [] U). reflexivity.
    Qed.
  End Rem.

  (** ** the first loop *)
  Section Unlink.
    Context (h0 : heap) (k : Z) (Ls : list lvl) (R0 : repH h0 Ls).
    Notation remL := (rem (K h0) k). Notation hotL := (hot (K h0) k).
    Definition same h : Prop := length h = length h0 /\ forall a, K h a = K h0 a /\ Dn h a = Dn h0 a /\ DD h a = DD h0 a.
    Definition ebody (path : list nat) := (fun '(h, level) =>
        if 0 <=? level then
          p <- lget path level ;; n <- sderef h (Some p) ;; nx <- sderef h (s_next n) ;;
          if xeq (s_key nx) k then Ret (Next (ssetnext h p (s_next nx), level - 1)) else Ret (Break h)
        else Ret (Break h) : res (ctl (heap * Z) heap)).
    Definition cut h Up Lo : Prop := Ls = Up ++ Lo /\ same h /\ Forall (fun L => hotL L = true) Lo /\ Forall (fun L => chain (N h) (lh L) (lm L) (lt L)) (Up ++ map remL Lo).

    Lemma cut_step h Up L Lo : cut h (Up ++ [L]) Lo -> hotL L = true -> N h (pred (K h0) k L) = Some (nxt (K h0) k L) /\ cut (ssetnext h (pred (K h0) k L) (N h (nxt (K h0) k L))) Up (L :: Lo).
    Proof.
      intros (EL & (Len & SM) & FH & FC) H. assert (EL' : Ls = Up ++ L :: Lo) by (rewrite EL, <- app_assoc; reflexivity). assert (IL : In L Ls) by (rewrite EL'; apply in_elt).
      assert (OK0 := repH_lok _ _ _ R0 IL). destruct OK0 as (_ & KL & ND & BD). set (p := pred (K h0) k L). rewrite Forall_forall in FC.
      assert (CL : chain (N h) (lh L) (lm L) (lt L)) by (apply FC; rewrite <- app_assoc; apply in_elt).
      assert (S := split_ok (K h0) k (lm L) (proj1 (proj2 (proj2 KL))) (proj2 (proj2 (proj2 KL)))). destruct (hot_post _ k L KL H) as (y & q & EP & Ky & EN). rewrite EN. rewrite EP in S. assert (CL' := CL). rewrite S in CL'. apply chain_app in CL' as (C1 & C2).
      assert (NP : N h p = Some y) by (apply chain_last; exact C1). split; [exact NP|].
      assert (Ip : In p (lh L :: SkipProofs.pre (K h0) k (lm L))) by apply last_in.
      assert (IpA : In p (addrs L)). { apply in_addrs. destruct Ip as [Ip|Ip]; [auto|]. apply pre_lt in Ip. tauto. }
      assert (Bp : (p < length h)%nat) by (rewrite Len; apply BD; exact IpA).
      assert (SN : forall x, N (ssetnext h p (N h y)) x = if (x =? p)%nat then N h y else N h x) by (intros x; apply set_N; exact Bp).
      assert (ND' := ND). unfold addrs in ND'. rewrite S in ND'. replace (lh L :: (SkipProofs.pre (K h0) k (lm L) ++ y :: q) ++ [lt L]) with ((lh L :: SkipProofs.pre (K h0) k (lm L)) ++ y :: q ++ [lt L]) in ND' by (cbn [app]; rewrite <- app_assoc; reflexivity).
      split; [exact EL'|]. split; [split; [rewrite set_len; exact Len|intros a; rewrite set_K, set_Dn, set_DD; apply SM]|]. split; [constructor; assumption|].
      apply Forall_forall. intros M HM.
      assert (ML : M = remL L \/ exists M0, In M (Up ++ map remL Lo) /\ In M0 (Up ++ Lo) /\ (M = M0 \/ M = remL M0)).
      { apply in_app_iff in HM as [HM|[HM|HM]]; [right; exists M; rewrite !in_app_iff; auto|auto|]. right. assert (HM' := HM). apply in_map_iff in HM as (M0 & E & I). exists M0. rewrite !in_app_iff. repeat split; auto. }
      destruct ML as [->|(M0 & IM & I0 & EM)].
      - cbn [rem lh lm lt]. rewrite EP. cbn [tl].
        assert (FRq : forall x, In x (y :: q) -> x <> p). { intros x Hx ->. apply (nd_disj _ _ p ND' Ip). change (y :: q ++ [lt L]) with ((y :: q) ++ [lt L]). apply in_app_iff. auto. }
        destruct q as [|z q].
        + rewrite app_nil_r. cbn [chain] in C2. apply (chain_retarget (N h) _ _ _ y); [apply (nd_l _ _ ND')| | |exact C1].
          * intros x _ Nx. rewrite SN. destruct (Nat.eqb_spec x p); [contradiction|reflexivity].
          * change (last (SkipProofs.pre (K h0) k (lm L)) (lh L)) with p. rewrite SN, Nat.eqb_refl. exact C2.
        + destruct C2 as (C2 & C3). apply chain_app. split.
          * apply (chain_retarget (N h) _ _ _ y); [apply (nd_l _ _ ND')| | |exact C1].
            -- intros x _ Nx. rewrite SN. destruct (Nat.eqb_spec x p); [contradiction|reflexivity].
            -- change (last (SkipProofs.pre (K h0) k (lm L)) (lh L)) with p. rewrite SN, Nat.eqb_refl. exact C2.
          * apply (chain_frame (N h)); [|exact C3]. intros x Hx. rewrite SN. destruct (Nat.eqb_spec x p) as [E|]; [|reflexivity]. exfalso. apply (FRq x); [right; exact Hx|exact E].
      - assert (CM : chain (N h) (lh M) (lm M) (lt M)). { apply FC. apply in_app_iff in IM as [IM|IM]; [rewrite <- app_assoc; apply in_app_iff; auto|apply in_app_iff; right; exact IM]. }
        apply (chain_frame (N h)); [|exact CM]. intros x Hx. rewrite SN. destruct (Nat.eqb_spec x p) as [->|]; [|reflexivity]. exfalso.
        assert (I0L : In M0 Ls) by (rewrite EL'; apply in_app_iff in I0; apply in_app_iff; cbn; tauto). assert (K0 := proj1 (proj2 (repH_lok _ _ _ R0 I0L))).
        assert (Ix : In p (addrs M0)). { assert (Y : In p (addrs M)) by (unfold addrs; destruct Hx as [<-|Hx]; [left; reflexivity|right; apply in_app_iff; auto]). destruct EM as [->|EM]; [exact Y|]. rewrite EM in Y. apply (sub_in _ _ (rem_addrs (K h0) k M0 K0) p Y). }
        assert (NDA := h_nd _ _ R0). rewrite EL', flat_map_app in NDA. cbn [flat_map] in NDA. apply in_app_iff in I0 as [I0|I0].
        + apply (nd_disj _ _ p NDA); [apply (in_flat Up M0); assumption|apply in_app_iff; auto].
        + apply nd_r in NDA. apply (nd_disj _ _ p NDA IpA). apply (in_flat Lo M0); assumption.
    Qed.
    Lemma unlink_ok : wp (while_loop (S (Z.to_nat (len Ls))) (ebody (map (pred (K h0) k) Ls)) (h0, len Ls - 1)) (fun h => exists Up Lo, cut h Up Lo /\ forall Up' U, Up = Up' ++ [U] -> hotL U = false).
    Proof.
      apply (wp_while _ _ (fun '(h, level) => exists Up Lo, cut h Up Lo /\ level = len Up - 1) (fun '(_, level) => Z.to_nat (level + 1))).
      2: { exists Ls, []. split; [|reflexivity]. split; [rewrite app_nil_r; reflexivity|]. split; [split; auto|]. split; [constructor|]. cbn [map]. rewrite app_nil_r. apply R0. }
      2: { unfold len. lia. }
      intros (h & level) (Up & Lo & C & Elev). cbn [ebody]. destruct (Z.leb_spec 0 level) as [Lv0|Lv0].
      2: { exists Up, Lo. split; [exact C|]. intros Up' U ->. unfold len in *. rewrite app_length in Elev. cbn in Elev. lia. }
      destruct (exists_last (l := Up)) as (Up' & U & ->); [intros ->; cbn in Elev; lia|]. assert (EL := proj1 C). assert (LU : level = len Up') by (unfold len in *; rewrite app_length in Elev; cbn in Elev; lia). clear Elev.
      assert (EPa : lget (map (pred (K h0) k) Ls) level = Ret (pred (K h0) k U)).
      { rewrite EL, <- app_assoc. cbn [app]. rewrite (lget_ok _ 0%nat) by (unfold len in *; rewrite map_length, app_length; cbn [length]; lia). f_equal. unfold zn. rewrite map_app. cbn [map]. rewrite app_nth2; rewrite map_length; unfold len in *; [|lia]. replace (_ - _)%nat with 0%nat by lia. reflexivity. }
      rewrite EPa. cbn [bind]. clear EPa. assert (IU : In U Ls) by (rewrite EL; apply in_app_iff; left; apply in_elt). assert (OK0 := repH_lok _ _ _ R0 IU). destruct (next_ok h0 k U OK0) as (B1 & B2 & _).
      destruct (proj2 C) as ((Len & SM) & FH & FC). rewrite deref_ok by (rewrite Len; exact B1). cbn [bind s_next].
      assert (CU : chain (N h) (lh U) (lm U) (lt U)). { rewrite Forall_forall in FC. apply FC. apply in_app_iff. left. apply in_elt. }
      assert (NP : N h (pred (K h0) k U) = Some (nxt (K h0) k U)).
      { assert (KL := proj1 (proj2 OK0)). assert (S := split_ok (K h0) k (lm U) (proj1 (proj2 (proj2 KL))) (proj2 (proj2 (proj2 KL)))). unfold nxt. rewrite S in CU. destruct (SkipProofs.post (K h0) k (lm U)) as [|y q]; cbn [hd]; [rewrite app_nil_r in CU; apply chain_last; exact CU|]. apply chain_app in CU. apply chain_last. apply CU. }
      rewrite NP. rewrite deref_ok by (rewrite Len; exact B2). cbn [bind s_key s_next]. rewrite (proj1 (SM _)). change (xeq (K h0 (nxt (K h0) k U)) k) with (hotL U). destruct (hotL U) eqn:H.
      - cbn [wp]. split; [|lia]. exists Up', (U :: Lo). split; [apply (cut_step h Up' U Lo C H)|lia].
      - cbn [wp]. exists (Up' ++ [U]), Lo. split; [exact C|]. intros Up2 U2 E. apply app_inj_tail in E as (_ & <-). exact H.
    Qed.
    Lemma cut_rep h Up Lo : cut h Up Lo -> (forall Up' U, Up = Up' ++ [U] -> hotL U = false) -> repH h (Up ++ map remL Lo).
    Proof.
      intros (EL & (Len & SM) & FH & FC) C. assert (FK := h_keys _ _ R0). rewrite EL in FK.
      assert (KE : forall a, In a (flat_map addrs (Up ++ map remL Lo)) -> K h a = K h0 a /\ Dn h a = Dn h0 a) by (intros a _; destruct (SM a) as (A & B & _); auto).
      assert (FS : sublist (flat_map addrs (Up ++ map remL Lo)) (flat_map addrs Ls)).
      { rewrite EL, !flat_map_app. apply sub_app; [apply sub_refl|]. apply Forall_app in FK as (_ & FK). clear - FK. induction Lo as [|L Lo IH]; [constructor|]. inversion FK; subst. cbn [map flat_map]. apply sub_app; [apply rem_addrs; assumption|auto]. }
      assert (FK1 : Forall (lvl_keys (K h0)) (Up ++ map remL Lo)). { apply Forall_app in FK as (F1 & F2). apply Forall_app. split; [exact F1|]. rewrite Forall_map. rewrite Forall_forall in *. intros L I. apply rem_keys, F2, I. }
      split; [exact FC| | |apply (sub_nodup _ _ FS (h_nd _ _ R0))|].
      - rewrite Forall_forall in *. intros L I. apply (keys_frame (K h0)); [|auto]. intros a _. apply SM.
      - apply (linked_frame (K h0) _ (Dn h0) _ _ KE). apply linked_rem; [exact FK|exact FH|exact C|rewrite <- EL; apply R0].
      - intros a Ha. rewrite Len. apply (h_bd _ _ R0). apply (sub_in _ _ FS a Ha).
    Qed.
  End Unlink.

  (** ** the second loop *)
  Definition dbody (h : heap) := (fun '(walk, head, tail, levels) =>
        match walk with
        | None => Ret (Break (head, tail, levels))
        | Some w =>
          n <- sderef h (Some w) ;;
          if match s_next n, tail with Some a, Some b => (a =? b)%nat | None, None => true | _, _ => false end then
            t <- sderef h tail ;; Ret (Next (s_down n, s_down n, s_down t, levels - 1))
          else Ret (Break (head, tail, levels))
        end : res (ctl (option nat * option nat * option nat * Z) (option nat * option nat * Z))).
  Lemma repH_drop h Up Lo : repH h (Up ++ Lo) -> repH h Lo.
  Proof. induction Up as [|U Up IH]; [auto|]. cbn [app]. intros R. apply IH. apply (repH_tail _ _ _ R). Qed.
  Lemma bot_rest Up Rest : Rest <> [] -> bot (Up ++ Rest) = bot Rest.
  Proof. destruct Rest as [|L Lo]; [congruence|]. intros _. apply bot_app. Qed.
  Lemma drop_ok h Ls fuel : repH h Ls -> (length Ls < fuel)%nat ->
    wp (while_loop fuel (dbody h) (topH Ls, topH Ls, topT Ls, len Ls)) (fun '(head, tail, levels) => exists Rest, repH h Rest /\ head = topH Rest /\ tail = topT Rest /\ levels = len Rest /\ items h Rest = items h Ls).
  Proof.
    intros R F. apply (wp_while _ _ (fun '(walk, head, tail, levels) => exists Up Rest, Ls = Up ++ Rest /\ walk = head /\ head = topH Rest /\ tail = topT Rest /\ levels = len Rest /\ items h Rest = items h Ls) (fun '(_, _, _, levels) => Z.to_nat levels)).
    2: { exists [], Ls. repeat split. }
    2: { unfold len. lia. }
    intros (((walk & head) & tail) & levels) (Up & Rest & EL & -> & -> & -> & -> & EI). destruct Rest as [|L Rest]; cbn [topH topT dbody]; [cbn [wp]; exists []; rewrite EL in R; repeat split; auto using (repH_drop h Up []); apply (repH_drop h Up []), R|].
    assert (R' : repH h (L :: Rest)) by (rewrite EL in R; apply (repH_drop h Up), R). destruct (repH_lok _ _ _ R' (or_introl eq_refl)) as (C & _ & ND & BD).
    rewrite deref_ok by (apply BD, in_addrs; auto). cbn [bind s_next s_down]. destruct (lm L) as [|m l] eqn:EM.
    - cbn [chain] in C. rewrite C, Nat.eqb_refl. rewrite deref_ok by (apply BD, in_addrs; auto). cbn [bind s_down wp]. split; [|unfold len; cbn [length]; lia].
      exists (Up ++ [L]), Rest. split; [rewrite EL, <- app_assoc; reflexivity|]. split; [reflexivity|]. assert (LN := proj1 (h_link _ _ R')).
      assert (EE : items h Rest = items h Ls). { rewrite <- EI. unfold items. f_equal. destruct Rest as [|L' Rest]; [unfold bot; cbn; rewrite EM; reflexivity|]. symmetry. apply (bot_app [L]). }
      destruct Rest as [|L' Rest]; [destruct LN as (A1 & A2 & _)|destruct LN as (A1 & A2 & _)]; (split; [exact A1|split; [exact A2|split; [unfold len; cbn [length]; lia|exact EE]]]).
    - destruct C as (C & _). rewrite C. destruct (Nat.eqb_spec m (lt L)) as [E|_].
      + exfalso. unfold addrs in ND. rewrite EM in ND. inversion ND; subst. cbn [app] in H2. inversion H2; subst. apply H3. apply in_app_iff. right. left. reflexivity.
      + cbn [wp]. exists (L :: Rest). repeat split; auto; apply R'.
  Qed.

  Definition ext_items (k : Z) (l : list (Z * option D)) : list (Z * option D) := filter (fun e => negb (k <=? fst e)) l ++ tl (filter (fun e => k <=? fst e) l).
  Lemma split_items h L k : lvl_keys (K h) L -> forall l, (forall a, In a l -> In a (lm L)) ->
    map (fun a => (kz (K h) a, DD h a)) (SkipProofs.pre (K h) k l) = filter (fun e => negb (k <=? fst e)) (map (fun a => (kz (K h) a, DD h a)) l) /\
    map (fun a => (kz (K h) a, DD h a)) (SkipProofs.post (K h) k l) = filter (fun e => k <=? fst e) (map (fun a => (kz (K h) a, DD h a)) l).
  Proof.
    intros (_ & _ & F & _). rewrite Forall_forall in F. induction l as [|a l IH]; intros IL; [split; reflexivity|]. destruct (IH (fun x Hx => IL x (or_intror Hx))) as (IH1 & IH2). destruct (F a (IL a (or_introl eq_refl))) as (z & Ez). assert (EK : kz (K h) a = z) by (unfold kz; rewrite Ez; reflexivity).
    unfold SkipProofs.pre, SkipProofs.post in *. cbn [map filter fst]. rewrite EK, Ez. cbn [xge]. destruct (k <=? z); cbn [negb map]; rewrite ?IH1, ?IH2, ?EK; split; reflexivity.
  Qed.

  Lemma extract_ok st Ls k : rep st Ls ->
    (existsb (fun e => fst e =? k) (items (k_heap st) Ls) = false /\ skip_extract st k = Raise KeyError) \/
    (exists d rest st' Ls', filter (fun e => k <=? fst e) (items (k_heap st) Ls) = (k, d) :: rest /\ skip_extract st k = Ret (Fin k, d, st') /\ rep st' Ls' /\ items (k_heap st') Ls' = ext_items k (items (k_heap st) Ls)).
  Proof.
    intros R. unfold skip_extract. rewrite (path_ok st Ls k R). cbn [bind]. destruct (tip_ok st Ls k R) as (L & Up0 & EL & OK & EB & ->). cbn [bind]. destruct (next_ok (k_heap st) k L OK) as (B1 & B2 & EN).
    rewrite deref_ok by exact B1. cbn [bind s_next]. rewrite EN, deref_ok by exact B2. cbn [bind s_key s_data]. set (h0 := k_heap st) in *.
    assert (IK := nxt_key h0 k L (proj1 (proj2 OK))). assert (IE : existsb (fun e => fst e =? k) (items h0 Ls) = existsb (fun a => kz (K h0) a =? k) (lm L)). { unfold items. rewrite EB. clear. induction (lm L) as [|a l IH]; [reflexivity|]. cbn [map existsb fst]. rewrite IH. reflexivity. }
    rewrite IE, <- IK. destruct (xeq (K h0 (nxt (K h0) k L)) k) eqn:H; cbn [negb]; [right|left; auto].
    assert (HL : hot (K h0) k L = true) by exact H. destruct (hot_post (K h0) k L (proj1 (proj2 OK)) HL) as (y & q & EP & Ky & ENy). rewrite ENy, Ky.
    destruct (split_items h0 L k (proj1 (proj2 OK)) (lm L) (fun a Ha => Ha)) as (SI1 & SI2). 
    rewrite (p_lev _ _ R). assert (W := unlink_ok h0 k Ls (p_h _ _ R)). apply wp_ex in W as (h & EW & Up & Lo & C & CC). unfold ebody in EW. rewrite EW. cbn [bind]. clear EW.
    assert (R1 := cut_rep h0 k Ls (p_h _ _ R) h Up Lo C CC). destruct C as (EL2 & (Len & SM) & FH & FC).
    assert (LoE : exists Lo1, Lo = Lo1 ++ [L] /\ Ls = Up ++ Lo1 ++ [L]).
    { destruct Lo as [|L0 Lo0] eqn:ELo.
      - exfalso. rewrite app_nil_r in EL2. rewrite EL in EL2. assert (X := CC Up0 L (eq_sym EL2)). congruence.
      - rewrite <- ELo in *. assert (NE : Lo <> []) by (rewrite ELo; discriminate). destruct (exists_last NE) as (Lo1 & L1 & E1). exists Lo1. rewrite E1 in EL2. rewrite EL, app_assoc in EL2. apply app_inj_tail in EL2 as (E2 & <-). split; [exact E1|]. rewrite EL, E2, <- app_assoc. reflexivity. }
    destruct LoE as (Lo1 & -> & EL3). set (Ls1 := Up ++ map (rem (K h0) k) (Lo1 ++ [L])) in *.
    assert (T : topH Ls1 = topH Ls /\ topT Ls1 = topT Ls /\ len Ls1 = len Ls).
    { unfold Ls1. rewrite EL3. destruct Up as [|U Up]; [|repeat split; unfold len; cbn [app length]; rewrite !app_length, map_length, app_length; reflexivity]. cbn [app]. destruct Lo1 as [|L1 Lo1]; repeat split; unfold len; cbn [app map length]; rewrite ?map_length, ?app_length; reflexivity. }
    destruct T as (T1 & T2 & T3). assert (F : (length Ls1 < S (S (Z.to_nat (len Ls))))%nat) by (rewrite <- T3; unfold len; lia).
    assert (W := drop_ok h Ls1 _ R1 F). apply wp_ex in W as (((head & tail) & levels) & EW & Rest & RR & -> & -> & -> & EI).
    rewrite (p_head _ _ R), (p_tail _ _ R). rewrite <- T1, <- T2. rewrite T3 in EW. unfold dbody in EW. rewrite EW. cbn [bind k_levels].
    assert (IT : items h Ls1 = ext_items k (items h0 Ls)).
    { unfold items. rewrite EB. unfold Ls1, ext_items. rewrite map_app. cbn [map]. rewrite app_assoc, bot_app. unfold bot. cbn [last rem lm]. rewrite <- SI1, <- SI2. rewrite map_app. f_equal; [apply map_ext; intros a; destruct (SM a) as (A1 & _ & A2); unfold kz; rewrite A1, A2; reflexivity|].
      rewrite EP. cbn [tl map]. apply map_ext; intros a; destruct (SM a) as (A1 & _ & A2); unfold kz; rewrite A1, A2; reflexivity. }
    assert (I0 : items h0 Ls = map (fun a => (kz (K h0) a, DD h0 a)) (lm L)) by (unfold items; rewrite EB; reflexivity).
    assert (FE : filter (fun e => k <=? fst e) (items h0 Ls) = (k, DD h0 y) :: map (fun a => (kz (K h0) a, DD h0 a)) q). { rewrite I0, <- SI2, EP. cbn [map]. unfold kz at 1. rewrite Ky. reflexivity. }
    assert (NUM : k_num st - 1 = len (ext_items k (items h0 Ls))).
    { rewrite (p_num _ _ R). fold h0. unfold ext_items. rewrite FE. cbn [tl]. assert (X : len (filter (fun e => negb (k <=? fst e)) (items h0 Ls)) + len (filter (fun e => k <=? fst e) (items h0 Ls)) = len (items h0 Ls)). { clear. induction (items h0 Ls) as [|a l IH]; [reflexivity|]. unfold len in *. cbn [filter]. destruct (k <=? fst a); cbn [negb length]; lia. }
      rewrite FE in X. unfold len in *. rewrite app_length. cbn [length] in X. lia. }
    exists (DD h0 y), (map (fun a => (kz (K h0) a, DD h0 a)) q). destruct Rest as [|L1 Rest].
    - change (len (@nil lvl) =? 0) with true. cbn iota. set (st1 := SK h _ _ _ _). destruct (add_level_ok st1 [] RR eq_refl eq_refl) as (R2 & KP & Len2). exists (add_level st1), [Lv (S (length h)) [] (length h)]. split; [exact FE|]. split; [reflexivity|].
      assert (I2 : items (k_heap (add_level st1)) [Lv (S (length h)) [] (length h)] = ext_items k (items h0 Ls)) by (rewrite <- IT, <- EI; reflexivity).
      split; [|exact I2]. split; [exact R2|discriminate|reflexivity|reflexivity|reflexivity|]. rewrite I2. exact NUM.
    - replace (len (L1 :: Rest) =? 0) with false by (symmetry; apply Z.eqb_neq; unfold len; cbn [length]; lia). cbn iota. eexists. exists (L1 :: Rest). split; [exact FE|]. split; [reflexivity|]. cbn [k_heap].
      split; [|rewrite EI; exact IT]. split; cbn [k_heap k_head k_tail k_levels k_num]; auto; [discriminate|]. rewrite EI, IT. exact NUM.
  Qed.
End Ext.
