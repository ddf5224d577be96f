(** Proofs about SkipList, continued: insert. *)
From Verif Require Import Base SkipModel SkipSpec SkipProofs SkipProofs2.

Lemma f2_impl {A B} (R R' : A -> B -> Prop) l m : Forall2 R l m -> (forall a b, In a l -> In b m -> R a b -> R' a b) -> Forall2 R' l m.
Proof. induction 1 as [|x y l m H F IH]; intros I; constructor; [apply I; [left; reflexivity|left; reflexivity|exact H]|]. apply IH. intros a b Ha Hb. apply I; right; assumption. Qed.
Lemma asc_app l m : ascending (l ++ m) <-> ascending l /\ ascending m /\ (forall x y, In x l -> In y m -> x <= y).
Proof.
  induction l as [|a l IH]; cbn [app ascending]; [split; [intros H; split; [exact I|]; split; [exact H|]; intros x y []|tauto]|]. rewrite IH, Forall_app, !Forall_forall. split.
  - intros ((A & B) & C & E & F). split; [auto|]. split; [exact E|]. intros x y [<-|Hx] Hy; auto.
  - intros ((A & B) & C & E). split; [split; [exact A|]|]; [|split; [exact B|split; [exact C|]]].
    + intros x Hx. apply E; [left; reflexivity|exact Hx].
    + intros x y Hx Hy. apply E; [right; assumption|assumption].
Qed.
Lemma nd_perm {A} (l m : list A) : Permutation l m -> NoDup l -> NoDup m.
Proof. apply Permutation_NoDup. Qed.

Section Ins.
  Context {D : Type}.
  Notation heap := (list (snode D)).
  Implicit Type h : heap.

  Lemma keys_frame ky ky' L : (forall a, In a (addrs L) -> ky' a = ky a) -> lvl_keys ky L -> lvl_keys ky' L.
  Proof.
    intros H (A & B & F & S). assert (I : forall a, In a (lm L) -> ky' a = ky a) by (intros a Ha; apply H, in_addrs; auto). split; [rewrite H; [exact A|apply in_addrs; auto]|]. split; [rewrite H; [exact B|apply in_addrs; auto]|]. split.
    - rewrite Forall_forall in *. intros m Hm. rewrite I by exact Hm. auto.
    - replace (map (kz ky') (lm L)) with (map (kz ky) (lm L)); [exact S|]. apply map_ext_in. intros a Ha. unfold kz. rewrite I by exact Ha. reflexivity.
  Qed.
  Lemma link_frame ky ky' dn dn' L L' : (forall a, In a (addrs L) -> ky' a = ky a /\ dn' a = dn a) -> (forall a, In a (addrs L') -> ky' a = ky a /\ dn' a = dn a) -> link ky dn L L' -> link ky' dn' L L'.
  Proof.
    intros H H' (A & B & ds & S & F). split; [rewrite (proj2 (H _ (proj2 (in_addrs L _) (or_introl eq_refl)))); exact A|]. split; [rewrite (proj2 (H _ (proj2 (in_addrs L _) (or_intror (or_intror eq_refl))))); exact B|]. exists ds. split; [exact S|].
    apply (f2_impl _ _ _ _ F). intros a b Ha Hb (E1 & E2). rewrite (proj2 (H a (proj2 (in_addrs L _) (or_intror (or_introl Ha))))), (proj1 (H a (proj2 (in_addrs L _) (or_intror (or_introl Ha))))). split; [exact E1|].
    rewrite (proj1 (H' b (proj2 (in_addrs L' _) (or_intror (or_introl (sub_in _ _ S b Hb)))))). exact E2.
  Qed.
  Lemma linked_frame ky ky' dn dn' Ls : (forall a, In a (flat_map addrs Ls) -> ky' a = ky a /\ dn' a = dn a) -> linked ky dn Ls -> linked ky' dn' Ls.
  Proof.
    induction Ls as [|L Ls IH]; [auto|]. intros H (A & B). cbn [flat_map] in H. split; [|apply IH; [intros a Ha; apply H, in_app_iff; auto|exact B]]. destruct Ls as [|L' Ls].
    - destruct A as (A1 & A2 & A3). assert (Q : forall a, In a (addrs L) -> dn' a = dn a) by (intros a Ha; apply H, in_app_iff; auto). split; [rewrite Q; [exact A1|apply in_addrs; auto]|]. split; [rewrite Q; [exact A2|apply in_addrs; auto]|]. rewrite Forall_forall in *. intros m Hm. rewrite Q; [auto|apply in_addrs; auto].
    - apply (link_frame ky ky' dn dn' L L'); [intros a Ha; apply H, in_app_iff; auto| |exact A]. intros a Ha. apply H, in_app_iff. right. cbn [flat_map]. apply in_app_iff. auto.
  Qed.
  Lemma in_flat (Ls : list lvl) L a : In L Ls -> In a (addrs L) -> In a (flat_map addrs Ls).
  Proof. intros H1 H2. apply in_flat_map. eauto. Qed.

  (** [h'] keeps the cells of [h] except for some next *)
  Definition keeps h h' : Prop := (length h <= length h')%nat /\ forall a, (a < length h)%nat -> K h' a = K h a /\ Dn h' a = Dn h a /\ DD h' a = DD h a.
  Lemma keeps_refl h : keeps h h.
  Proof. split; [lia|auto]. Qed.
  Lemma keeps_trans h1 h2 h3 : keeps h1 h2 -> keeps h2 h3 -> keeps h1 h3.
  Proof. intros (L1 & H1) (L2 & H2). split; [lia|]. intros a Ha. destruct (H1 a Ha) as (A & B & C). destruct (H2 a ltac:(lia)) as (A' & B' & C'). repeat split; congruence. Qed.

  Lemma add_level_ok (st : skip D) Ls : repH (k_heap st) Ls -> k_head st = topH Ls -> k_tail st = topT Ls ->
    let t := length (k_heap st) in let st' := add_level st in repH (k_heap st') (Lv (S t) [] t :: Ls) /\ keeps (k_heap st) (k_heap st') /\ length (k_heap st') = S (S t).
  Proof.
    intros R EH ET t st'. set (h := k_heap st) in *. set (h' := k_heap st'). assert (Lh' : length h' = S (S t)) by (cbn [h' st' add_level k_heap]; rewrite app_length; cbn; fold h; fold t; lia).
    assert (AG : forall a, (a < t)%nat -> nth_error h' a = nth_error h a) by (intros a Ha; cbn [h' st' add_level k_heap]; apply nth_error_app1; exact Ha).
    assert (E0 : nth_error h' t = Some (SN PInf None None (topT Ls))). { cbn [h' st' add_level k_heap]. rewrite nth_error_app2 by (fold h; fold t; lia). fold h. fold t. rewrite Nat.sub_diag, ET. reflexivity. }
    assert (E1 : nth_error h' (S t) = Some (SN NInf None (Some t) (topH Ls))). { cbn [h' st' add_level k_heap]. rewrite nth_error_app2 by (fold h; fold t; lia). fold h. fold t. replace (S t - t)%nat with 1%nat by lia. rewrite EH. reflexivity. }
    clearbody h'. clear st'. assert (Et : t = length h) by reflexivity. clearbody t.
    split; [|split; [split; [lia|intros a Ha; unfold K, Dn, DD; rewrite AG by lia; auto]|exact Lh']].
    assert (BD := h_bd _ _ R). split.
    - constructor; [cbn [chain lh lm lt]; unfold N; rewrite E1; reflexivity|]. assert (C := h_chain _ _ R). rewrite Forall_forall in *. intros L HL. apply (chain_frame (N h)); [|auto]. intros x Hx. unfold N. rewrite AG; [reflexivity|]. rewrite Et. apply BD. apply (in_flat Ls L); [exact HL|]. unfold addrs. destruct Hx as [<-|Hx]; [left; reflexivity|right; apply in_app_iff; auto].
    - constructor; [unfold lvl_keys, K; cbn [lh lm lt map ascending]; rewrite E0, E1; auto|]. assert (C := h_keys _ _ R). rewrite Forall_forall in *. intros L HL. apply (keys_frame (K h)); [|auto]. intros x Hx. unfold K. rewrite AG; [reflexivity|]. rewrite Et. apply BD. apply (in_flat Ls L); assumption.
    - cbn [linked]. split.
      + destruct Ls as [|L Ls]; [unfold ground, Dn; cbn [lh lm lt]; rewrite E0, E1; auto|]. unfold link, Dn. cbn [lh lm lt]. rewrite E0, E1. cbn [s_down topH topT]. split; [reflexivity|]. split; [reflexivity|]. exists []. split; [|constructor]. clear. induction (lm L); constructor; assumption.
      + apply (linked_frame (K h) _ (Dn h)); [|apply R]. intros a Ha. unfold K, Dn. rewrite AG by (rewrite Et; apply BD; exact Ha). auto.
    - cbn [flat_map addrs lh lm lt app]. constructor; [|constructor; [|apply R]]; cbn [In]; [intros [X|X]; [lia|apply BD in X; lia]|intros X; apply BD in X; lia].
    - intros a Ha. cbn [flat_map addrs lh lm lt app In] in Ha. destruct Ha as [<-|[<-|Ha]]; [lia|lia|]. apply BD in Ha. lia.
  Qed.

  Section One.
    Context (h : heap) (k : Z) (data : option D) (d : option nat) (Up : list lvl) (L : lvl) (Lo : list lvl).
    Context (R : repH h (Up ++ L :: Lo)).
    Notation b := (length h). Notation prev := (pred (K h) k L).
    Definition ins_heap : heap := ssetnext (h ++ [SN (Fin k) data (N h prev) d]) prev (Some b).
    Definition ins_lvl : lvl := Lv (lh L) (SkipProofs.pre (K h) k (lm L) ++ b :: SkipProofs.post (K h) k (lm L)) (lt L).
    Context (HD : match Lo with [] => d = None | L' :: _ => exists below p, d = Some below /\ SkipProofs.post (K h) k (lm L') = below :: p /\ K h below = Fin k /\ forall m, In m (lm L) -> Dn h m <> Some below end).

    Lemma L_in : In L (Up ++ L :: Lo). Proof. apply in_elt. Qed.
    Lemma prev_lt : (prev < b)%nat.
    Proof. apply (next_ok h k L (repH_lok _ _ _ R L_in)). Qed.
    Lemma prev_addr : In prev (addrs L) /\ In prev (lh L :: SkipProofs.pre (K h) k (lm L)).
    Proof. split; [|apply last_in]. apply in_addrs. destruct (last_in (lh L) (SkipProofs.pre (K h) k (lm L))) as [X|X]; [left; unfold pred; rewrite <- X; reflexivity|]. apply pre_lt in X. tauto. Qed.
    Lemma ins_len : length ins_heap = S b.
    Proof. unfold ins_heap. rewrite set_len, app_length. cbn. lia. Qed.
    Lemma ins_old a : (a < b)%nat -> K ins_heap a = K h a /\ Dn ins_heap a = Dn h a /\ DD ins_heap a = DD h a.
    Proof. intros Ha. unfold ins_heap. rewrite set_K, set_Dn, set_DD. unfold K, Dn, DD. rewrite nth_error_app1 by exact Ha. auto. Qed.
    Lemma ins_new : K ins_heap b = Fin k /\ Dn ins_heap b = d /\ DD ins_heap b = data.
    Proof. unfold ins_heap. rewrite set_K, set_Dn, set_DD. unfold K, Dn, DD. rewrite nth_error_app2 by lia. rewrite Nat.sub_diag. cbn. auto. Qed.
    Lemma ins_N a : (a < b)%nat -> N ins_heap a = if (a =? prev)%nat then Some b else N h a.
    Proof. intros Ha. unfold ins_heap. assert (P := prev_lt). rewrite set_N by (rewrite app_length; cbn; lia). unfold N. rewrite nth_error_app1 by exact Ha. reflexivity. Qed.
    Lemma ins_Nb : N ins_heap b = Some (nxt (K h) k L).
    Proof. unfold ins_heap. assert (P := prev_lt). rewrite set_N by (rewrite app_length; cbn; lia). destruct (Nat.eqb_spec b prev); [lia|]. unfold N at 1. rewrite nth_error_app2 by lia. rewrite Nat.sub_diag. cbn. apply (next_ok h k L (repH_lok _ _ _ R L_in)). Qed.
    Lemma ins_keeps : keeps h ins_heap.
    Proof. split; [rewrite ins_len; lia|apply ins_old]. Qed.
    Lemma others_addr L' : In L' (Up ++ Lo) -> forall a, In a (addrs L') -> (a < b)%nat /\ ~ In a (addrs L).
    Proof.
      intros HL' a Ha. assert (ND := h_nd _ _ R). rewrite flat_map_app in ND. cbn [flat_map] in ND. split.
      - apply (h_bd _ _ R). apply (in_flat _ L'); [|exact Ha]. apply in_app_iff in HL'. apply in_app_iff. cbn. tauto.
      - intros I. apply in_app_iff in HL' as [HL'|HL'].
        + apply (nd_disj _ _ a ND); [apply (in_flat Up L'); assumption|apply in_app_iff; auto].
        + apply nd_r in ND. apply (nd_disj _ _ a ND I). apply (in_flat Lo L'); assumption.
    Qed.
    Lemma ins_perm : Permutation (flat_map addrs (Up ++ ins_lvl :: Lo)) (b :: flat_map addrs (Up ++ L :: Lo)).
    Proof.
      assert (S := lvl_split h k L (proj1 (proj2 (repH_lok _ _ _ R L_in)))).
      assert (P : Permutation (addrs ins_lvl) (b :: addrs L)).
      { unfold addrs. cbn [ins_lvl lh lm lt]. rewrite S at 3. rewrite <- !app_assoc. cbn [app]. rewrite perm_swap. constructor. symmetry. apply Permutation_middle. }
      rewrite !flat_map_app. cbn [flat_map]. rewrite P. cbn [app]. symmetry. apply Permutation_middle.
    Qed.
    Lemma ins_keys : lvl_keys (K ins_heap) ins_lvl.
    Proof.
      destruct (repH_lok _ _ _ R L_in) as (_ & KL & _ & BD). assert (S := lvl_split h k L KL). destruct KL as (A & B & F & AS). unfold lvl_keys. cbn [ins_lvl lh lm lt].
      assert (OLD : forall a, In a (addrs L) -> K ins_heap a = K h a) by (intros a Ha; apply ins_old, BD, Ha). rewrite !OLD by (apply in_addrs; auto). split; [exact A|]. split; [exact B|].
      assert (IL : forall a, In a (lm L) -> In a (addrs L)) by (intros a Ha; apply in_addrs; auto).
      assert (FP : forall a, In a (SkipProofs.pre (K h) k (lm L)) -> exists z, K ins_heap a = Fin z /\ K h a = Fin z /\ z < k). { intros a Ha. apply pre_lt in Ha as (Ha & G). rewrite Forall_forall in F. destruct (F a Ha) as (z & Ez). exists z. rewrite OLD by auto. rewrite Ez in *. cbn in G. repeat split; auto. lia. }
      assert (FQ : forall a, In a (SkipProofs.post (K h) k (lm L)) -> exists z, K ins_heap a = Fin z /\ K h a = Fin z /\ k <= z). { intros a Ha. apply post_ge in Ha as (Ha & G). rewrite Forall_forall in F. destruct (F a Ha) as (z & Ez). exists z. rewrite OLD by auto. rewrite Ez in *. cbn in G. repeat split; auto. lia. }
      destruct ins_new as (Kb & _). split.
      - apply Forall_app. split; [apply Forall_forall; intros a Ha; destruct (FP a Ha) as (z & Ez & _); eauto|]. constructor; [eauto|]. apply Forall_forall. intros a Ha. destruct (FQ a Ha) as (z & Ez & _). eauto.
      - rewrite S, map_app in AS. apply asc_app in AS as (AS1 & AS2 & AS3). rewrite map_app. cbn [map]. apply asc_app.
        assert (M1 : map (kz (K ins_heap)) (SkipProofs.pre (K h) k (lm L)) = map (kz (K h)) (SkipProofs.pre (K h) k (lm L))). { apply map_ext_in. intros a Ha. destruct (FP a Ha) as (z & E1 & E2 & _). unfold kz. rewrite E1, E2. reflexivity. }
        assert (M2 : map (kz (K ins_heap)) (SkipProofs.post (K h) k (lm L)) = map (kz (K h)) (SkipProofs.post (K h) k (lm L))). { apply map_ext_in. intros a Ha. destruct (FQ a Ha) as (z & E1 & E2 & _). unfold kz. rewrite E1, E2. reflexivity. }
        rewrite M1, M2. assert (Kz : kz (K ins_heap) b = k) by (unfold kz; rewrite Kb; reflexivity). rewrite Kz. split; [exact AS1|]. split.
        + cbn [ascending]. split; [|exact AS2]. rewrite Forall_map, Forall_forall. intros a Ha. destruct (FQ a Ha) as (z & _ & E & Lz). unfold kz. rewrite E. exact Lz.
        + intros x y Hx Hy. destruct Hy as [<-|Hy]; [|auto]. apply in_map_iff in Hx as (a & <- & Ha). destruct (FP a Ha) as (z & _ & E & Lz). unfold kz. rewrite E. lia.
    Qed.
    Lemma ins_chain : chain (N ins_heap) (lh L) (lm ins_lvl) (lt L).
    Proof.
      assert (OK := repH_lok _ _ _ R L_in). assert (S := lvl_split h k L (proj1 (proj2 OK))). destruct (lvl_parts h k L OK) as (C1 & C2). destruct OK as (_ & _ & ND & BD).
      cbn [ins_lvl lm]. apply chain_app. assert (ND' := ND). unfold addrs in ND'. rewrite S, <- app_assoc in ND'. split.
      - apply (chain_retarget (N h) _ _ _ (nxt (K h) k L)).
        + change (lh L :: SkipProofs.pre (K h) k (lm L) ++ SkipProofs.post (K h) k (lm L) ++ [lt L]) with ((lh L :: SkipProofs.pre (K h) k (lm L)) ++ SkipProofs.post (K h) k (lm L) ++ [lt L]) in ND'. apply nd_l in ND'. exact ND'.
        + intros x Hx Nx. fold prev in Nx. rewrite ins_N; [destruct (Nat.eqb_spec x prev); [contradiction|reflexivity]|]. apply BD, in_addrs. destruct Hx as [<-|Hx]; [auto|]. apply pre_lt in Hx. tauto.
        + fold prev. rewrite ins_N by apply prev_lt. rewrite Nat.eqb_refl. reflexivity.
        + exact C1.
      - assert (PN := ins_Nb). destruct (SkipProofs.post (K h) k (lm L)) as [|y p] eqn:EP; [cbn [chain]; rewrite PN, C2; reflexivity|]. destruct C2 as (C2 & C3). cbn [chain]. rewrite PN, C2. split; [reflexivity|].
        apply (chain_frame (N h)); [|exact C3]. intros x Hx. assert (Ix : In x (lm L)) by (rewrite S; apply in_app_iff; auto). rewrite ins_N by (apply BD, in_addrs; auto). destruct (Nat.eqb_spec x prev) as [->|]; [|reflexivity].
        exfalso. change (lh L :: SkipProofs.pre (K h) k (lm L) ++ (y :: p) ++ [lt L]) with ((lh L :: SkipProofs.pre (K h) k (lm L)) ++ (y :: p) ++ [lt L]) in ND'. apply (nd_disj _ _ prev ND' (proj2 prev_addr)). apply in_app_iff. auto.
    Qed.
    Lemma above_ins ky dn : above ky dn Up L -> above ky dn Up ins_lvl.
    Proof.
      assert (S := lvl_split h k L (proj1 (proj2 (repH_lok _ _ _ R L_in)))).
      assert (LK : forall U, link ky dn U L -> link ky dn U ins_lvl). { intros U (A & B & ds & SU & F). split; [exact A|]. split; [exact B|]. exists ds. split; [|exact F]. cbn [ins_lvl lm]. rewrite S in SU. clear - SU. revert SU. generalize (SkipProofs.pre (K h) k (lm L)) as l. generalize (SkipProofs.post (K h) k (lm L)) as m. intros m l. revert ds.
        induction l as [|x l IH]; intros ds; cbn [app]; [apply sub_skip|]. intros X. inversion X; subst; [apply sub_skip|apply sub_keep]; auto. }
      clear - LK. induction Up as [|U r IH]; [auto|]. cbn [above]. intros (A & B). destruct r as [|U' r]; cbn [hd] in *; [split; [apply LK; exact A|exact I]|]. split; [exact A|]. apply IH. exact B.
    Qed.
    Lemma filter_f2 (f : nat -> bool) (l m : list nat) (Q : nat -> nat -> Prop) : Forall2 Q l m -> (forall a c, Q a c -> f a = f c) -> Forall2 Q (filter f l) (filter f m).
    Proof. intros F H. induction F as [|x y l m Hxy F IH]; [constructor|]. cbn [filter]. rewrite (H x y Hxy). destruct (f y); [constructor|]; assumption. Qed.
    Lemma ins_ok : repH ins_heap (Up ++ ins_lvl :: Lo).
    Proof.
      assert (OK := repH_lok _ _ _ R L_in). assert (KL := proj1 (proj2 OK)). assert (S := lvl_split h k L KL). assert (BD := h_bd _ _ R).
      assert (OTH : forall L', In L' (Up ++ ins_lvl :: Lo) -> L' = ins_lvl \/ In L' (Up ++ Lo)) by (intros L' I; apply in_app_iff in I as [I|[I|I]]; [right; apply in_app_iff; auto|auto|right; apply in_app_iff; auto]).
      assert (SUB : forall L', In L' (Up ++ Lo) -> In L' (Up ++ L :: Lo)) by (intros L' I; apply in_app_iff in I; apply in_app_iff; cbn; tauto).
      destruct ins_new as (Kb & Db & _). split.
      - apply Forall_forall. intros L' I. destruct (OTH L' I) as [->|I']; [exact ins_chain|]. assert (C := h_chain _ _ R). rewrite Forall_forall in C. apply (chain_frame (N h)); [|apply C, SUB, I'].
        intros x Hx. assert (Ix : In x (addrs L')) by (unfold addrs; destruct Hx as [<-|Hx]; [left; reflexivity|right; apply in_app_iff; auto]). destruct (others_addr L' I' x Ix) as (X1 & X2). rewrite ins_N by exact X1. destruct (Nat.eqb_spec x prev) as [->|]; [|reflexivity]. exfalso. apply X2, prev_addr.
      - apply Forall_forall. intros L' I. destruct (OTH L' I) as [->|I']; [exact ins_keys|]. assert (C := h_keys _ _ R). rewrite Forall_forall in C. apply (keys_frame (K h)); [|apply C, SUB, I']. intros x Hx. apply ins_old. apply (others_addr L' I' x Hx).
      - assert (LN := h_link _ _ R). assert (OO : forall a, In a (flat_map addrs (Up ++ L :: Lo)) -> K ins_heap a = K h a /\ Dn ins_heap a = Dn h a) by (intros a Ha; destruct (ins_old a (BD a Ha)) as (E1 & E2 & _); auto).
        assert (LN' := linked_frame _ _ _ _ _ OO LN). apply linked_app in LN' as (AB & LN'). apply linked_app in LN as (_ & LN). apply linked_app. split; [apply above_ins; exact AB|].
        destruct LN as (LN & _). destruct LN' as (LN1 & LN2). split; [|exact LN2].
        assert (OL : forall a, In a (addrs L) -> K ins_heap a = K h a /\ Dn ins_heap a = Dn h a) by (intros a Ha; apply OO; apply (in_flat _ L); [apply L_in|exact Ha]).
        destruct Lo as [|L' Lo'].
        + destruct LN1 as (A1 & A2 & A3). split; [exact A1|]. split; [exact A2|]. cbn [ins_lvl lm]. rewrite S in A3. apply Forall_app in A3 as (A3 & A4). apply Forall_app. split; [exact A3|]. constructor; [rewrite Db; exact HD|exact A4].
        + destruct HD as (below & p & Ed & EP & Kbe & FR). destruct LN1 as (A1 & A2 & _). split; [exact A1|]. split; [exact A2|]. destruct LN as (_ & _ & ds & SU & F2).
          assert (S' := lvl_split h k L' (proj1 (proj2 (repH_lok _ _ _ R (SUB L' ltac:(apply in_app_iff; right; left; reflexivity)))))). 
          exists (SkipProofs.pre (K h) k ds ++ below :: SkipProofs.post (K h) k ds). split.
          * rewrite S', EP. apply sub_app; [apply sub_filter; exact SU|]. apply sub_keep. assert (Q := sub_filter (fun a => xge (K h a) k) _ _ SU). fold (SkipProofs.post (K h) k ds) in Q. fold (SkipProofs.post (K h) k (lm L')) in Q. rewrite EP in Q. apply (sub_drop below _ _ Q).
            intros x l' E ->. assert (I : In below ds) by (apply (post_ge (K h) k ds); rewrite E; left; reflexivity). clear - F2 I FR. induction F2 as [|m e l m' (E1 & E2) F IH]; [destruct I|]. destruct I as [->|I]; [apply (FR m); [left; reflexivity|exact E1]|apply IH; [intros m0 Hm0; apply FR; right; exact Hm0|exact I]].
          * cbn [ins_lvl lm]. assert (OL' : forall a, In a (lm L') -> K ins_heap a = K h a). { intros a Ha. apply OO. apply (in_flat _ L'); [apply in_app_iff; right; right; left; reflexivity|apply in_addrs; auto]. }
            assert (F2' : Forall2 (fun m e => Dn ins_heap m = Some e /\ K ins_heap e = K ins_heap m) (lm L) ds). { apply (f2_impl _ _ _ _ F2). intros m e Hm He (E1 & E2). destruct (OL m) as (O1 & O2); [apply in_addrs; auto|]. rewrite O1, O2. split; [exact E1|]. rewrite OL'; [exact E2|]. apply (sub_in _ _ SU e He). }
            assert (FF : Forall2 (fun m e => (Dn h m = Some e /\ K h e = K h m) /\ Dn ins_heap m = Some e /\ K ins_heap e = K ins_heap m) (lm L) ds). { clear - F2 F2'. induction F2 as [|m e l m' H1 F IH]; [constructor|]. inversion F2'; subst. constructor; auto. }
            apply Forall2_app; [|constructor].
            -- apply (f2_impl _ _ _ _ (filter_f2 (fun a => negb (xge (K h a) k)) _ _ _ FF ltac:(intros a c ((_ & E) & _); rewrite E; reflexivity))). tauto.
            -- split; [rewrite Db; exact Ed|]. rewrite Kb. rewrite OL'; [exact Kbe|]. apply (post_ge (K h) k (lm L')). rewrite EP. left. reflexivity.
            -- apply (f2_impl _ _ _ _ (filter_f2 (fun a => xge (K h a) k) _ _ _ FF ltac:(intros a c ((_ & E) & _); rewrite E; reflexivity))). tauto.
      - apply (nd_perm _ _ (Permutation_sym ins_perm)). constructor; [|apply R]. intros I. apply BD in I. lia.
      - intros a Ha. rewrite ins_perm in Ha. rewrite ins_len. destruct Ha as [<-|Ha]; [lia|]. apply BD in Ha. lia.
    Qed.
  End One.

  Lemma pre_post_keeps h h' k l : keeps h h' -> (forall a, In a l -> (a < length h)%nat) -> SkipProofs.pre (K h') k l = SkipProofs.pre (K h) k l /\ SkipProofs.post (K h') k l = SkipProofs.post (K h) k l.
  Proof. intros (_ & KP) B. split; apply filter_ext_in; intros a Ha; destruct (KP a (B a Ha)) as (E & _); rewrite E; reflexivity. Qed.
  Lemma ins_post h k data d Up L Lo : repH h (Up ++ L :: Lo) -> SkipProofs.post (K (ins_heap h k data d L)) k (lm (ins_lvl h k L)) = length h :: SkipProofs.post (K h) k (lm L).
  Proof.
    intros R. assert (OK := repH_lok _ _ _ R (L_in Up L Lo)). destruct OK as (_ & _ & _ & BD). cbn [ins_lvl lm]. unfold SkipProofs.post at 1. rewrite filter_app. cbn [filter]. destruct (ins_new h k data d L) as (Kb & _). rewrite Kb. cbn [xge]. rewrite Z.leb_refl.
    assert (KP := ins_keeps h k data d L). assert (BL : forall a, In a (lm L) -> (a < length h)%nat) by (intros a Ha; apply BD, in_addrs; auto).
    assert (E1 : filter (fun a => xge (K (ins_heap h k data d L) a) k) (SkipProofs.pre (K h) k (lm L)) = []). { apply no_elem. intros x Hx. apply filter_In in Hx as (Hx & G). apply pre_lt in Hx as (Hx & G'). rewrite (proj1 (proj2 KP x (BL x Hx))) in G. congruence. }
    rewrite E1. cbn [app]. f_equal. unfold SkipProofs.post. clear E1 Kb BD. induction (lm L) as [|a l IH]; [reflexivity|]. cbn [filter]. destruct (xge (K h a) k) eqn:G; [|apply IH; intros; apply BL; right; assumption]. cbn [filter]. rewrite (proj1 (proj2 KP a (BL a (or_introl eq_refl)))), G. f_equal. apply IH. intros; apply BL; right; assumption.
  Qed.
  Lemma items_keeps h h' Ls Ls' : keeps h h' -> bot Ls' = bot Ls -> (forall a, In a (bot Ls) -> (a < length h)%nat) -> items h' Ls' = items h Ls.
  Proof. intros (_ & KP) E B. unfold items. rewrite E. apply map_ext_in. intros a Ha. destruct (KP a (B a Ha)) as (E1 & _ & E2). unfold kz. rewrite E1, E2. reflexivity. Qed.
  Lemma bot_bd h Ls : repH h Ls -> forall a, In a (bot Ls) -> (a < length h)%nat.
  Proof.
    intros R a Ha. unfold bot in Ha. destruct Ls as [|L0 Ls0] eqn:E; [destruct Ha|]. rewrite <- E in *. assert (NE : Ls <> []) by (rewrite E; discriminate). destruct (exists_last NE) as (Up & L & EL). rewrite EL in Ha, R. rewrite last_last in Ha. apply (h_bd _ _ R). apply (in_flat _ L); [apply in_elt|apply in_addrs; auto].
  Qed.
  Lemma bot_app Up L Lo : bot (Up ++ L :: Lo) = bot (L :: Lo).
  Proof. unfold bot. f_equal. induction Up as [|U r IH]; [reflexivity|]. cbn [app]. change (last (U :: (r ++ L :: Lo)) (Lv 0 [] 0)) with (match r ++ L :: Lo with [] => U | _ => last (r ++ L :: Lo) (Lv 0 [] 0) end). destruct (r ++ L :: Lo) eqn:E; [destruct r; discriminate|]. exact IH. Qed.

  Definition ins_items (k : Z) (d : option D) (l : list (Z * option D)) : list (Z * option D) := filter (fun e => negb (k <=? fst e)) l ++ (k, d) :: filter (fun e => k <=? fst e) l.

  (** the first node is put into the lowest level *)
  Lemma first_ins st Up L k data : rep st (Up ++ [L]) -> let h := k_heap st in let h1 := ins_heap h k data None L in
    repH h1 (Up ++ [ins_lvl h k L]) /\ items h1 (Up ++ [ins_lvl h k L]) = ins_items k data (items h (Up ++ [L])).
  Proof.
    intros R h h1. assert (RH := p_h _ _ R). fold h in RH. split; [apply (ins_ok h k data None Up L [] RH eq_refl)|]. unfold items. rewrite !bot_app. unfold bot. cbn [last ins_lvl lm].
    assert (OK := repH_lok _ _ _ RH (L_in Up L [])). destruct OK as (_ & KL & _ & BD). assert (BL : forall a, In a (lm L) -> (a < length h)%nat) by (intros a Ha; apply BD, in_addrs; auto).
    assert (KP := ins_keeps h k data None L). fold h1 in KP. destruct (ins_new h k data None L) as (Kb & _ & Db). fold h1 in Kb, Db. rewrite map_app. cbn [map]. unfold ins_items. f_equal; [|f_equal].
    - assert (SP : forall l, (forall a, In a l -> In a (lm L)) -> map (fun a => (kz (K h1) a, DD h1 a)) (SkipProofs.pre (K h) k l) = filter (fun e => negb (k <=? fst e)) (map (fun a => (kz (K h) a, DD h a)) l)); [|apply SP; auto].
      induction l as [|a l IH]; intros IL; [reflexivity|]. assert (IHl : forall a0, In a0 l -> In a0 (lm L)) by (intros; apply IL; right; assumption). cbn [map]. unfold SkipProofs.pre in *. cbn [filter]. destruct KL as (_ & _ & F & _). rewrite Forall_forall in F. destruct (F a (IL a (or_introl eq_refl))) as (z & Ez). assert (EK : kz (K h) a = z) by (unfold kz; rewrite Ez; reflexivity). cbn [fst]. rewrite EK, Ez. cbn [xge].
      destruct (k <=? z); cbn [negb]; [apply IH; exact IHl|]. cbn [map]. rewrite IH by exact IHl. destruct (proj2 KP a (BL a (IL a (or_introl eq_refl)))) as (E1 & _ & E2). unfold kz at 1. rewrite E1, E2, Ez. reflexivity.
    - unfold kz. rewrite Kb, Db. reflexivity.
    - assert (SP : forall l, (forall a, In a l -> In a (lm L)) -> map (fun a => (kz (K h1) a, DD h1 a)) (SkipProofs.post (K h) k l) = filter (fun e => k <=? fst e) (map (fun a => (kz (K h) a, DD h a)) l)); [|apply SP; auto].
      induction l as [|a l IH]; intros IL; [reflexivity|]. assert (IHl : forall a0, In a0 l -> In a0 (lm L)) by (intros; apply IL; right; assumption). cbn [map]. unfold SkipProofs.post in *. cbn [filter]. destruct KL as (_ & _ & F & _). rewrite Forall_forall in F. destruct (F a (IL a (or_introl eq_refl))) as (z & Ez). assert (EK : kz (K h) a = z) by (unfold kz; rewrite Ez; reflexivity). cbn [fst]. rewrite EK, Ez. cbn [xge].
      destruct (k <=? z); [|apply IH; exact IHl]. cbn [map]. rewrite IH by exact IHl. destruct (proj2 KP a (BL a (IL a (or_introl eq_refl)))) as (E1 & _ & E2). unfold kz at 1. rewrite E1, E2, Ez. reflexivity.
  Qed.

  Lemma down_old h Up L Lo m : repH h (Up ++ L :: Lo) -> In m (lm L) -> forall e, Dn h m = Some e -> (e < length h)%nat.
  Proof.
    intros R Hm e E. assert (LN := h_link _ _ R). apply linked_app in LN as (_ & LN & _). destruct Lo as [|L' Lo].
    - destruct LN as (_ & _ & G). rewrite Forall_forall in G. rewrite (G m Hm) in E. discriminate.
    - destruct LN as (_ & _ & ds & S & F). assert (I : In e ds). { clear - F Hm E. induction F as [|x y l l' (E1 & _) F IH]; [destruct Hm|]. destruct Hm as [->|Hm]; [left; congruence|right; auto]. }
      apply (h_bd _ _ R). apply (in_flat _ L'); [apply in_app_iff; right; right; left; reflexivity|]. apply in_addrs. right. left. apply (sub_in _ _ S e I).
  Qed.
  Lemma top_ins Up h k L Lo : topH (Up ++ ins_lvl h k L :: Lo) = topH (Up ++ L :: Lo) /\ topT (Up ++ ins_lvl h k L :: Lo) = topT (Up ++ L :: Lo).
  Proof. destruct Up; split; reflexivity. Qed.


  Definition ibody (path : list nat) (key : Z) (total_level : Z) (flips : nat -> bool) := (fun '(st, below, level) =>
      if flips (Z.to_nat (level - 1)) && (level <=? total_level) then
        ' (st, prev) <- (if level =? total_level then let st := add_level st in match k_head st with Some p => Ret (st, p) | None => Raise AttributeError end
                         else prev <- lget path (total_level - 1 - level) ;; Ret (st, prev)) ;;
        n <- sderef (k_heap st) (Some prev) ;;
        let b := length (k_heap st) in
        Ret (Next (SK (ssetnext (k_heap st ++ [SN (Fin key) None (s_next n) (Some below)]) prev (Some b)) (k_head st) (k_tail st) (k_levels st) (k_num st), b, level + 1))
      else Ret (Break st) : res (ctl (skip D * nat * Z) (skip D))).
  (** the state of the loop of insert *)
  Definition shape (num : Z) (target : list (Z * option D)) (st : skip D) (Ls : list lvl) : Prop :=
    repH (k_heap st) Ls /\ k_head st = topH Ls /\ k_tail st = topT Ls /\ k_levels st = len Ls /\ k_num st = num /\ items (k_heap st) Ls = target.
  Definition climb (h0 : heap) (Ls : list lvl) (k num : Z) (target : list (Z * option D)) (s : skip D * nat * Z) : Prop := let '(st, below, level) := s in
    exists Up Lo0 L' Lo' p, Ls = Up ++ Lo0 /\ len Up = Z.max 0 (len Ls - level) /\ level = len (L' :: Lo') /\ level <= len Ls + 1 /\
      SkipProofs.post (K (k_heap st)) k (lm L') = below :: p /\ K (k_heap st) below = Fin k /\ (length h0 <= below)%nat /\ keeps h0 (k_heap st) /\ shape num target st (Up ++ L' :: Lo').

  Lemma climb_ok h0 Ls k num target flips : repH h0 Ls -> Ls <> [] -> forall s, climb h0 Ls k num target s ->
    wp (while_loop (S (Z.to_nat (len Ls))) (ibody (map (pred (K h0) k) Ls) k (len Ls) flips) s) (fun st => exists Ls', Ls' <> [] /\ shape num target st Ls').
  Proof.
    intros R0 NE s I. apply (wp_while _ _ (climb h0 Ls k num target) (fun '(_, _, level) => Z.to_nat (len Ls + 1 - level))); [clear s I; intros ((st & below) & level) I|exact I|].
    2: { destruct s as ((st & below) & level). destruct I as (Up & Lo0 & L' & Lo' & p & _ & _ & E & _). unfold len in *. cbn [length] in E. lia. }
    destruct I as (Up & Lo0 & L' & Lo' & p & EL & EU & Elev & Ble & EP & Kb & Bb & KP & R & EH & ET & EV & EN & EI). cbn [ibody].
    assert (DONE : wp (Ret (Break st) : res (ctl (skip D * nat * Z) (skip D))) (fun r => match r with Next s' => climb h0 Ls k num target s' /\ ((fun '(_, _, level) => Z.to_nat (len Ls + 1 - level)) s' < Z.to_nat (len Ls + 1 - level))%nat | Break st => exists Ls', Ls' <> [] /\ shape num target st Ls' end)).
    { cbn. exists (Up ++ L' :: Lo'). split; [destruct Up; discriminate|]. repeat split; auto; apply R. }
    destruct (flips (Z.to_nat (level - 1))); [|exact DONE]. cbn [andb]. destruct (Z.leb_spec level (len Ls)) as [Lle|]; [|exact DONE]. clear DONE.
    destruct (Z.eqb_spec level (len Ls)) as [E|E].
    - (* a new level on top *)
      assert (UN : Up = []) by (destruct Up; [reflexivity|unfold len in *; cbn [length] in *; lia]). subst Up. cbn [app] in *.
      destruct (add_level_ok st (L' :: Lo') R EH ET) as (R1 & KP1 & Len1). set (h := k_heap st) in *. set (t := length h) in *. set (st1 := add_level st) in *. set (h1 := k_heap st1) in *.
      change (k_head st1) with (Some (S t)). cbn [bind]. fold h1. rewrite deref_ok by lia. cbn [bind s_next].
      set (L := Lv (S t) [] t) in *. assert (EPr : pred (K h1) k L = S t) by reflexivity.
      assert (OL : forall a, In a (lm L') -> (a < length h)%nat). { intros a Ha. apply (h_bd _ _ R). apply (in_flat _ L'); [left; reflexivity|apply in_addrs; auto]. }
      destruct (pre_post_keeps h h1 k (lm L') KP1 OL) as (_ & PK).
      assert (Bbe : (below < length h)%nat). { apply OL. apply (post_ge (K h) k). rewrite EP. left. reflexivity. }
      assert (HD : exists below0 p0, Some below = Some below0 /\ SkipProofs.post (K h1) k (lm L') = below0 :: p0 /\ K h1 below0 = Fin k /\ forall m, In m (lm L) -> Dn h1 m <> Some below0).
      { exists below, p. split; [reflexivity|]. split; [rewrite PK; exact EP|]. split; [rewrite (proj1 (proj2 KP1 below Bbe)); exact Kb|intros m []]. }
      assert (R2 := ins_ok h1 k None (Some below) [] L (L' :: Lo') R1 HD). cbn [app] in R2. assert (KP2 := ins_keeps h1 k None (Some below) L). assert (IP := ins_post h1 k None (Some below) [] L (L' :: Lo') R1). destruct (ins_new h1 k None (Some below) L) as (Knew & _).
      unfold ins_heap in R2, KP2, IP, Knew. rewrite EPr in R2, KP2, IP, Knew. set (h2 := ssetnext _ _ _) in *. cbn [wp]. split; [|lia].
      exists [], Ls, (ins_lvl h1 k L), (L' :: Lo'), []. cbn [app]. split; [reflexivity|]. split; [unfold len in *; cbn [length] in *; lia|]. split; [unfold len in *; cbn [length] in *; lia|]. split; [lia|]. cbn [k_heap].
      split; [exact IP|]. split; [exact Knew|]. split; [destruct KP as (X & _); unfold h1 in *; lia|]. split; [exact (keeps_trans _ _ _ KP (keeps_trans _ _ _ KP1 KP2))|].
      split; [exact R2|]. cbn [k_head k_tail k_levels k_num]. split; [reflexivity|]. split; [reflexivity|]. split; [unfold st1, add_level; cbn [k_levels]; rewrite EV; unfold len; cbn [length]; lia|]. split; [exact EN|].
      rewrite <- EI. apply items_keeps; [exact (keeps_trans _ _ _ KP1 KP2)|reflexivity|]. apply bot_bd. exact R.
    - (* the next level up *)
      assert (UL : exists Up' U, Up = Up' ++ [U]). { destruct (exists_last (l := Up)) as (Up' & U & X); [intros ->; unfold len in *; cbn [length] in *; lia|]. exists Up', U. exact X. } destruct UL as (Up' & U & ->). rewrite <- app_assoc in R, EH, ET, EV, EI. cbn [app] in R, EH, ET, EV, EI.
      set (h := k_heap st) in *. assert (EPa : lget (map (pred (K h0) k) Ls) (len Ls - 1 - level) = Ret (pred (K h0) k U)).
      { rewrite EL, <- app_assoc. cbn [app]. rewrite EL in EU. assert (LU : len (Up' ++ [U]) = len Up' + 1) by (unfold len; rewrite app_length; cbn; lia). assert (LL : len ((Up' ++ [U]) ++ Lo0) = len Up' + 1 + len Lo0) by (unfold len in *; rewrite app_length; lia). rewrite LL, LU in EU. rewrite EL in Lle, E.
        rewrite (lget_ok _ 0%nat). 2: { unfold len in *; rewrite map_length. rewrite <- app_assoc in *. cbn [app] in *. lia. }
        f_equal. unfold zn. rewrite map_app. cbn [map]. rewrite <- app_assoc in *. cbn [app] in *. rewrite app_nth2; rewrite map_length; unfold len in *; [|lia]. replace (_ - _)%nat with 0%nat by lia. reflexivity. }
      rewrite EPa. cbn [bind]. assert (IU0 : In U Ls) by (rewrite EL; apply in_app_iff; left; apply in_elt). assert (OKU := repH_lok _ _ _ R (in_elt U Up' (L' :: Lo'))).
      assert (OU : forall a, In a (addrs U) -> (a < length h0)%nat) by (apply (repH_lok _ _ _ R0 IU0)). assert (BU : forall a, In a (lm U) -> (a < length h0)%nat) by (intros a Ha; apply OU, in_addrs; auto).
      assert (EPr : pred (K h0) k U = pred (K h) k U). { unfold pred. rewrite (proj1 (pre_post_keeps h0 h k (lm U) KP BU)). reflexivity. } rewrite EPr. clear EPa EPr.
      fold h. rewrite deref_ok by (apply (next_ok h k U OKU)). cbn [bind s_next].
      assert (HD : exists below0 p0, Some below = Some below0 /\ SkipProofs.post (K h) k (lm L') = below0 :: p0 /\ K h below0 = Fin k /\ forall m, In m (lm U) -> Dn h m <> Some below0).
      { exists below, p. split; [reflexivity|]. split; [exact EP|]. split; [exact Kb|]. intros m Hm X. rewrite (proj1 (proj2 (proj2 KP m (BU m Hm)))) in X. rewrite EL, <- app_assoc in R0. cbn [app] in R0. apply (down_old _ _ _ _ _ R0 Hm) in X. lia. }
      assert (R2 := ins_ok h k None (Some below) Up' U (L' :: Lo') R HD). assert (KP2 := ins_keeps h k None (Some below) U). assert (IP := ins_post h k None (Some below) Up' U (L' :: Lo') R). destruct (ins_new h k None (Some below) U) as (Knew & _).
      unfold ins_heap in R2, KP2, IP, Knew. set (h2 := ssetnext _ _ _) in *. cbn [wp]. split; [|lia].
      exists Up', (U :: Lo0), (ins_lvl h k U), (L' :: Lo'), (SkipProofs.post (K h) k (lm U)). split; [rewrite EL, <- app_assoc; reflexivity|]. split; [unfold len in *; rewrite app_length in EU; cbn [length] in *; lia|]. split; [unfold len in *; cbn [length] in *; lia|]. split; [lia|]. cbn [k_heap].
      split; [exact IP|]. split; [exact Knew|]. split; [destruct KP as (X & _); lia|]. split; [exact (keeps_trans _ _ _ KP KP2)|].
      split; [exact R2|]. cbn [k_head k_tail k_levels k_num]. destruct (top_ins Up' h k U (L' :: Lo')) as (T1 & T2). split; [rewrite T1; exact EH|]. split; [rewrite T2; exact ET|]. split; [rewrite EV; unfold len; rewrite !app_length; reflexivity|]. split; [exact EN|].
      rewrite <- EI. apply items_keeps; [exact KP2| |apply bot_bd; exact R]. rewrite !bot_app. reflexivity.
  Qed.

  Lemma insert_ok st Ls k data flips : rep st Ls -> exists st' Ls', skip_insert st k data flips = Ret st' /\ rep st' Ls' /\ items (k_heap st') Ls' = ins_items k data (items (k_heap st) Ls).
  Proof.
    intros R. unfold skip_insert. rewrite (path_ok st Ls k R). cbn [bind]. destruct (tip_ok st Ls k R) as (L & Up & E & OK & EB & ->). cbn [bind]. destruct (next_ok (k_heap st) k L OK) as (B1 & B2 & EN).
    rewrite deref_ok by exact B1. cbn [bind s_next]. rewrite E in R. destruct (first_ins st Up L k data R) as (R1 & I1). rewrite <- E in R.
    set (h := k_heap st) in *. set (h1 := ins_heap h k data None L) in *. assert (H1 : ssetnext (h ++ [SN (Fin k) data (N h (pred (K h) k L)) None]) (pred (K h) k L) (Some (length h)) = h1) by reflexivity.
    rewrite H1. clear H1. rewrite (p_lev _ _ R). set (ls0 := SK h1 _ _ _ _). assert (IP := ins_post h k data None Up L []). rewrite E in R. assert (RH := p_h _ _ R). fold h in RH. specialize (IP RH). rewrite <- E in R.
    destruct (ins_new h k data None L) as (Kb & _). assert (KP := ins_keeps h k data None L). fold h1 in IP, Kb, KP.
    assert (C : climb h Ls k (k_num st) (ins_items k data (items h Ls)) (ls0, length h, 1)).
    { exists Up, [L], (ins_lvl h k L), [], (SkipProofs.post (K h) k (lm L)). split; [exact E|]. split; [rewrite E; unfold len; rewrite app_length; cbn [length]; lia|]. split; [reflexivity|]. split; [rewrite E; unfold len; rewrite app_length; cbn [length]; lia|]. cbn [k_heap ls0]. split; [exact IP|]. split; [exact Kb|]. split; [lia|]. split; [exact KP|].
      split; [exact R1|]. unfold ls0. cbn [k_heap k_head k_tail k_levels k_num]. destruct (top_ins Up h k L []) as (T1 & T2). rewrite T1, T2, <- E. split; [apply (p_head _ _ R)|]. split; [apply (p_tail _ _ R)|]. split; [rewrite E; unfold len; rewrite !app_length; reflexivity|]. split; [reflexivity|]. rewrite I1, <- E. reflexivity. }
    assert (RH' : repH h Ls) by (apply R). assert (W := climb_ok h Ls k (k_num st) (ins_items k data (items h Ls)) flips RH' (p_ne _ _ R) _ C). apply wp_ex in W as (st' & EW & Ls' & NE & R' & EH & ET & EV & EM & EI).
    change (bind (while_loop (S (Z.to_nat (len Ls))) (ibody (map (pred (K h) k) Ls) k (len Ls) flips) (ls0, length h, 1)) (fun st0 => Ret (SK (k_heap st0) (k_head st0) (k_tail st0) (k_levels st0) (k_num st0 + 1)))) with
      (st0 <- while_loop (S (Z.to_nat (len Ls))) (ibody (map (pred (K h) k) Ls) k (len Ls) flips) (ls0, length h, 1) ;; Ret (SK (k_heap st0) (k_head st0) (k_tail st0) (k_levels st0) (k_num st0 + 1))).
    unfold ibody in EW. rewrite EW. cbn [bind]. eexists. exists Ls'. split; [reflexivity|]. cbn [k_heap]. split; [|exact EI]. split; cbn [k_heap k_head k_tail k_levels k_num]; auto. rewrite EM, EI, (p_num _ _ R). fold h. unfold ins_items, len. rewrite app_length. cbn [length]. clear. induction (items h Ls) as [|a l IH]; [reflexivity|]. cbn [filter]. destruct (k <=? fst a); cbn [negb length app]; lia.
  Qed.
End Ins.
