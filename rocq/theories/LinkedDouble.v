(** C13: DoublyCircularLinkedList stays circular in both directions, as long as the first of several elements is not extracted. *)
From Verif Require Import Base LinkedModel ArraysProofs LinkedProofs LinkedCircular.

Ltac la := cbn [app]; repeat (rewrite <- app_assoc; cbn [app]); reflexivity.
Section Ring.
  (** the successor (predecessor) of each node of the ring [ps] *)
  Definition ring (f : nat -> option (option nat)) (ps : list nat) : Prop := forall l1 a l2, ps = l1 ++ a :: l2 -> f a = Some (hd_error (l2 ++ ps)).
  Definition ringb (f : nat -> option (option nat)) (ps : list nat) : Prop := forall l1 a l2, ps = l1 ++ a :: l2 -> f a = Some (last_error (ps ++ l1)).
  Lemma ring_chain_from f ps : ring f ps -> forall l1 l2, ps = l1 ++ l2 -> chain f (hd_error (l2 ++ ps)) l2 (hd_error ps).
  Proof.
    intros R l1 l2. revert l1. induction l2 as [|a l2 IH]; intros l1 E; cbn [chain app hd_error]; [reflexivity|]. split; [reflexivity|]. exists (hd_error (l2 ++ ps)). split; [apply (R l1); exact E|]. apply (IH (l1 ++ [a])). rewrite <- app_assoc. exact E.
  Qed.
  Lemma ring_chain f ps : ring f ps -> chain f (hd_error ps) ps (hd_error ps).
  Proof. intros R. destruct ps as [|a ps]; [reflexivity|]. apply (ring_chain_from f (a :: ps) R [] (a :: ps) eq_refl). Qed.
  Lemma hd_app (l1 l2 : list nat) : hd_error (l1 ++ l2) = match l1 with [] => hd_error l2 | a :: _ => Some a end.
  Proof. destruct l1; reflexivity. Qed.
  Lemma last_app (l1 l2 : list nat) : last_error (l1 ++ l2) = match last_error l2 with Some a => Some a | None => last_error l1 end.
  Proof. destruct (list_snoc_case _ l2) as [->|(l & a & ->)]; [rewrite app_nil_r; reflexivity|]. rewrite app_assoc, !last_error_snoc. reflexivity. Qed.
  Lemma last_none (l : list nat) : last_error l = None -> l = [].
  Proof. intros H. destruct (list_snoc_case _ l) as [->|(m & a & ->)]; [reflexivity|]. rewrite last_error_snoc in H. discriminate. Qed.
  Lemma last_some (l : list nat) : l <> [] -> exists a, last_error l = Some a.
  Proof. intros H. destruct (list_snoc_case _ l) as [->|(m & a & ->)]; [congruence|]. exists a. apply last_error_snoc. Qed.
  Lemma hd_none (l : list nat) : hd_error l = None -> l = [].
  Proof. destruct l; [reflexivity|discriminate]. Qed.
  (** where a node of [l1 ++ new :: l2] is *)
  Lemma split3 (l1 l2 m1 m2 : list nat) new a : l1 ++ new :: l2 = m1 ++ a :: m2 ->
    (exists x, l1 = m1 ++ a :: x /\ m2 = x ++ new :: l2) \/ (m1 = l1 /\ a = new /\ m2 = l2) \/ (exists x, l2 = x ++ a :: m2 /\ m1 = l1 ++ new :: x).
  Proof.
    revert m1. induction l1 as [|y l1 IH]; intros [|z m1] E; cbn [app] in E.
    - injection E as -> ->. auto.
    - injection E as -> ->. right. right. exists m1. auto.
    - injection E as -> <-. left. exists l1. auto.
    - injection E as -> E. destruct (IH m1 E) as [(x & -> & ->)|[(-> & -> & ->)|(x & -> & ->)]]; [left; exists x; auto|auto|right; right; exists x; auto].
  Qed.
  (** a new node between its neighbours *)
  Lemma ring_insert f f' l1 l2 new : ring f (l1 ++ l2) -> l1 ++ l2 <> [] -> NoDup (l1 ++ l2) ->
    f' new = Some (hd_error (l2 ++ l1)) -> (forall b, In b (l1 ++ l2) -> f' b = if opt_eqb (last_error (l2 ++ l1)) (Some b) then Some (Some new) else f b) -> ring f' (l1 ++ new :: l2).
  Proof.
    intros R NE ND Hn Ho m1 a m2 E. destruct (split3 _ _ _ _ _ _ E) as [(x & -> & ->)|[(-> & -> & ->)|(x & -> & ->)]].
    - rewrite Ho by (rewrite <- app_assoc; apply in_or_app; right; left; reflexivity). rewrite <- app_assoc. cbn [app]. destruct (list_snoc_case _ x) as [->|(y & z & ->)].
      + rewrite (app_assoc l2 m1 [a]), last_error_snoc. cbn [opt_eqb]. rewrite Nat.eqb_refl. reflexivity.
      + replace (l2 ++ m1 ++ a :: y ++ [z]) with ((l2 ++ m1 ++ a :: y) ++ [z]) by la. rewrite last_error_snoc. cbn [opt_eqb]. rewrite eqb_ne.
        * rewrite (R m1 a ((y ++ [z]) ++ l2)) by la. destruct y; reflexivity.
        * intros ->. rewrite <- app_assoc in ND. apply NoDup_app_r in ND. inversion ND as [|? ? H _]. apply H. rewrite !in_app_iff. cbn. auto.
    - rewrite Hn. destruct l2; [|reflexivity]. rewrite app_nil_r in *. destruct l1; [congruence|reflexivity].
    - rewrite Ho by (rewrite !in_app_iff; cbn; auto). destruct (list_snoc_case _ m2) as [->|(y & z & ->)]; [destruct (list_snoc_case _ l1) as [->|(y & z & ->)]|].
      + rewrite app_nil_r, last_error_snoc. cbn [opt_eqb app hd_error]. rewrite Nat.eqb_refl. reflexivity.
      + rewrite app_assoc, last_error_snoc. cbn [opt_eqb]. rewrite eqb_ne.
        * rewrite (R ((y ++ [z]) ++ x) a []) by la. destruct y; reflexivity.
        * intros ->. apply (NoDup_app_disj _ _ _ a ND); rewrite !in_app_iff; cbn; auto.
      + assert (LE : exists b, last_error ((x ++ a :: y ++ [z]) ++ l1) = Some b /\ b <> a).
        { rewrite last_app. destruct (list_snoc_case _ l1) as [->|(l' & w & ->)].
          - change (@last_error nat []) with (@None nat). cbv iota. replace (x ++ a :: y ++ [z]) with ((x ++ a :: y) ++ [z]) by la. rewrite last_error_snoc. exists z. split; [reflexivity|]. intros ->. cbn [app] in ND. apply NoDup_app_r in ND. inversion ND as [|? ? H _]. apply H. apply in_or_app. cbn. auto.
          - rewrite last_error_snoc. exists w. split; [reflexivity|]. intros ->. apply (NoDup_app_disj _ _ _ a ND); rewrite !in_app_iff; cbn; auto. }
        destruct LE as (b & -> & Hb). cbn [opt_eqb]. rewrite eqb_ne by exact Hb. rewrite (R (l1 ++ x) a (y ++ [z])) by la. destruct y; reflexivity.
  Qed.
  Lemma ringb_rev f ps : ringb f ps <-> ring f (rev ps).
  Proof.
    split.
    - intros R l1 a l2 E. rewrite (R (rev l2) a (rev l1)).
      + unfold last_error. rewrite rev_app_distr, rev_involutive. reflexivity.
      + rewrite <- (rev_involutive ps), E, rev_app_distr. cbn [rev]. rewrite <- app_assoc. reflexivity.
    - intros R l1 a l2 E. rewrite (R (rev l2) a (rev l1)).
      + unfold last_error. rewrite rev_app_distr. reflexivity.
      + rewrite E, rev_app_distr. cbn [rev]. rewrite <- app_assoc. reflexivity.
  Qed.
  Lemma last_rev' (l : list nat) : last_error (rev l) = hd_error l.
  Proof. unfold last_error. rewrite rev_involutive. reflexivity. Qed.
  Lemma ringb_insert f f' l1 l2 new : ringb f (l1 ++ l2) -> l1 ++ l2 <> [] -> NoDup (l1 ++ l2) ->
    f' new = Some (last_error (l2 ++ l1)) -> (forall b, In b (l1 ++ l2) -> f' b = if opt_eqb (hd_error (l2 ++ l1)) (Some b) then Some (Some new) else f b) -> ringb f' (l1 ++ new :: l2).
  Proof.
    rewrite !ringb_rev. intros R NE ND Hn Ho. rewrite rev_app_distr in R |- *. cbn [rev]. rewrite <- app_assoc. cbn [app]. apply (ring_insert f); [exact R| | | |].
    - rewrite <- rev_app_distr. intros X. apply NE. rewrite <- (rev_involutive (l1 ++ l2)), X. reflexivity.
    - rewrite <- rev_app_distr. apply NoDup_rev. exact ND.
    - rewrite Hn. unfold last_error. rewrite rev_app_distr. reflexivity.
    - intros b Hb. rewrite <- rev_app_distr in Hb |- *. rewrite last_rev'. apply Ho. apply in_rev in Hb. exact Hb.
  Qed.
  (** a node taken out (not the only one) *)
  Lemma ring_remove f f' l1 l2 a : ring f (l1 ++ a :: l2) -> l1 ++ l2 <> [] -> NoDup (l1 ++ a :: l2) ->
    (forall b, In b (l1 ++ l2) -> f' b = if opt_eqb (last_error (l2 ++ l1)) (Some b) then Some (hd_error (l2 ++ l1)) else f b) -> ring f' (l1 ++ l2).
  Proof.
    intros R NE ND Ho m1 b m2 E. assert (Hb : In b (l1 ++ l2)) by (rewrite E; apply in_or_app; right; left; reflexivity). rewrite (Ho b Hb).
    assert (Nab : b <> a) by (intros ->; apply NoDup_remove_2 in ND; apply ND; exact Hb).
    assert (ND' := NoDup_remove_1 _ _ _ ND).
    assert (X : (exists x, l1 = m1 ++ b :: x /\ m2 = x ++ l2) \/ (exists x, l2 = x ++ b :: m2 /\ m1 = l1 ++ x)).
    { clear -E. revert m1 E. induction l1 as [|y l1 IH]; intros [|z m1] E; cbn [app] in E.
      - right. exists []. auto.
      - right. exists (z :: m1). auto.
      - injection E as -> <-. left. exists l1. auto.
      - injection E as -> E. destruct (IH m1 E) as [(x & -> & ->)|(x & -> & ->)]; [left; exists x; auto|right; exists x; auto]. }
    destruct X as [(x & -> & ->)|(x & -> & ->)].
    - destruct (list_snoc_case _ x) as [->|(y & z & ->)].
      + rewrite app_assoc, last_error_snoc. cbn [opt_eqb app]. rewrite Nat.eqb_refl. destruct l2; [|reflexivity]. cbn [app]. rewrite app_nil_r. reflexivity.
      + replace (l2 ++ m1 ++ b :: y ++ [z]) with ((l2 ++ m1 ++ b :: y) ++ [z]) by la. rewrite last_error_snoc. cbn [opt_eqb]. rewrite eqb_ne.
        * rewrite (R m1 b ((y ++ [z]) ++ a :: l2)) by la. destruct y; reflexivity.
        * intros ->. rewrite <- app_assoc in ND'. apply NoDup_app_r in ND'. inversion ND' as [|? ? H _]. apply H. rewrite !in_app_iff. cbn. auto.
    - destruct (list_snoc_case _ m2) as [->|(y & z & ->)]; [destruct (list_snoc_case _ l1) as [->|(y & z & ->)]|].
      + rewrite app_nil_r, last_error_snoc. cbn [opt_eqb app]. rewrite Nat.eqb_refl. reflexivity.
      + rewrite app_assoc, last_error_snoc. cbn [opt_eqb]. rewrite eqb_ne.
        * rewrite (R ((y ++ [z]) ++ a :: x) b []) by la. destruct y; reflexivity.
        * intros ->. apply (NoDup_app_disj _ _ _ b ND'); rewrite !in_app_iff; cbn; auto.
      + assert (LE : exists c, last_error ((x ++ b :: y ++ [z]) ++ l1) = Some c /\ c <> b).
        { rewrite last_app. destruct (list_snoc_case _ l1) as [->|(l' & w & ->)].
          - change (@last_error nat []) with (@None nat). cbv iota. replace (x ++ b :: y ++ [z]) with ((x ++ b :: y) ++ [z]) by la. rewrite last_error_snoc. exists z. split; [reflexivity|]. intros ->. cbn [app] in ND'. apply NoDup_app_r in ND'. inversion ND' as [|? ? H _]. apply H. apply in_or_app. cbn. auto.
          - rewrite last_error_snoc. exists w. split; [reflexivity|]. intros ->. apply (NoDup_app_disj _ _ _ b ND'); rewrite !in_app_iff; cbn; auto. }
        destruct LE as (c & -> & Hc). cbn [opt_eqb]. rewrite eqb_ne by exact Hc. rewrite (R (l1 ++ a :: x) b (y ++ [z])) by la. destruct y; reflexivity.
  Qed.
  Lemma ringb_remove f f' l1 l2 a : ringb f (l1 ++ a :: l2) -> l1 ++ l2 <> [] -> NoDup (l1 ++ a :: l2) ->
    (forall b, In b (l1 ++ l2) -> f' b = if opt_eqb (hd_error (l2 ++ l1)) (Some b) then Some (last_error (l2 ++ l1)) else f b) -> ringb f' (l1 ++ l2).
  Proof.
    rewrite !ringb_rev. intros R NE ND Ho. rewrite rev_app_distr in R |- *. cbn [rev] in R. rewrite <- app_assoc in R. cbn [app] in R. apply (ring_remove f _ _ _ a); [exact R| | |].
    - rewrite <- rev_app_distr. intros X. apply NE. rewrite <- (rev_involutive (l1 ++ l2)), X. reflexivity.
    - replace (rev l2 ++ a :: rev l1) with (rev (l1 ++ a :: l2)); [apply NoDup_rev; exact ND|]. rewrite rev_app_distr. cbn [rev]. rewrite <- app_assoc. reflexivity.
    - intros b Hb. rewrite <- rev_app_distr in Hb |- *. rewrite last_rev'. apply in_rev in Hb. rewrite (Ho b Hb). destruct (opt_eqb (hd_error (l2 ++ l1)) (Some b)); [|reflexivity]. unfold last_error. rewrite rev_app_distr. reflexivity.
  Qed.
End Ring.

Section Double.
  Context {K : Type}.
  Definition DCL : @cls K := Cls dcl_insert_at dcl_insert_after dcl_insert_before dcl_extract.
  Record dcrep (st : ll K) (ps : list nat) (ks : list K) : Prop := {
    dc_nd : NoDup ps; dc_n : ring (nx (l_heap st)) ps; dc_p : ringb (pv (l_heap st)) ps; dc_h : l_head st = hd_error ps; dc_t : l_tail st = last_error ps;
    dc_s : l_size st = len ps; dc_k : Forall2 (fun a k => ky (l_heap st) a = Some k) ps ks }.
  Lemma dc_crep st ps ks : dcrep st ps ks -> crep st ps ks.
  Proof. intros [A B C D E F G]. constructor; [exact A|rewrite D; apply ring_chain; exact B|exact E|exact F|exact G]. Qed.
  Lemma dc_cell st l1 a l2 ks : dcrep st (l1 ++ a :: l2) ks -> exists c, nth_error (l_heap st) a = Some c /\ c_next c = hd_error (l2 ++ l1 ++ [a]) /\ c_prev c = last_error (a :: l2 ++ l1).
  Proof.
    intros D. assert (N := dc_n _ _ _ D l1 a l2 eq_refl). assert (P := dc_p _ _ _ D l1 a l2 eq_refl). unfold nx, pv in *. destruct (nth_error (l_heap st) a) as [c|]; [|discriminate]. exists c. split; [reflexivity|]. injection N as N. injection P as P. split.
    - rewrite N. rewrite !hd_app. destruct l2; [|reflexivity]. destruct l1; reflexivity.
    - rewrite P. rewrite <- app_assoc. cbn [app]. rewrite last_error_app by discriminate. reflexivity.
  Qed.
  Lemma dc_lt st ps ks b : dcrep st ps ks -> In b ps -> (b < length (l_heap st))%nat.
  Proof. intros D. apply (rep_lt _ _ _ _ _ (dc_crep _ _ _ D)). Qed.
  Lemma Forall2_map_ky (h h' : list (cell K)) ps ks : Forall2 (fun a k => ky h a = Some k) ps ks -> (forall a, In a ps -> ky h' a = ky h a) -> Forall2 (fun a k => ky h' a = Some k) ps ks.
  Proof. intros F. induction F as [|a k ps ks H F IH]; intros E; constructor; [rewrite E by (left; reflexivity); exact H|]. apply IH. intros b Hb. apply E. right. exact Hb. Qed.
  (** the state after linking a new node in *)
  Lemma dc_insert st l1 l2 ks k h' hd' tl' sz : dcrep st (l1 ++ l2) ks -> l1 ++ l2 <> [] -> let new := length (l_heap st) in
    nx h' new = Some (hd_error (l2 ++ l1)) -> (forall b, In b (l1 ++ l2) -> nx h' b = if opt_eqb (last_error (l2 ++ l1)) (Some b) then Some (Some new) else nx (l_heap st) b) ->
    pv h' new = Some (last_error (l2 ++ l1)) -> (forall b, In b (l1 ++ l2) -> pv h' b = if opt_eqb (hd_error (l2 ++ l1)) (Some b) then Some (Some new) else pv (l_heap st) b) ->
    ky h' new = Some k -> (forall b, In b (l1 ++ l2) -> ky h' b = ky (l_heap st) b) ->
    hd' = hd_error (l1 ++ new :: l2) -> tl' = last_error (l1 ++ new :: l2) -> sz = l_size st + 1 ->
    dcrep (LL h' hd' tl' sz) (l1 ++ new :: l2) (ins ks (len l1) k).
  Proof.
    intros D NE new N1 N2 P1 P2 K1 K2 -> -> ->. assert (Hf : ~ In new (l1 ++ l2)) by (intros X; apply (dc_lt _ _ _ _ D) in X; unfold new in X; lia).
    constructor; cbn [l_heap l_head l_tail l_size].
    - apply NoDup_insert; [apply (dc_nd _ _ _ D)|exact Hf].
    - apply (ring_insert (nx (l_heap st))); [apply (dc_n _ _ _ D)|exact NE|apply (dc_nd _ _ _ D)|exact N1|exact N2].
    - apply (ringb_insert (pv (l_heap st))); [apply (dc_p _ _ _ D)|exact NE|apply (dc_nd _ _ _ D)|exact P1|exact P2].
    - reflexivity.
    - reflexivity.
    - rewrite (dc_s _ _ _ D), !len_app, len_cons. lia.
    - destruct (split_keys _ _ _ _ _ (len l1) (dc_crep _ _ _ D) eq_refl) as (ks1 & ks2 & Eks & Ek1 & Ek1' & Ek2' & F1 & F2). unfold ins. rewrite <- Ek1', <- Ek2'. eapply ky_ins; eauto.
  Qed.
  Lemma dc_remove st l1 a l2 ks h' hd' tl' sz : dcrep st (l1 ++ a :: l2) ks -> l1 ++ l2 <> [] ->
    (forall b, In b (l1 ++ l2) -> nx h' b = if opt_eqb (last_error (l2 ++ l1)) (Some b) then Some (hd_error (l2 ++ l1)) else nx (l_heap st) b) ->
    (forall b, In b (l1 ++ l2) -> pv h' b = if opt_eqb (hd_error (l2 ++ l1)) (Some b) then Some (last_error (l2 ++ l1)) else pv (l_heap st) b) ->
    (forall b, In b (l1 ++ l2) -> ky h' b = ky (l_heap st) b) ->
    hd' = hd_error (l1 ++ l2) -> tl' = last_error (l1 ++ l2) -> sz = l_size st - 1 -> dcrep (LL h' hd' tl' sz) (l1 ++ l2) (del ks (len l1)).
  Proof.
    intros D NE N2 P2 K2 -> -> ->. constructor; cbn [l_heap l_head l_tail l_size].
    - eapply NoDup_remove_1. apply (dc_nd _ _ _ D).
    - apply (ring_remove (nx (l_heap st)) _ _ _ a); [apply (dc_n _ _ _ D)|exact NE|apply (dc_nd _ _ _ D)|exact N2].
    - apply (ringb_remove (pv (l_heap st)) _ _ _ a); [apply (dc_p _ _ _ D)|exact NE|apply (dc_nd _ _ _ D)|exact P2].
    - reflexivity.
    - reflexivity.
    - rewrite (dc_s _ _ _ D), !len_app, len_cons. lia.
    - assert (F := dc_k _ _ _ D). apply Forall2_app_inv_l in F as (k1 & k2 & F1 & F2 & ->). inversion F2 as [|? k ? k3 Hk F3]; subst. assert (L : length l1 = length k1) by (eapply Forall2_len; exact F1).
      unfold del, len. rewrite Nat2Z.id. rewrite L, firstn_app, Nat.sub_diag, firstn_all, firstn_O, app_nil_r. replace (skipn (S (length k1)) (k1 ++ k :: k3)) with k3.
      + apply Forall2_map_ky with (h := l_heap st); [apply Forall2_app; assumption|exact K2].
      + rewrite skipn_app, skipn_all2 by lia. replace (S (length k1) - length k1)%nat with 1%nat by lia. reflexivity.
  Qed.
  Lemma opt_eqb_some a b : opt_eqb (Some a) (Some b) = (a =? b)%nat. Proof. reflexivity. Qed.
  Ltac views := rewrite ?nx_set_next, ?nx_set_prev, ?pv_set_next, ?pv_set_prev, ?ky_set_next, ?ky_set_prev, ?nx_new, ?pv_new, ?ky_new, ?Nat.eqb_refl.

  Lemma dc_empty st ks : dcrep st [] ks -> ks = [] /\ l_size st = 0.
  Proof. intros D. assert (F := dc_k _ _ _ D). inversion F. split; [reflexivity|]. exact (dc_s _ _ _ D). Qed.
  (** insert_after *)
  Lemma dcl_after_spec st l1 a l2 ks k : dcrep st (l1 ++ a :: l2) ks ->
    exists st', dcl_insert_after st a k = (st', Ret tt) /\ dcrep st' (l1 ++ a :: length (l_heap st) :: l2) (ins ks (len l1 + 1) k).
  Proof.
    intros D. destruct (dc_cell _ _ _ _ _ D) as (c & Ec & En & Ep). unfold dcl_insert_after, dll_insert_after. set (new := length (l_heap st)) in *. rewrite (deref_app _ _ _ _ Ec). rewrite En.
    assert (S : exists s, hd_error (l2 ++ l1 ++ [a]) = Some s) by (destruct l2; [destruct l1|]; cbn; eauto). destruct S as (s & ES). rewrite ES. cbn [l_heap].
    assert (Hlt : forall b, In b (l1 ++ a :: l2) -> (new =? b)%nat = false /\ (b =? new)%nat = false). { intros b Hb. apply (dc_lt _ _ _ _ D) in Hb. unfold new. split; apply eqb_ne; lia. }
    assert (Hs : In s (l1 ++ a :: l2)). { destruct l2; [destruct l1|]; injection ES as <-; rewrite ?in_app_iff; cbn; auto. }
    assert (Ha : In a (l1 ++ a :: l2)) by (rewrite in_app_iff; cbn; auto). destruct (Hlt a Ha) as [A1 A2]. destruct (Hlt s Hs) as [S1 S2].
    set (h3 := set_prev _ _ _). assert (EN : nx h3 new = Some (Some s)) by (unfold h3; repeat (views; rewrite ?A2, ?S2); fold new; rewrite ?Nat.eqb_refl; reflexivity).
    destruct (nx_cell _ _ _ EN) as (c' & Ec' & En'). rewrite (deref_some _ _ _ Ec'), En'. cbn [l_head l_tail l_size]. rewrite (dc_h _ _ _ D). eexists. split; [reflexivity|].
    replace (l1 ++ a :: new :: l2) with ((l1 ++ [a]) ++ new :: l2) by la. replace (len l1 + 1) with (len (l1 ++ [a])) by (rewrite len_app; reflexivity).
    assert (D' : dcrep st ((l1 ++ [a]) ++ l2) ks) by (rewrite <- app_assoc; exact D).
    assert (EL : last_error (l2 ++ l1 ++ [a]) = Some a) by (rewrite app_assoc, last_error_snoc; reflexivity).
    assert (W : forall hd tl, hd = hd_error ((l1 ++ [a]) ++ new :: l2) -> tl = last_error ((l1 ++ [a]) ++ new :: l2) -> dcrep (LL h3 hd tl (l_size st + 1)) ((l1 ++ [a]) ++ new :: l2) (ins ks (len (l1 ++ [a])) k)).
    { intros hd tl Hh Ht. apply (dc_insert st (l1 ++ [a]) l2 ks k h3 hd tl _ D'); fold new; [destruct l1; discriminate|..]; [ | | | | | |exact Hh|exact Ht|reflexivity].
      - rewrite ES. exact EN.
      - intros b Hb. rewrite EL, opt_eqb_some. rewrite <- app_assoc in Hb. destruct (Hlt b Hb) as [B1 B2]. unfold h3. repeat (views; rewrite ?B1); fold new; rewrite ?B1. destruct (Nat.eqb_spec a b) as [<-|]; [|reflexivity]. unfold nx. rewrite Ec. reflexivity.
      - rewrite EL. unfold h3. repeat (views; rewrite ?S2); fold new; rewrite ?Nat.eqb_refl; reflexivity.
      - intros b Hb. rewrite ES, opt_eqb_some. rewrite <- app_assoc in Hb. destruct (Hlt b Hb) as [B1 B2]. unfold h3. repeat (views; rewrite ?B1); fold new; rewrite ?B1. destruct (Nat.eqb_spec s b) as [<-|]; [|reflexivity].
        apply in_split in Hb as (x & y & E). assert (X := dc_p _ _ _ D x s y E). rewrite X. reflexivity.
      - unfold h3. repeat views; fold new; rewrite ?Nat.eqb_refl; reflexivity.
      - intros b Hb. rewrite <- app_assoc in Hb. destruct (Hlt b Hb) as [B1 B2]. unfold h3. repeat views; fold new; rewrite ?B1; reflexivity. }
    assert (NDH := dc_nd _ _ _ D). destruct l2 as [|b l2].
    - assert (E1 : hd_error (l1 ++ [a]) = Some s) by exact ES. rewrite E1. cbn [opt_eqb]. rewrite Nat.eqb_refl. apply W; [destruct l1; exact (eq_sym E1)|rewrite last_error_snoc; reflexivity].
    - injection ES as <-. assert (NE : opt_eqb (Some b) (hd_error (l1 ++ a :: b :: l2)) = false).
      { destruct l1 as [|x l1]; cbn [app hd_error opt_eqb]; apply eqb_ne; intros ->; cbn [app] in NDH; inversion NDH as [|? ? H _]; apply H; rewrite ?in_app_iff; cbn; auto. }
      rewrite NE. apply W; [destruct l1; reflexivity|]. rewrite (dc_t _ _ _ D). rewrite !last_error_app by discriminate. rewrite (last_error_cons _ a), (last_error_cons _ new) by discriminate. reflexivity.
  Qed.
  (** insert_before *)
  Lemma dcl_before_spec st l1 a l2 ks k : dcrep st (l1 ++ a :: l2) ks ->
    exists st', dcl_insert_before st a k = (st', Ret tt) /\ dcrep st' (l1 ++ length (l_heap st) :: a :: l2) (ins ks (len l1) k).
  Proof.
    intros D. destruct (dc_cell _ _ _ _ _ D) as (c & Ec & En & Ep). unfold dcl_insert_before, dll_insert_before. set (new := length (l_heap st)) in *. rewrite (deref_app _ _ _ _ Ec). rewrite Ep.
    assert (S : exists p, last_error (a :: l2 ++ l1) = Some p) by (apply last_some; discriminate). destruct S as (p & EP). rewrite EP.
    assert (Hlt : forall b, In b (l1 ++ a :: l2) -> (new =? b)%nat = false /\ (b =? new)%nat = false). { intros b Hb. apply (dc_lt _ _ _ _ D) in Hb. unfold new. split; apply eqb_ne; lia. }
    assert (Hp : In p (l1 ++ a :: l2)). { apply last_error_in in EP as (z & EZ). assert (X : In p (a :: l2 ++ l1)) by (rewrite EZ; apply in_or_app; cbn; auto). rewrite !in_app_iff in *. cbn in *. rewrite in_app_iff in X. tauto. }
    assert (Ha : In a (l1 ++ a :: l2)) by (rewrite in_app_iff; cbn; auto). destruct (Hlt a Ha) as [A1 A2]. destruct (Hlt p Hp) as [P1 P2]. cbn [l_head l_tail l_size l_heap].
    set (h3 := set_next (set_next _ _ _) _ _). rewrite (dc_h _ _ _ D), (dc_t _ _ _ D).
    assert (EPV : pv h3 a = Some (Some new)). { unfold h3. repeat (views; rewrite ?A1); fold new; rewrite ?A1. unfold pv. rewrite Ec. reflexivity. }
    assert (W : forall hd tl, hd = hd_error (l1 ++ new :: a :: l2) -> tl = last_error (l1 ++ new :: a :: l2) -> dcrep (LL h3 hd tl (l_size st + 1)) (l1 ++ new :: a :: l2) (ins ks (len l1) k)).
    { intros hd tl Hh Ht. apply (dc_insert st l1 (a :: l2) ks k h3 hd tl _ D); fold new; [destruct l1; discriminate|..]; [ | | | | | |exact Hh|exact Ht|reflexivity].
      - cbn [app hd_error]. unfold h3. repeat (views; rewrite ?P2, ?A2); fold new; rewrite ?Nat.eqb_refl; reflexivity.
      - intros b Hb. cbn [app]. rewrite EP, opt_eqb_some. destruct (Hlt b Hb) as [B1 B2]. unfold h3. repeat (views; rewrite ?B1); fold new; rewrite ?B1. destruct (Nat.eqb_spec p b) as [<-|]; [|reflexivity].
        apply in_split in Hb as (x & y & E). assert (X := dc_n _ _ _ D x p y E). rewrite X. reflexivity.
      - cbn [app]. rewrite EP. unfold h3. repeat (views; rewrite ?A2); fold new; rewrite ?Nat.eqb_refl; reflexivity.
      - intros b Hb. cbn [app hd_error]. rewrite opt_eqb_some. destruct (Hlt b Hb) as [B1 B2]. unfold h3. repeat (views; rewrite ?B1); fold new; rewrite ?B1. destruct (Nat.eqb_spec a b) as [<-|]; [|reflexivity]. unfold pv. rewrite Ec. reflexivity.
      - unfold h3. repeat views; fold new; rewrite ?Nat.eqb_refl; reflexivity.
      - intros b Hb. destruct (Hlt b Hb) as [B1 B2]. unfold h3. repeat views; fold new; rewrite ?B1; reflexivity. }
    assert (NDH := dc_nd _ _ _ D). assert (ET : last_error (l1 ++ a :: l2) = last_error (l1 ++ new :: a :: l2)) by (rewrite !last_error_app by discriminate; rewrite (last_error_cons _ new) by discriminate; reflexivity).
    destruct l1 as [|x l1]; cbn [app hd_error opt_eqb].
    - rewrite Nat.eqb_refl. eexists. split; [reflexivity|]. apply W; [|exact ET]. cbn [deref]. unfold pv in EPV. destruct (nth_error h3 a); [|discriminate]. injection EPV as ->. reflexivity.
    - rewrite (eqb_ne a x) by (intros ->; cbn [app] in NDH; inversion NDH as [|? ? H _]; apply H; rewrite in_app_iff; cbn; auto). eexists. split; [reflexivity|]. apply W; [reflexivity|exact ET].
  Qed.

  (** two states with the same links represent the same list *)
  Lemma dc_ext st h' hd' tl' sz ps ks : dcrep st ps ks -> hd' = l_head st -> tl' = l_tail st -> sz = l_size st ->
    (forall b, In b ps -> nx h' b = nx (l_heap st) b) -> (forall b, In b ps -> pv h' b = pv (l_heap st) b) -> (forall b, In b ps -> ky h' b = ky (l_heap st) b) -> dcrep (LL h' hd' tl' sz) ps ks.
  Proof.
    intros D -> -> -> N P Q. assert (I : forall l1 a l2, ps = l1 ++ a :: l2 -> In a ps) by (intros l1 a l2 ->; apply in_or_app; right; left; reflexivity). constructor; cbn [l_heap l_head l_tail l_size].
    - apply (dc_nd _ _ _ D).
    - intros l1 a l2 E. rewrite N by (eapply I; exact E). exact (dc_n _ _ _ D l1 a l2 E).
    - intros l1 a l2 E. rewrite P by (eapply I; exact E). exact (dc_p _ _ _ D l1 a l2 E).
    - apply (dc_h _ _ _ D).
    - apply (dc_t _ _ _ D).
    - apply (dc_s _ _ _ D).
    - eapply Forall2_map_ky; [apply (dc_k _ _ _ D)|exact Q].
  Qed.
  (** the fix-up at the end of insert_at changes nothing once the ring is right *)
  Lemma dc_fix st l1 n l2 ks : dcrep st (l1 ++ n :: l2) ks -> exists st',
    match deref (l_heap st) (Some n) with
    | Ret c => (if opt_eqb (c_next c) (l_head st)
                then LL (match l_head st with Some hd => set_prev (set_next (l_heap st) n (Some hd)) hd (Some n) | None => l_heap st end) (l_head st) (Some n) (l_size st)
                else st, @Ret unit tt)
    | _ => (st, Raise AttributeError) end = (st', Ret tt) /\ dcrep st' (l1 ++ n :: l2) ks.
  Proof.
    intros D. destruct (circ_next _ _ _ _ _ (dc_crep _ _ _ D)) as (c & Ec & En & Eo). rewrite (deref_some _ _ _ Ec), Eo. destruct l2 as [|b l2]; [|exists st; split; [reflexivity|exact D]].
    assert (ET := dc_t _ _ _ D). rewrite last_error_snoc in ET. assert (EH := dc_h _ _ _ D). destruct (l_head st) as [hd|] eqn:Eh; [|destruct l1; discriminate].
    eexists. split; [reflexivity|]. apply (dc_ext st); auto.
    - intros b Hb. rewrite nx_set_prev, nx_set_next. destruct (Nat.eqb_spec n b) as [<-|]; [|reflexivity]. rewrite (dc_n _ _ _ D l1 n [] eq_refl). cbn [app option_map]. rewrite EH. reflexivity.
    - intros b Hb. rewrite pv_set_prev, pv_set_next. destruct (Nat.eqb_spec hd b) as [<-|]; [|reflexivity]. destruct (l1 ++ [n]) as [|x xs] eqn:EX; [destruct l1; discriminate|]. injection EH as ->.
      assert (X := dc_p _ _ _ D [] x xs eq_refl). rewrite X. cbn [option_map]. rewrite app_nil_r, <- EX, last_error_snoc. reflexivity.
    - intros b Hb. rewrite ky_set_prev, ky_set_next. reflexivity.
  Qed.
  Lemma dc_new : dcrep (ll_new K) [] [].
  Proof. constructor; cbn; try reflexivity; try constructor; intros [|? ?] ? ? E; discriminate E. Qed.
  Lemma walk_zero fuel (h : list (cell K)) p : walk_to (S fuel) h p 0 = Ret (None, p).
  Proof. reflexivity. Qed.
  (** insert_at at the front of a non-empty list *)
  Lemma dcl_at_front fuel st p0 ps ks k : dcrep st (p0 :: ps) ks -> (0 < fuel)%nat ->
    exists st', dcl_insert_at fuel st 0 k = (st', Ret tt) /\ dcrep st' (length (l_heap st) :: p0 :: ps) (ins ks 0 k).
  Proof.
    intros D Hf. set (new := length (l_heap st)). assert (Es := dc_s _ _ _ D). rewrite len_cons in Es. assert (Hn := len_nonneg _ ps).
    assert (Hlt : forall b, In b (p0 :: ps) -> (new =? b)%nat = false /\ (b =? new)%nat = false). { intros b Hb. apply (dc_lt _ _ _ _ D) in Hb. unfold new. split; apply eqb_ne; lia. }
    destruct fuel as [|fuel]; [lia|]. unfold dcl_insert_at, dll_insert_at.
    replace (norm_insert_index (l_size st) 0) with 0 by (unfold norm_insert_index; cbn; destruct (_ =? _); reflexivity).
    destruct (Z.ltb_spec (l_size st) 0); [lia|]. destruct (Z.eqb_spec (l_size st + 1) 1); [lia|]. destruct (Z.eqb_spec 0 (l_size st + 1 - 1)); [lia|].
    rewrite walk_zero. rewrite (dc_h _ _ _ D). cbn [hd_error]. cbn [l_size l_head l_tail l_heap]. fold new.
    destruct (Z.eqb_spec (l_size st + 1) 1); [lia|]. unfold ll_getitem. cbn [l_size l_head l_tail l_heap Z.ltb Z.compare].
    destruct (Z.leb_spec (l_size st + 1) 0); [lia|]. rewrite walk_zero. cbn [bind]. rewrite ?Z.eqb_refl.
    destruct (list_snoc_case _ (p0 :: ps)) as [|(l' & t & Et)]; [discriminate|]. assert (ET : l_tail st = Some t) by (rewrite (dc_t _ _ _ D), Et; apply last_error_snoc). rewrite ET.
    assert (Ht : In t (p0 :: ps)) by (rewrite Et; apply in_or_app; cbn; auto). destruct (Hlt t Ht) as [T1 T2]. destruct (Hlt p0 (or_introl eq_refl)) as [Q1 Q2].
    set (s3 := LL _ _ _ _). assert (C3 : dcrep s3 ([] ++ new :: p0 :: ps) (ins ks (len (@nil nat)) k)).
    { apply (dc_insert st [] (p0 :: ps) ks k _ _ _ _ D); fold new; rewrite ?app_nil_r; cbn [app hd_error]; [discriminate| | | | | | |reflexivity| |reflexivity].
      - repeat (views; rewrite ?T2, ?Q2, ?T1, ?Q1); fold new; rewrite ?Nat.eqb_refl; reflexivity.
      - intros b Hb. rewrite Et, last_error_snoc, opt_eqb_some. destruct (Hlt b Hb) as [B1 B2]. repeat (views; rewrite ?B1); fold new; rewrite ?B1. destruct (Nat.eqb_spec t b) as [<-|]; [|reflexivity].
        apply in_split in Hb as (x & y & E). rewrite (dc_n _ _ _ D x t y E). reflexivity.
      - rewrite Et, last_error_snoc. repeat (views; rewrite ?T2, ?Q2, ?T1, ?Q1); fold new; rewrite ?Nat.eqb_refl; reflexivity.
      - intros b Hb. rewrite opt_eqb_some. destruct (Hlt b Hb) as [B1 B2]. repeat (views; rewrite ?B1); fold new; rewrite ?B1. destruct (Nat.eqb_spec p0 b) as [<-|]; [|reflexivity].
        apply in_split in Hb as (x & y & E). rewrite (dc_p _ _ _ D x p0 y E). reflexivity.
      - repeat views; fold new; rewrite ?Nat.eqb_refl; reflexivity.
      - intros b Hb. destruct (Hlt b Hb) as [B1 B2]. repeat views; fold new; rewrite ?B1; reflexivity.
      - rewrite last_error_cons by discriminate. rewrite Et, last_error_snoc. reflexivity. }
    destruct (dc_fix _ _ _ _ _ C3) as (st' & E & D'). exists st'. split; [exact E|exact D'].
  Qed.
  (** insert_at between two nodes *)
  Lemma dll_at_mid fuel st l1 a b l2 ks k i : dcrep st ((l1 ++ [a]) ++ b :: l2) ks -> norm_insert_index (l_size st) i = len (l1 ++ [a]) -> (length (l1 ++ [a]) < fuel)%nat ->
    exists st', dll_insert_at fuel st i k = (st', Ret tt) /\ dcrep st' ((l1 ++ [a]) ++ length (l_heap st) :: b :: l2) (ins ks (len (l1 ++ [a])) k) /\ (length (l_heap st) <= length (l_heap st'))%nat.
  Proof.
    intros D Ej Hf. set (new := length (l_heap st)). assert (Es := dc_s _ _ _ D). rewrite len_app, len_cons in Es. assert (Hn := len_nonneg _ l2). assert (Hm : len (l1 ++ [a]) = len l1 + 1) by (rewrite len_app; reflexivity). assert (Hp := len_nonneg _ l1).
    assert (Hlt : forall c, In c ((l1 ++ [a]) ++ b :: l2) -> (new =? c)%nat = false /\ (c =? new)%nat = false). { intros c Hc. apply (dc_lt _ _ _ _ D) in Hc. unfold new. split; apply eqb_ne; lia. }
    assert (Ia : In a ((l1 ++ [a]) ++ b :: l2)) by (rewrite !in_app_iff; cbn; auto). assert (Ib : In b ((l1 ++ [a]) ++ b :: l2)) by (rewrite !in_app_iff; cbn; auto).
    unfold dll_insert_at. rewrite Ej. destruct (Z.ltb_spec (l_size st) (len (l1 ++ [a]))); [lia|]. destruct (Z.eqb_spec (l_size st + 1) 1); [lia|]. destruct (Z.eqb_spec (len (l1 ++ [a])) (l_size st + 1 - 1)); [lia|].
    assert (C := r_fw _ _ _ _ (dc_crep _ _ _ D)).
    assert (C' : chain (nx (l_heap st ++ [Cell k None None])) (l_head st) ((l1 ++ [a]) ++ b :: l2) (hd_error ((l1 ++ [a]) ++ b :: l2))).
    { eapply chain_ext; [exact C|]. intros c Hc. rewrite nx_new. fold new. rewrite (proj1 (Hlt c Hc)). reflexivity. }
    rewrite (walk_to_spec _ _ _ _ _ _ C' Hf). rewrite last_error_snoc. cbn [hd_or]. eexists. split; [reflexivity|]. fold new.
    destruct (Hlt a Ia) as [A1 A2]. destruct (Hlt b Ib) as [B1 B2].
    assert (Hlast : last_error ((b :: l2) ++ l1 ++ [a]) = Some a) by (rewrite app_assoc, last_error_snoc; reflexivity). split.
    - apply (dc_insert st (l1 ++ [a]) (b :: l2) ks k _ _ _ _ D); fold new; [destruct l1; discriminate| | | | | | | | |reflexivity].
      + cbn [app hd_error]. repeat (views; rewrite ?A2, ?B2, ?A1, ?B1); fold new; rewrite ?Nat.eqb_refl; reflexivity.
      + intros c Hc. rewrite Hlast, opt_eqb_some. destruct (Hlt c Hc) as [X1 X2]. repeat (views; rewrite ?X1); fold new; rewrite ?X1. destruct (Nat.eqb_spec a c) as [<-|]; [|reflexivity].
        apply in_split in Hc as (x & y & E). rewrite (dc_n _ _ _ D x a y E). reflexivity.
      + rewrite Hlast. repeat (views; rewrite ?A2, ?B2, ?A1, ?B1); fold new; rewrite ?Nat.eqb_refl; reflexivity.
      + intros c Hc. cbn [app hd_error]. rewrite opt_eqb_some. destruct (Hlt c Hc) as [X1 X2]. repeat (views; rewrite ?X1); fold new; rewrite ?X1. destruct (Nat.eqb_spec b c) as [<-|]; [|reflexivity].
        apply in_split in Hc as (x & y & E). rewrite (dc_p _ _ _ D x b y E). reflexivity.
      + repeat views; fold new; rewrite ?Nat.eqb_refl; reflexivity.
      + intros c Hc. destruct (Hlt c Hc) as [X1 X2]. repeat views; fold new; rewrite ?X1; reflexivity.
      + rewrite (dc_h _ _ _ D). destruct l1; reflexivity.
      + rewrite (dc_t _ _ _ D). rewrite !last_error_app by discriminate. rewrite (last_error_cons _ new) by discriminate. reflexivity.
    - cbn [l_heap]. rewrite !len_set_prev, !len_set_next, !len_set_prev, app_length. unfold new. lia.
  Qed.
  (** insert_at at the end of a non-empty list *)
  Lemma dcl_at_end fuel st ps ks k : dcrep st ps ks -> ps <> [] -> (length ps < fuel)%nat ->
    exists st', dcl_insert_at fuel st (l_size st) k = (st', Ret tt) /\ dcrep st' (ps ++ [length (l_heap st)]) (ins ks (len ps) k).
  Proof.
    intros D NE Hf. set (new := length (l_heap st)). assert (Es := dc_s _ _ _ D). destruct (list_snoc_case _ ps) as [->|(l & t & ->)]; [congruence|]. assert (Hm : len (l ++ [t]) = len l + 1) by (rewrite len_app; reflexivity). assert (Hp := len_nonneg _ l).
    assert (Hlt : forall c, In c (l ++ [t]) -> (new =? c)%nat = false /\ (c =? new)%nat = false). { intros c Hc. apply (dc_lt _ _ _ _ D) in Hc. unfold new. split; apply eqb_ne; lia. }
    assert (It : In t (l ++ [t])) by (rewrite in_app_iff; cbn; auto). destruct (Hlt t It) as [T1 T2].
    unfold dcl_insert_at, dll_insert_at. replace (norm_insert_index (l_size st) (l_size st)) with (l_size st).
    2:{ rewrite norm_index_spec by lia. destruct (Z.eqb_spec (l_size st) (-1)); [lia|]. rewrite andb_false_r. destruct (Z.ltb_spec (l_size st) 0); [lia|]. reflexivity. }
    rewrite Z.ltb_irrefl. destruct (Z.eqb_spec (l_size st + 1) 1); [lia|]. destruct (Z.eqb_spec (l_size st) (l_size st + 1 - 1)); [|lia].
    assert (ET := dc_t _ _ _ D). rewrite last_error_snoc in ET. rewrite ET. destruct (dc_cell _ _ _ _ _ D) as (c & Ec & En & Ep). rewrite (deref_app _ _ _ _ Ec). cbn [app] in En. fold new.
    cbn [l_size l_head l_tail l_heap]. destruct (Z.eqb_spec (l_size st + 1) 1); [lia|]. set (s1 := LL _ _ _ _).
    assert (Hhd : exists hd, hd_error (l ++ [t]) = Some hd) by (destruct l; cbn; eauto). destruct Hhd as (hd & Hhd). rewrite Hhd in En.
    assert (R1 : rep s1 ((l ++ [t]) ++ [new]) (Some hd) (ins ks (len (l ++ [t])) k)).
    { assert (C := dc_crep _ _ _ D). destruct C as [N C T S F]. constructor; unfold s1; cbn [l_heap l_head l_tail l_size].
      - apply NoDup_insert; rewrite app_nil_r; [exact N|]. intros X. apply Hlt in X as [X _]. rewrite Nat.eqb_refl in X. discriminate.
      - rewrite <- app_assoc. cbn [app]. apply chain_app in C as [C1 C2]. apply chain_app. cbn [hd_or] in *. split.
        + eapply chain_ext; [exact C1|]. intros b Hb. assert (Hb' : In b (l ++ [t])) by (apply in_or_app; auto). destruct (Hlt b Hb') as [X1 X2]. repeat (views; rewrite ?X1); fold new; rewrite ?X1.
          rewrite eqb_ne; [reflexivity|]. intros ->. apply (NoDup_app_disj _ _ _ b N Hb). left; reflexivity.
        + cbn [chain]. split; [reflexivity|]. exists (Some new). split.
          * repeat (views; rewrite ?T1); fold new; rewrite ?T1. unfold nx. rewrite Ec. reflexivity.
          * split; [reflexivity|]. exists (Some hd). split; [|reflexivity]. repeat (views; rewrite ?T2); fold new; rewrite ?Nat.eqb_refl. cbn [option_map]. rewrite En. reflexivity.
      - rewrite last_error_snoc. reflexivity.
      - rewrite S, !len_app. change (len [new]) with 1. lia.
      - assert (D2 : rep st ((l ++ [t]) ++ []) (hd_error (l ++ [t])) ks) by (rewrite app_nil_r; apply (dc_crep _ _ _ D)). destruct (split_keys _ _ _ _ _ (len (l ++ [t])) D2 eq_refl) as (ks1 & ks2 & Eks & Ek1 & Ek1' & Ek2' & F1 & F2). unfold ins. rewrite <- Ek1', <- Ek2'. eapply ky_ins; [exact F1|exact F2| |].
        + repeat views; fold new; rewrite ?Nat.eqb_refl; reflexivity.
        + intros b Hb. rewrite app_nil_r in Hb. repeat views; fold new; rewrite (proj1 (Hlt b Hb)); reflexivity. }
    rewrite (getitem_spec _ s1 (l ++ [t]) new [] (Some hd) _ (l_size st) R1); [|destruct (Z.ltb_spec (l_size st) 0); lia|exact Hf].
    destruct (Z.eqb_spec (l_size st) 0); [lia|].
    assert (EN : nx (l_heap s1) new = Some (Some hd)). { unfold s1. cbn [l_heap]. repeat (views; rewrite ?T2); fold new; rewrite ?Nat.eqb_refl. cbn [option_map]. rewrite En. reflexivity. }
    destruct (nx_cell _ _ _ EN) as (c' & Ec' & En'). rewrite (deref_some _ _ _ Ec'), En'. assert (Eh1 : l_head s1 = Some hd) by (unfold s1; cbn [l_head]; rewrite (dc_h _ _ _ D); exact Hhd). rewrite Eh1. cbn [opt_eqb]. rewrite Nat.eqb_refl.
    eexists. split; [reflexivity|].
    assert (D2 : dcrep st ((l ++ [t]) ++ []) ks) by (rewrite app_nil_r; exact D). unfold s1. cbn [l_heap l_head l_tail l_size].
    assert (Hi : In hd (l ++ [t])) by (destruct (l ++ [t]); [discriminate|]; injection Hhd as ->; left; reflexivity). destruct (Hlt hd Hi) as [H1 H2].
    apply (dc_insert st (l ++ [t]) [] ks k _ _ _ _ D2); fold new; rewrite ?app_nil_r; [exact NE| | | | | | | | |reflexivity]; cbn [app].
    - rewrite Hhd. repeat (views; rewrite ?T2); fold new; rewrite ?Nat.eqb_refl. reflexivity.
    - intros b Hb. rewrite last_error_snoc, opt_eqb_some. destruct (Hlt b Hb) as [X1 X2]. repeat (views; rewrite ?X1); fold new; rewrite ?X1. destruct (Nat.eqb_spec t b) as [<-|]; [|reflexivity].
      unfold nx. rewrite Ec. reflexivity.
    - rewrite last_error_snoc. repeat (views; rewrite ?H2); fold new; rewrite ?Nat.eqb_refl. reflexivity.
    - intros b Hb. rewrite Hhd, opt_eqb_some. destruct (Hlt b Hb) as [X1 X2]. repeat (views; rewrite ?X1); fold new; rewrite ?X1. destruct (Nat.eqb_spec hd b) as [<-|]; [|reflexivity].
      apply in_split in Hb as (x & y & E). rewrite (dc_p _ _ _ D x hd y E). reflexivity.
    - repeat views; fold new; rewrite ?Nat.eqb_refl; reflexivity.
    - intros b Hb. repeat views; fold new; rewrite (proj1 (Hlt b Hb)); reflexivity.
    - rewrite <- Hhd. destruct l; reflexivity.
    - rewrite last_error_snoc. reflexivity.
  Qed.
  Lemma dcl_ins_sim st ps ks i k ks' r : dcrep st ps ks -> (- len ks < i \/ len ks = 0) -> spec_insert ks i k = Some (ks', r) ->
    exists st' ps', (let (s, x) := dcl_insert_at (S (S (length (l_heap st)))) st i k in (s, out_unit x)) = (st', r) /\ dcrep st' ps' ks'.
  Proof.
    intros D Hi H. assert (R := dc_crep _ _ _ D). pose proof (rep_len _ _ _ _ R) as El. pose proof (r_size _ _ _ _ R) as Es. pose proof (len_nonneg _ ks) as Hn.
    unfold spec_insert in H. rewrite <- (norm_index_spec (len ks) i) in H by assumption.
    remember (norm_insert_index (len ks) i) as j eqn:Ej. symmetry in Ej.
    destruct (Z.ltb_spec (len ks) j).
    { injection H as <- <-. exists st, ps. unfold dcl_insert_at, dll_insert_at. rewrite Es, El, Ej. destruct (Z.ltb_spec (len ks) j); [|lia]. auto. }
    destruct (Z.ltb_spec j 0); [discriminate|]. injection H as <- <-. destruct ps as [|p0 ps0].
    - rewrite len_nil in El. rewrite <- El in *. rewrite len_nil in Es.
      assert (ks = []) by (destruct ks; [reflexivity|]; rewrite len_cons in El; pose proof (len_nonneg _ ks); lia). subst ks.
      assert (Hj0 : j = 0) by lia. rewrite Hj0 in *.
      assert (Hi' : i = 0 \/ i = -1). { unfold norm_insert_index in Ej. cbn in Ej. destruct (Z.eqb_spec i 0), (Z.eqb_spec i (-1)); cbn in Ej; auto. destruct (Z.ltb_spec i 0); lia. }
      unfold dcl_insert_at, dll_insert_at. rewrite Es, Ej. change (0 <? 0) with false. change (0 + 1) with 1. change (1 =? 1) with true. cbv iota. cbn [l_size l_head l_heap l_tail]. change (1 =? 1) with true. cbv iota. set (new := length (l_heap st)). set (h0 := l_heap st ++ [Cell k None None]).
      set (s2 := LL _ _ _ _).
      assert (Hnn : nx h0 new = Some None) by (unfold h0; rewrite nx_new; fold new; rewrite Nat.eqb_refl; reflexivity).
      assert (Hpp : pv h0 new = Some None) by (unfold h0; rewrite pv_new; fold new; rewrite Nat.eqb_refl; reflexivity).
      assert (C2 : dcrep s2 [new] [k]).
      { constructor; unfold s2; cbn [l_heap l_head l_tail l_size hd_error].
        - constructor; [cbn; tauto|constructor].
        - intros [|x l1] a l2 E; [injection E as <- <-|destruct l1; discriminate E]. cbn [app hd_error]. fold h0. rewrite nx_set_prev, nx_set_next, Nat.eqb_refl, Hnn. reflexivity.
        - intros [|x l1] a l2 E; [injection E as <- <-|destruct l1; discriminate E]. cbn [app]. fold h0. rewrite pv_set_prev, pv_set_next, Nat.eqb_refl, Hpp. reflexivity.
        - reflexivity.
        - reflexivity.
        - reflexivity.
        - constructor; [|constructor]. rewrite ky_set_prev, ky_set_next. unfold h0. rewrite ky_new. fold new. rewrite Nat.eqb_refl. reflexivity. }
      assert (G : ll_getitem (S (S new)) s2 i = Ret (Some new)).
      { apply (getitem_spec _ s2 [] new [] (Some new) [k]); [exact (dc_crep _ _ _ C2)| |cbn; lia]. unfold s2; cbn. destruct Hi' as [-> | ->]; reflexivity. }
      rewrite G. set (s3 := if i =? 0 then _ else s2).
      assert (C3 : dcrep s3 ([] ++ [new]) [k]).
      { subst s3. destruct (i =? 0); [|exact C2]. unfold s2 at 1. cbn [l_tail]. apply (dc_ext s2); [exact C2|reflexivity..| | |]; intros b [<-|[]].
        - assert (X := dc_n _ _ _ C2 [] new [] eq_refl). rewrite nx_set_prev, nx_set_next, Nat.eqb_refl, X. reflexivity.
        - assert (X := dc_p _ _ _ C2 [] new [] eq_refl). rewrite pv_set_prev, pv_set_next, Nat.eqb_refl, X. reflexivity.
        - rewrite ky_set_prev, ky_set_next. reflexivity. }
      destruct (dc_fix s3 [] new [] _ C3) as (st' & E & D'). rewrite E. exists st', [new]. split; [reflexivity|]. exact D'.
    - pose proof (rep_size_heap _ _ _ _ R) as Hh. assert (Hk1 : 1 <= len ks) by (rewrite <- El, len_cons; pose proof (len_nonneg _ ps0); lia).
      rewrite norm_index_spec in Ej by lia. destruct (Z.eqb_spec (len ks) 0) as [|_]; [lia|]. cbn [andb] in Ej.
      destruct (Z.eq_dec j 0) as [->|Ej0]; [|destruct (Z.eq_dec j (len ks)) as [->|Ejs]].
      + assert (Hi0 : i = 0) by (destruct (Z.ltb_spec i 0); lia). subst i.
        destruct (dcl_at_front (S (S (length (l_heap st)))) st p0 ps0 ks k D) as (st' & E & D'); [lia|]. rewrite E. eexists; eexists; split; [reflexivity|exact D'].
      + assert (Hi0 : i = l_size st) by (destruct (Z.ltb_spec i 0); lia). subst i.
        destruct (dcl_at_end (S (S (length (l_heap st)))) st (p0 :: ps0) ks k D) as (st' & E & D'); [discriminate|lia|]. rewrite E. eexists; eexists; split; [reflexivity|]. rewrite El in D'. exact D'.
      + destruct (split_at (p0 :: ps0) j) as (l1 & l2 & Eps & Hl & _ & _); [lia|]. rewrite Eps in *.
        destruct (list_snoc_case _ l1) as [->|(l & a & ->)]; [rewrite len_nil in Hl; lia|]. destruct l2 as [|b l2]; [exfalso; rewrite app_nil_r in *; lia|].
        assert (Ej' : norm_insert_index (l_size st) i = len (l ++ [a])). { rewrite Hl, Es, El, norm_index_spec by lia. destruct (Z.eqb_spec (len ks) 0); [lia|]. cbn [andb]. exact Ej. }
        assert (Hf : (length (l ++ [a]) < S (S (length (l_heap st))))%nat) by (rewrite app_length in Hh; lia).
        destruct (dll_at_mid _ st l a b l2 ks k i D Ej' Hf) as (s1 & E & D1 & Hh1). set (new := length (l_heap st)) in *. rewrite Hl in D1.
        unfold dcl_insert_at. rewrite E. assert (Es1 := dc_s _ _ _ D1). rewrite len_app, !len_cons, Hl in Es1. assert (Hl2 := len_nonneg _ l2).
        destruct (Z.eqb_spec (l_size s1) 1); [lia|]. destruct (Z.eqb_spec i 0) as [->|Hi0]; [cbn in Ej; lia|]. rewrite len_app, len_cons, Hl in El.
        assert (G : exists m1 n m2, (l ++ [a]) ++ new :: b :: l2 = m1 ++ n :: m2 /\ ll_getitem (S (S new)) s1 i = Ret (Some n)).
        { destruct (Z.ltb_spec i 0) as [Hneg|Hpos].
          - exists ((l ++ [a]) ++ [new]), b, l2. split; [la|]. apply (getitem_spec _ s1 ((l ++ [a]) ++ [new]) b l2 (hd_error ((l ++ [a]) ++ new :: b :: l2)) (ins ks j k)).
            + replace (((l ++ [a]) ++ [new]) ++ b :: l2) with ((l ++ [a]) ++ new :: b :: l2) by la. exact (dc_crep _ _ _ D1).
            + destruct (Z.ltb_spec i 0); [|lia]. rewrite len_app, Hl. change (len [new]) with 1. lia.
            + rewrite app_length. cbn [length]. rewrite app_length in Hh. cbn [length] in Hh. lia.
          - exists (l ++ [a]), new, (b :: l2). split; [reflexivity|]. apply (getitem_spec _ s1 (l ++ [a]) new (b :: l2) (hd_error ((l ++ [a]) ++ new :: b :: l2)) (ins ks j k)); [exact (dc_crep _ _ _ D1)| |lia]. destruct (Z.ltb_spec i 0); lia. }
        destruct G as (m1 & n' & m2 & Em & G). rewrite G. rewrite Em in D1. destruct (dc_fix s1 m1 n' m2 _ D1) as (st' & E' & D'). rewrite E'. eexists; eexists; split; [reflexivity|exact D'].
  Qed.
  (** extract of a node other than the first *)
  Lemma dcl_ext_mid fuel st l p a l2 ks i k : dcrep st ((l ++ [p]) ++ a :: l2) ks -> (if i <? 0 then l_size st + i else i) = len (l ++ [p]) -> (length (l ++ [p]) < fuel)%nat -> nth_error ks (Z.to_nat (len (l ++ [p]))) = Some k ->
    exists st', dcl_extract fuel st i = (st', Ret a) /\ ky (l_heap st') a = Some k /\ dcrep st' ((l ++ [p]) ++ l2) (del ks (len (l ++ [p]))).
  Proof.
    intros D Ej Hf Hk. assert (Es := dc_s _ _ _ D). rewrite len_app, len_cons in Es. assert (Hn := len_nonneg _ l2). assert (Hm : len (l ++ [p]) = len l + 1) by (rewrite len_app; reflexivity). assert (Hp := len_nonneg _ l).
    assert (ND := dc_nd _ _ _ D). destruct (dc_cell _ _ _ _ _ D) as (c & Ec & En & Ep). assert (Na := NoDup_remove_2 _ _ _ ND).
    assert (Hs : exists s, hd_error (l2 ++ l ++ [p]) = Some s /\ In s ((l ++ [p]) ++ l2)). { rewrite hd_app. destruct l2 as [|b l2]; [destruct l as [|b l]|]; eexists; (split; [reflexivity|]); rewrite ?in_app_iff; cbn; auto. }
    destruct Hs as (s & Hs & Is). assert (En' : c_next c = Some s). { rewrite En. rewrite <- Hs. destruct l2; [destruct l|]; reflexivity. }
    assert (Ep' : c_prev c = Some p). { rewrite Ep. rewrite last_error_cons by (destruct l2; [destruct l|]; discriminate). rewrite app_assoc, last_error_snoc. reflexivity. }
    assert (Nsa : (s =? a)%nat = false) by (apply eqb_ne; intros ->; exact (Na Is)).
    assert (Ka : ky (l_heap st) a = Some k). { assert (F := dc_k _ _ _ D). apply Forall2_app_inv_l in F as (k1 & k2 & F1 & F2 & ->). inversion F2 as [|? k0 ? k3 Hk0 F3]; subst. assert (L : length (l ++ [p]) = length k1) by (eapply Forall2_len; exact F1).
      unfold len in Hk. rewrite Nat2Z.id, L, nth_error_app2, Nat.sub_diag in Hk by lia. cbn in Hk. congruence. }
    unfold dcl_extract, dll_extract. rewrite Ej. destruct (Z.eqb_spec (l_size st) 0); [lia|]. destruct (Z.leb_spec (l_size st) (len (l ++ [p]))); [lia|].
    rewrite (walk_to_spec _ _ _ _ _ _ (r_fw _ _ _ _ (dc_crep _ _ _ D)) Hf), last_error_snoc. cbn [hd_or]. rewrite (deref_some _ _ _ Ec), En'.
    destruct (Z.eqb_spec (len (l ++ [p])) 0); [lia|]. cbn [l_heap l_head l_tail l_size]. set (h2 := set_prev _ _ _).
    assert (EP : match nth_error h2 a with Some c2 => c_prev c2 | None => None end = Some p).
    { assert (X : pv h2 a = Some (Some p)) by (unfold h2; rewrite pv_set_prev, Nsa, pv_set_next; unfold pv; rewrite Ec; cbn [option_map]; rewrite Ep'; reflexivity). unfold pv in X. destruct (nth_error h2 a); [|discriminate]. injection X as ->. reflexivity. }
    rewrite EP. assert (Hi0 : (i =? 0) = false) by (apply Z.eqb_neq; intros ->; cbn in Ej; lia). rewrite Hi0.
    assert (TL : (if len (l ++ [p]) =? l_size st - 1 then Some p else l_tail st) = last_error ((l ++ [p]) ++ l2)).
    { rewrite (dc_t _ _ _ D). destruct l2 as [|b l2].
      - rewrite len_nil in Es. destruct (Z.eqb_spec (len (l ++ [p])) (l_size st - 1)); [|lia]. rewrite app_nil_r, last_error_snoc. reflexivity.
      - rewrite len_cons in Es. assert (X := len_nonneg _ l2). destruct (Z.eqb_spec (len (l ++ [p])) (l_size st - 1)); [lia|]. rewrite !last_error_app by discriminate. rewrite last_error_cons by discriminate. reflexivity. }
    rewrite TL. destruct (last_some ((l ++ [p]) ++ l2)) as (t & ET); [destruct l; discriminate|]. rewrite ET. eexists. split; [reflexivity|]. cbn [l_heap]. split.
    - unfold h2. rewrite ky_set_prev, ky_set_next. exact Ka.
    - assert (EL : last_error (l2 ++ l ++ [p]) = Some p) by (rewrite app_assoc, last_error_snoc; reflexivity).
      assert (Inc : forall b, In b ((l ++ [p]) ++ l2) -> In b ((l ++ [p]) ++ a :: l2)) by (intros b; rewrite !in_app_iff; cbn; tauto).
      apply (dc_remove st (l ++ [p]) a l2 ks _ _ _ _ D); [destruct l; discriminate| | | | |symmetry; exact ET|reflexivity].
      + intros b Hb. rewrite EL, Hs, opt_eqb_some. unfold h2. rewrite nx_set_prev, nx_set_next. destruct (Nat.eqb_spec p b) as [<-|]; [|reflexivity]. apply Inc, in_split in Hb as (x & y & E). rewrite (dc_n _ _ _ D x p y E). reflexivity.
      + intros b Hb. rewrite EL, Hs, opt_eqb_some. unfold h2. rewrite pv_set_prev, pv_set_next. destruct (Nat.eqb_spec s b) as [<-|]; [|reflexivity]. apply Inc, in_split in Hb as (x & y & E). rewrite (dc_p _ _ _ D x s y E). reflexivity.
      + intros b Hb. unfold h2. rewrite ky_set_prev, ky_set_next. reflexivity.
      + rewrite (dc_h _ _ _ D). destruct l; reflexivity.
  Qed.
  Lemma dcl_ext_sim st ps ks i ks' r : dcrep st ps ks -> ((- len ks < i /\ i <> 0) \/ len ks <= 1) -> spec_extract ks i = Some (ks', r) ->
    exists st' ps', (let (s, x) := dcl_extract (S (S (length (l_heap st)))) st i in (s, out_node s x)) = (st', r) /\ dcrep st' ps' ks'.
  Proof.
    intros D Hi H. assert (R := dc_crep _ _ _ D). pose proof (rep_len _ _ _ _ R) as El. pose proof (r_size _ _ _ _ R) as Es. pose proof (len_nonneg _ ks) as Hn.
    unfold spec_extract in H. remember (if i <? 0 then len ks + i else i) as j eqn:Ej. symmetry in Ej.
    destruct (Z.eqb_spec (len ks) 0).
    { injection H as <- <-. exists st, ps. unfold dcl_extract, dll_extract. rewrite Es, El. destruct (Z.eqb_spec (len ks) 0); [auto|lia]. }
    destruct (Z.leb_spec (len ks) j).
    { injection H as <- <-. exists st, ps. unfold dcl_extract, dll_extract. rewrite Es, El. destruct (Z.eqb_spec (len ks) 0); [lia|].
      destruct (Z.leb_spec (len ks) (if i <? 0 then len ks + i else i)); [auto|lia]. }
    destruct (Z.ltb_spec j 0); [discriminate|].
    destruct (split_elem _ _ _ _ j R) as (l1 & a & l2 & k & -> & Hl & Hk & Hka & Hlt); [lia|]. rewrite Hk in H. injection H as <- <-.
    pose proof (rep_size_heap _ _ _ _ R) as Hh. destruct (list_snoc_case _ l1) as [->|(l & p & ->)].
    - cbn [app] in *. rewrite len_nil in Hl. rewrite <- Hl in *. assert (L1 : len ks = 1) by (destruct (Z.ltb_spec i 0); lia). rewrite len_cons in El. destruct l2 as [|b l2]; [|rewrite len_cons in El; pose proof (len_nonneg _ l2); lia].
      destruct (dc_cell _ [] a [] _ D) as (c & Ec & En & Ep). cbn [app hd_error] in En. unfold dcl_extract, dll_extract. rewrite Es, len_cons, El, Ej, L1. change (1 =? 0) with false. change (1 <=? 0) with false. cbv iota. rewrite (dc_h _ _ _ D). rewrite walk_zero. cbn [hd_error]. rewrite (deref_some _ _ _ Ec), En.
      change (0 =? 1 - 1) with true. change (0 =? 0) with true. cbv iota. cbn [l_heap l_head l_tail l_size].
      assert (EP : match nth_error (set_prev (l_heap st) a None) a with Some c2 => c_prev c2 | None => None end = None).
      { assert (X : pv (set_prev (l_heap st) a None) a = Some None) by (rewrite pv_set_prev, Nat.eqb_refl; unfold pv; rewrite Ec; reflexivity). unfold pv in X. destruct (nth_error (set_prev (l_heap st) a None) a); [|reflexivity]. injection X as ->. reflexivity. }
      rewrite EP. eexists; exists []. split; [f_equal; unfold out_node; cbn [l_heap]; rewrite ky_set_prev; unfold ky in Hka |- *; rewrite Hka; reflexivity|].
      replace (del ks 0) with (@nil K); [constructor; cbn; try reflexivity; try constructor; intros [|? ?] ? ? E; discriminate E|].
      destruct ks as [|k0 [|k1 ks]]; [reflexivity|reflexivity|]. rewrite !len_cons in L1. pose proof (len_nonneg _ ks). lia.
    - rewrite <- Hl in Hk. destruct (dcl_ext_mid (S (S (length (l_heap st)))) st l p a l2 ks i k D) as (st' & E & K' & D'); [rewrite Es, El, Hl; exact Ej|lia|exact Hk|].
      rewrite E. exists st', ((l ++ [p]) ++ l2). split; [unfold out_node; rewrite K'; reflexivity|]. rewrite <- Hl. exact D'.
  Qed.

  (** the restriction: no index equal to (or below) -len on a non-empty list for insert_at, and the first of several elements is not extracted *)
  Definition dcirc_ok (l : list K) (o : lop K) : Prop :=
    match o with
    | LInsertAt i _ => - len l < i \/ len l = 0
    | LExtract i => (- len l < i /\ i <> 0) \/ len l <= 1
    | LPopLeft => len l <= 1
    | _ => True
    end.
  Lemma dcl_op_sim st ps ks o ks' r : dcrep st ps ks -> dcirc_ok ks o -> spec_op ks o = Some (ks', r) ->
    exists st' ps', cls_op DCL st o = (st', r) /\ dcrep st' ps' ks'.
  Proof.
    intros D Ho H. assert (R := dc_crep _ _ _ D). pose proof (rep_len _ _ _ _ R) as El. pose proof (r_size _ _ _ _ R) as Es. pose proof (len_nonneg _ ks) as Hn.
    assert (REL : forall i d k (f : ll K -> nat -> K -> ll K * res unit),
      (forall l1 a l2, ps = l1 ++ a :: l2 -> exists st' ps', f st a k = (st', Ret tt) /\ dcrep st' ps' (ins ks (len l1 + d) k)) ->
      spec_insert_rel ks i d k = Some (ks', r) -> exists st' ps', with_node (S (S (length (l_heap st)))) st i (fun a => f st a k) = (st', r) /\ dcrep st' ps' ks').
    { intros i d k f HF HR. unfold spec_insert_rel in HR. unfold with_node.
      destruct (Z.leb_spec (len ks) (if i <? 0 then len ks + i else i)).
      { inversion HR; subst. erewrite getitem_err by eauto. eauto. }
      destruct (Z.ltb_spec (if i <? 0 then len ks + i else i) 0); [discriminate|].
      destruct (split_elem _ _ _ _ (if i <? 0 then len ks + i else i) R) as (l1 & a & l2 & k' & E & Hl & Hk & Hka & Hlt); [lia|].
      pose proof (rep_size_heap _ _ _ _ R) as Hh. destruct (HF _ _ _ E) as (st' & ps' & E' & D'). injection HR as <- <-. exists st', ps'. split; [|rewrite <- Hl; exact D'].
      rewrite (getitem_spec _ st l1 a l2 (hd_error (l1 ++ a :: l2)) ks); [rewrite E'; reflexivity|rewrite <- E; exact R|rewrite Es, El; symmetry; exact Hl|lia]. }
    destruct o as [i k|i k|i k|i|k|k| | |i]; cbn [spec_op cls_op DCL k_insert_at k_insert_after k_insert_before k_extract dcirc_ok] in *.
    - eapply dcl_ins_sim; eauto.
    - eapply (REL i 1 k dcl_insert_after); [|exact H]. intros l1 a l2 ->. destruct (dcl_after_spec _ _ _ _ _ k D) as (st' & E & D'). eauto.
    - eapply (REL i 0 k dcl_insert_before); [|exact H]. intros l1 a l2 ->. destruct (dcl_before_spec _ _ _ _ _ k D) as (st' & E & D'). rewrite Z.add_0_r. eauto.
    - eapply dcl_ext_sim; eauto.
    - eapply dcl_ins_sim; [exact D|rewrite Es, El; lia|]. rewrite Es, El. inversion H; subst.
      unfold spec_insert. replace ((len ks =? 0) && (len ks =? -1)) with false by (destruct (Z.eqb_spec (len ks) (-1)); [lia|rewrite andb_false_r; reflexivity]).
      destruct (Z.ltb_spec (len ks) 0); [lia|]. rewrite Z.ltb_irrefl. destruct (Z.ltb_spec (len ks) 0); [lia|].
      unfold ins, len. rewrite Nat2Z.id, firstn_all, skipn_all. reflexivity.
    - eapply dcl_ins_sim; [exact D|lia|]. inversion H; subst. unfold spec_insert.
      rewrite andb_false_r. cbn. destruct (Z.ltb_spec (len ks) 0); [lia|]. reflexivity.
    - eapply dcl_ext_sim; [exact D| |exact H]. right. exact Ho.
    - eapply dcl_ext_sim; [exact D| |exact H]. lia.
    - destruct (get_sim _ _ _ _ _ _ _ R H) as [-> E]. rewrite E. eauto.
  Qed.
  Lemma dcl_run_sim ops : forall st ps ks ks' rs, dcrep st ps ks -> hist_ok dcirc_ok ops ks -> spec_ops ops ks = Some (ks', rs) ->
    exists st' ps', cls_run DCL ops st = (st', rs) /\ dcrep st' ps' ks'.
  Proof.
    induction ops as [|o ops IH]; intros st ps ks ks' rs R Ho H; cbn [hist_ok spec_ops cls_run] in *.
    - inversion H; subst. eauto.
    - destruct Ho as [Ho1 Ho2]. destruct (spec_op ks o) as [[l1 r]|] eqn:E1; [|discriminate].
      destruct (spec_ops ops l1) as [[l2 rs']|] eqn:E2; [|discriminate]. inversion H; subst.
      destruct (dcl_op_sim _ _ _ _ _ _ R Ho1 E1) as (s1 & p1 & -> & R1).
      destruct (IH _ _ _ _ _ R1 Ho2 E2) as (s2 & p2 & -> & R2). eauto.
  Qed.
  (** circular in both directions: the shape seen by following [next], and following [prev] from the tail meets the same nodes in the opposite order,
      the head's [prev] being the tail *)
  Definition circular_both (st : ll K) (ks : list K) : Prop :=
    circular_shape st ks /\
    follow c_prev (length ks) (l_heap st) (l_tail st) = rev (follow c_next (length ks) (l_heap st) (l_head st)) /\
    match l_head st, l_tail st with Some hd, Some tl => pv (l_heap st) hd = Some (Some tl) | _, _ => True end.
  Lemma dcrep_shape st ps ks : dcrep st ps ks -> circular_both st ks.
  Proof.
    intros D. assert (R := dc_crep _ _ _ D). pose proof (rep_len _ _ _ _ R) as El. assert (El' : length ps = length ks) by (unfold len in El; lia).
    split; [eapply crep_shape; exact R|]. split.
    - assert (EF := follow_chain c_next (l_heap st) ps _ _ ks (r_fw _ _ _ _ R) (r_keys _ _ _ _ R)). rewrite El' in EF. rewrite EF.
      assert (C : chain (pv (l_heap st)) (hd_error (rev ps)) (rev ps) (hd_error (rev ps))) by (apply ring_chain, ringb_rev, (dc_p _ _ _ D)).
      assert (F : Forall2 (fun a k => ky (l_heap st) a = Some k) (rev ps) (rev ks)).
      { assert (F := dc_k _ _ _ D). clear -F. induction F as [|a k ps ks H F IH]; [constructor|]. cbn [rev]. apply Forall2_app; [exact IH|]. constructor; [exact H|constructor]. }
      assert (EB := follow_chain c_prev (l_heap st) (rev ps) _ _ (rev ks) C F). rewrite rev_length, El' in EB. rewrite (dc_t _ _ _ D). unfold last_error. rewrite EB.
      clear -El'. revert ks El'. induction ps as [|a ps IH]; intros [|k ks] E; try discriminate E; [reflexivity|]. injection E as E. cbn [rev combine]. rewrite <- (IH ks E).
      assert (G : forall (x : list nat) (y : list K), length x = length y -> combine (x ++ [a]) (y ++ [k]) = combine x y ++ [(a, k)]). { induction x as [|x0 x IHx]; intros [|y0 y] L; try discriminate L; [reflexivity|]. cbn [app combine]. f_equal. apply IHx. injection L. auto. }
      apply G. rewrite !rev_length. exact E.
    - rewrite (dc_h _ _ _ D), (dc_t _ _ _ D). destruct ps as [|a ps]; [exact I|]. destruct (last_some (a :: ps)) as (t & E); [discriminate|]. rewrite E. cbn [hd_error]. rewrite (dc_p _ _ _ D [] a ps eq_refl). rewrite app_nil_r, E. reflexivity.
  Qed.
  Lemma dcl_history ops ks rs : hist_ok dcirc_ok ops [] -> spec_ops ops [] = Some (ks, rs) ->
    exists st, cls_run DCL ops (ll_new K) = (st, rs) /\ circular_both st ks.
  Proof.
    intros Ho H. destruct (dcl_run_sim ops (ll_new K) [] _ _ _ dc_new Ho H) as (st & ps & E & R). exists st. split; [exact E|]. eapply dcrep_shape; eauto.
  Qed.
End Double.
