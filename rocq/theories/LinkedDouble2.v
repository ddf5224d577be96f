(** C13, C129: DoublyCircularLinkedList when the first of several elements may be extracted: only the head's back link can be missing. *)
From Verif Require Import Base LinkedModel ArraysProofs LinkedProofs LinkedCircular LinkedDouble.

Section Sim.
  Context {K : Type}.
  Notation heap := (list (cell K)).
  (** the same cells but for the back link of [x] *)
  Record hsim (x : option nat) (h h' : heap) : Prop := { hs_l : length h = length h'; hs_n : forall b, nx h b = nx h' b; hs_k : forall b, ky h b = ky h' b; hs_p : forall b, Some b <> x -> pv h b = pv h' b }.
  Record sim (st st' : ll K) : Prop := { sm_h : l_head st = l_head st'; sm_t : l_tail st = l_tail st'; sm_s : l_size st = l_size st'; sm_c : hsim (l_head st) (l_heap st) (l_heap st') }.
  Lemma hs_none x h h' : hsim None h h' -> hsim x h h'.
  Proof. intros [A B C D]. constructor; auto. intros b _. apply D. discriminate. Qed.
  Lemma set_next_len (h : heap) a q : length (set_next h a q) = length h.
  Proof. unfold set_next. destruct (nth_error h a); [apply length_upd|reflexivity]. Qed.
  Lemma set_prev_len (h : heap) a q : length (set_prev h a q) = length h.
  Proof. unfold set_prev. destruct (nth_error h a); [apply length_upd|reflexivity]. Qed.
  Lemma hs_set_next x h h' a q : hsim x h h' -> hsim x (set_next h a q) (set_next h' a q).
  Proof. intros [A B C D]. constructor; [rewrite !set_next_len; exact A| | |]; intros b; rewrite ?nx_set_next, ?ky_set_next, ?pv_set_next, ?B; auto. Qed.
  Lemma hs_set_prev x h h' a q : hsim x h h' -> hsim x (set_prev h a q) (set_prev h' a q).
  Proof.
    intros [A B C D]. constructor; [rewrite !set_prev_len; exact A| | |]; intros b; rewrite ?nx_set_prev, ?ky_set_prev, ?pv_set_prev; auto.
    intros Hb. rewrite (D b Hb). reflexivity.
  Qed.
  Lemma nx_pv (h h' : heap) b (q : option nat) : nx h b = nx h' b -> option_map (fun _ : option nat => q) (pv h b) = option_map (fun _ : option nat => q) (pv h' b).
  Proof. unfold nx, pv. destruct (nth_error h b), (nth_error h' b); cbn; intros X; try discriminate X; reflexivity. Qed.
  Lemma hs_heal a h h' q : hsim (Some a) h h' -> hsim None (set_prev h a q) (set_prev h' a q).
  Proof.
    intros [A B C D]. constructor; [rewrite !set_prev_len; exact A| | |]; intros b; rewrite ?nx_set_prev, ?ky_set_prev, ?pv_set_prev; auto.
    intros _. destruct (Nat.eqb_spec a b) as [<-|N]; [apply nx_pv, B|apply D; congruence].
  Qed.
  Lemma hs_app x h h' c : hsim x h h' -> hsim x (h ++ [c]) (h' ++ [c]).
  Proof. intros [A B C D]. constructor; [rewrite !app_length, A; reflexivity| | |]; intros b; rewrite ?nx_new, ?ky_new, ?pv_new, A; [rewrite B|rewrite C|intros Hb; rewrite (D b Hb)]; reflexivity. Qed.
  Lemma hs_deref x h h' p : hsim x h h' -> (exists c c', deref h p = Ret c /\ deref h' p = Ret c' /\ c_next c = c_next c' /\ c_key c = c_key c' /\ (p <> x -> c_prev c = c_prev c')) \/ (deref h p = Raise AttributeError /\ deref h' p = Raise AttributeError).
  Proof.
    intros [A B C D]. destruct p as [a|]; [|right; split; reflexivity]. cbn [deref]. specialize (B a). specialize (C a). specialize (D a). unfold nx, ky, pv in *.
    destruct (nth_error h a) as [c|], (nth_error h' a) as [c'|]; cbn in *; try discriminate B; [left|right; split; reflexivity].
    exists c, c'. repeat apply conj; try reflexivity; try congruence. intros Hx. specialize (D Hx). congruence.
  Qed.
  Lemma hs_walk x h h' : hsim x h h' -> forall fuel p i, walk_to fuel h p i = walk_to fuel h' p i.
  Proof.
    intros H fuel p i. unfold walk_to. generalize (0, @None nat, p). induction fuel as [|fuel IH]; intros [[c pr] cu]; [reflexivity|]. cbn [while_loop].
    destruct (c =? i); [reflexivity|]. destruct (hs_deref x h h' cu H) as [(d & d' & E & E' & N & _)|(E & E')]; rewrite E, E'; cbn [bind]; [|reflexivity]. rewrite N. apply IH.
  Qed.
  Lemma walk_prev (h : heap) i : forall fuel c pr cu pr' cu', (pr <> None \/ c <> i) ->
    while_loop fuel (fun '(counter, prev, cur) => if counter =? i then Ret (Break (prev, cur)) else c <- deref h cur ;; Ret (Next (counter + 1, cur, c_next c))) (c, pr, cu) = Ret (pr', cu') -> pr' <> None.
  Proof.
    induction fuel as [|fuel IH]; intros c pr cu pr' cu' H E; [discriminate|]. cbn [while_loop] in E. destruct (Z.eqb_spec c i) as [->|Hc]; [injection E as -> ->; tauto|].
    destruct cu as [a|]; [|discriminate]. destruct (deref h (Some a)); cbn [bind] in E; try discriminate. eapply IH; [|exact E]. left. discriminate.
  Qed.
  Lemma walk_first fuel (h : heap) p i cu : walk_to fuel h p i = Ret (None, cu) -> cu = p.
  Proof.
    unfold walk_to. destruct fuel as [|fuel]; [discriminate|]. intros E. destruct (Z.eqb_spec 0 i) as [<-|N]; [cbn in E; congruence|].
    exfalso. eapply walk_prev in E; [|right; exact N]. congruence.
  Qed.
  Definition psim {X} (a b : ll K * res X) : Prop := snd a = snd b /\ sim (fst a) (fst b).
  Lemma mk_sim h h' hd tl sz : hsim hd h h' -> sim (LL h hd tl sz) (LL h' hd tl sz).
  Proof. intros H. constructor; auto. Qed.

  Lemma dll_at_sim fuel st st' i k : (l_size st = 0 -> l_head st = None) -> sim st st' -> psim (dll_insert_at fuel st i k) (dll_insert_at fuel st' i k).
  Proof.
    intros H0 S. pose proof S as [Eh Et Es C]. unfold dll_insert_at. rewrite <- Eh, <- Et, <- Es, <- (hs_l _ _ _ C).
    destruct (l_size st <? _); [split; [reflexivity|exact S]|]. cbv zeta. pose proof (hs_app _ _ _ (Cell k None None) C) as C1.
    destruct (Z.eqb_spec (l_size st + 1) 1) as [E1|E1].
    { split; [reflexivity|]. apply mk_sim. rewrite H0 in C1 by lia. apply hs_none. exact C1. }
    destruct (_ =? l_size st + 1 - 1).
    { destruct (l_tail st) as [t|]; [|split; [reflexivity|]; apply mk_sim; exact C1].
      destruct (hs_deref _ _ _ (Some t) C1) as [(d & d' & E & E' & N & _)|(E & E')]; rewrite E, E'; [|split; [reflexivity|]; apply mk_sim; exact C1].
      split; [reflexivity|]. apply mk_sim. rewrite N. apply hs_set_next, hs_set_next, hs_set_prev. exact C1. }
    rewrite (hs_walk _ _ _ C1). destruct (walk_to fuel (l_heap st' ++ _) _ _) as [[pr cu]|e|] eqn:EW; try (split; [reflexivity|]; apply mk_sim; exact C1).
    split; [reflexivity|]. cbn [fst]. apply mk_sim. destruct pr as [p|].
    - destruct cu; repeat first [apply hs_set_prev|apply hs_set_next]; exact C1.
    - apply walk_first in EW. subst cu. apply hs_none. destruct (l_head st) as [a|]; [apply hs_heal|]; repeat first [apply hs_set_prev|apply hs_set_next]; exact C1.
  Qed.
  Lemma getitem_sim fuel st st' i : sim st st' -> ll_getitem fuel st i = ll_getitem fuel st' i.
  Proof. intros [Eh Et Es C]. unfold ll_getitem. rewrite <- Eh, <- Es. rewrite (hs_walk _ _ _ C). reflexivity. Qed.
  Lemma dcl_at_sim fuel st st' i k : (l_size st = 0 -> l_head st = None) -> sim st st' -> psim (dcl_insert_at fuel st i k) (dcl_insert_at fuel st' i k).
  Proof.
    intros H0 S. unfold dcl_insert_at. destruct (dll_at_sim fuel st st' i k H0 S) as [ER S1].
    destruct (dll_insert_at fuel st i k) as [s1 r1], (dll_insert_at fuel st' i k) as [s1' r1']. cbn [fst snd] in ER, S1. subst r1'. destruct r1 as [u|e|]; [|split; [reflexivity|exact S1]..].
    cbv zeta. set (s2 := if l_size s1 =? 1 then _ else s1). set (s2' := if l_size s1' =? 1 then _ else s1').
    assert (S2 : sim s2 s2').
    { pose proof S1 as [Eh Et Es C]. unfold s2, s2'. rewrite <- Eh, <- Et, <- Es. destruct (l_size s1 =? 1); [|exact S1]. apply mk_sim. destruct (l_head s1); [|exact C]. apply hs_set_prev, hs_set_next. exact C. }
    clearbody s2 s2'. rewrite (getitem_sim _ _ _ _ S2). destruct (ll_getitem fuel s2' i) as [[n|]|e|]; try (split; [reflexivity|exact S2]).
    set (s3 := if i =? 0 then _ else s2). set (s3' := if i =? 0 then _ else s2').
    assert (S3 : sim s3 s3').
    { pose proof S2 as [Eh Et Es C]. unfold s3, s3'. rewrite <- Eh, <- Et, <- Es. destruct (i =? 0); [|exact S2]. apply mk_sim. destruct (l_tail s2); repeat first [apply hs_set_prev|apply hs_set_next]; exact C. }
    clearbody s3 s3'. pose proof S3 as [Eh Et Es C]. destruct (hs_deref _ _ _ (Some n) C) as [(d & d' & E & E' & N & _)|(E & E')]; rewrite E, E'; [|split; [reflexivity|exact S3]].
    split; [reflexivity|]. cbn [fst]. rewrite N, <- Eh, <- Es. destruct (opt_eqb _ _); [|exact S3]. apply mk_sim. destruct (l_head s3); [|exact C]. apply hs_set_prev, hs_set_next. exact C.
  Qed.
  Lemma dcl_after_sim st st' p k : sim st st' -> psim (dcl_insert_after st p k) (dcl_insert_after st' p k).
  Proof.
    intros S. pose proof S as [Eh Et Es C]. unfold dcl_insert_after, dll_insert_after. rewrite <- Eh, <- Et, <- Es, <- (hs_l _ _ _ C). pose proof (hs_app _ _ _ (Cell k None None) C) as C1.
    destruct (hs_deref _ _ _ (Some p) C1) as [(d & d' & E & E' & N & _)|(E & E')]; rewrite E, E'; [|split; [reflexivity|apply mk_sim; exact C1]]. rewrite <- N.
    match goal with |- context [LL ?h (l_head st) (match c_next d with _ => _ end) (l_size st + 1)] => set (H := h) end.
    match goal with |- psim (match deref (l_heap (LL H _ _ _)) _ with _ => _ end) (match deref (l_heap (LL ?h _ _ _)) _ with _ => _ end) => set (H' := h) end.
    assert (C2 : hsim (l_head st) H H') by (unfold H, H'; destruct (c_next d); repeat first [apply hs_set_prev|apply hs_set_next]; exact C1).
    cbn [l_heap l_head l_tail l_size]. destruct (hs_deref _ _ _ (Some (length (l_heap st))) C2) as [(g & g' & F & F' & M & _)|(F & F')]; rewrite F, F'; [|split; [reflexivity|apply mk_sim; exact C2]].
    split; [reflexivity|]. cbn [fst]. rewrite <- M. destruct (opt_eqb _ _); apply mk_sim; exact C2.
  Qed.
  Lemma dcl_before_sim st st' n k : Some n <> l_head st -> (forall c, nth_error (l_heap st') n = Some c -> c_prev c <> None) -> n <> length (l_heap st) -> sim st st' -> psim (dcl_insert_before st n k) (dcl_insert_before st' n k).
  Proof.
    intros Hn Hp Hl S. pose proof S as [Eh Et Es C]. unfold dcl_insert_before, dll_insert_before. rewrite <- Eh, <- Et, <- Es, <- (hs_l _ _ _ C). pose proof (hs_app _ _ _ (Cell k None None) C) as C1.
    destruct (hs_deref _ _ _ (Some n) C1) as [(d & d' & E & E' & N & _ & P)|(E & E')]; rewrite E, E'; [|split; [reflexivity|apply mk_sim; exact C1]]. specialize (P Hn). rewrite <- P.
    destruct (c_prev d) as [q|] eqn:Ep.
    - cbn [l_head]. assert (X : opt_eqb (Some n) (l_head st) = false). { destruct (l_head st) as [a|]; [|reflexivity]. cbn. apply Nat.eqb_neq. congruence. } rewrite X. split; [reflexivity|]. apply mk_sim. repeat first [apply hs_set_prev|apply hs_set_next]; exact C1.
    - exfalso. cbn [deref] in E'. destruct (nth_error (l_heap st' ++ _) n) as [c|] eqn:EN; [|discriminate]. injection E' as <-.
      destruct (Nat.lt_ge_cases n (length (l_heap st'))); [rewrite nth_error_app1 in EN by assumption; apply (Hp _ EN); congruence|].
      assert (n < length (l_heap st' ++ [Cell k None None]))%nat by (apply nth_error_Some; congruence). rewrite app_length in *. cbn [length] in *. rewrite (hs_l _ _ _ C) in Hl. lia.
  Qed.
  Lemma dcl_ext_sim2 fuel st st' i : i <> 0 -> (forall pr cu, walk_to fuel (l_heap st') (l_head st') (if i <? 0 then l_size st' + i else i) = Ret (pr, cu) -> cu <> l_head st' /\ pr <> None /\ forall a c, cu = Some a -> nth_error (l_heap st') a = Some c -> c_prev c <> None) -> l_tail st' <> None -> sim st st' -> psim (dcl_extract fuel st i) (dcl_extract fuel st' i).
  Proof.
    intros Hi HW HT S. pose proof S as [Eh Et Es C]. unfold dcl_extract, dll_extract. rewrite <- Eh, <- Et, <- Es in *. rewrite (hs_walk _ _ _ C).
    destruct (_ =? 0); [split; [reflexivity|exact S]|]. destruct (_ <=? _); [split; [reflexivity|exact S]|].
    destruct (walk_to _ (l_heap st') _ _) as [[pr cu]|e|] eqn:EW; [|split; [reflexivity|apply mk_sim; exact C]..]. destruct (HW _ _ eq_refl) as (Hc & Hpr & Hpv). destruct cu as [a|]; [|split; [reflexivity|apply mk_sim; exact C]].
    destruct (hs_deref _ _ _ (Some a) C) as [(d & d' & E & E' & N & _)|(E & E')]; rewrite E, E'; [|split; [reflexivity|apply mk_sim; exact C]]. rewrite <- N.
    set (H := match c_next d with Some n => set_prev (match pr with Some p => set_next (l_heap st) p (c_next d) | None => l_heap st end) n pr | None => _ end).
    set (H' := match c_next d with Some n => set_prev (match pr with Some p => set_next (l_heap st') p (c_next d) | None => l_heap st' end) n pr | None => _ end).
    assert (C2 : hsim (l_head st) H H') by (unfold H, H'; destruct (c_next d), pr; repeat first [apply hs_set_prev|apply hs_set_next]; exact C).
    assert (T : match nth_error H a with Some c2 => c_prev c2 | None => None end = match nth_error H' a with Some c2 => c_prev c2 | None => None end).
    { pose proof (hs_p _ _ _ C2 a Hc) as X. unfold pv in X. destruct (nth_error H a), (nth_error H' a); cbn in X; try discriminate X; [congruence|reflexivity]. }
    rewrite T. destruct (Z.eqb_spec i 0); [contradiction|].
    assert (I0 : (if i <? 0 then l_size st + i else i) <> 0).
    { intros X. rewrite X in EW. destruct fuel; [discriminate|]. cbn in EW. congruence. }
    destruct (Z.eqb_spec (if i <? 0 then l_size st + i else i) 0); [contradiction|]. cbn [l_tail l_heap l_head l_size].
    assert (TN : match nth_error H' a with Some c2 => c_prev c2 | None => None end <> None).
    { intros X. assert (Y : exists c, nth_error (l_heap st') a = Some c) by (cbn [deref] in E'; destruct (nth_error (l_heap st') a) as [c|]; [eauto|discriminate]). destruct Y as (c & Y). pose proof (Hpv a c eq_refl Y) as Hc2.
      assert (P : pv H' a = Some (c_prev c) \/ pv H' a = Some pr).
      { unfold H'. destruct (c_next d) as [nn|], pr as [p|]; rewrite ?pv_set_prev, ?pv_set_next; unfold pv; rewrite Y; cbn [option_map]; try destruct (_ =? a)%nat; auto. }
      unfold pv in P. destruct (nth_error H' a) as [c2|]; cbn in P; [|destruct P; discriminate]. destruct P as [P|P]; injection P as P; congruence. }
    clearbody H H'. destruct (if _ =? l_size st - 1 then _ else _) as [t|] eqn:ET; (split; [reflexivity|]); cbn [fst]; [apply mk_sim; exact C2|].
    exfalso. destruct (_ =? l_size st - 1); congruence.
  Qed.

  Lemma sim_refl st : sim st st.
  Proof. constructor; auto. constructor; auto. Qed.
  Definition weak (st : ll K) (ks : list K) : Prop := exists st' ps, sim st st' /\ dcrep st' ps ks.
  Lemma dc_nil h : dcrep (LL h None None 0) [] (@nil K).
  Proof. constructor; cbn; try reflexivity; try constructor; intros [|? ?] ? ? E; discriminate E. Qed.
  (** extract(0) of a non-empty list *)
  Lemma weak_pop st k ks fuel i : i = 0 \/ (i = -1 /\ ks = []) -> weak st (k :: ks) -> exists st', (let (s, x) := dcl_extract (S fuel) st i in (s, out_node s x)) = (st', LKey k) /\ weak st' ks.
  Proof.
    intros Hi (st' & ps & S & D). pose proof S as [Eh Et Es C]. pose proof (dc_k _ _ _ D) as F. destruct ps as [|p0 ps]; [inversion F|]. inversion F as [|? ? ? ? Hk0 F']; subst.
    destruct (dc_cell _ [] p0 ps _ D) as (c' & Ec' & En' & Ep'). cbn [app] in En', Ep'.
    pose proof (dc_h _ _ _ D) as Hh. cbn [hd_error] in Hh. pose proof (dc_s _ _ _ D) as Hs. rewrite len_cons in Hs. pose proof (len_nonneg _ ps) as Hn.
    rewrite <- Eh in Hh. rewrite <- Es in Hs. rewrite <- (hs_k _ _ _ C) in Hk0.
    destruct (hs_deref _ _ _ (Some p0) C) as [(c & c2 & E & E' & N & _)|(E & E')]; [|cbn [deref] in E'; rewrite Ec' in E'; discriminate].
    assert (c2 = c') by (cbn [deref] in E'; rewrite Ec' in E'; congruence). subst c2. rewrite En' in N.
    assert (Hj : (if i <? 0 then l_size st + i else i) = 0). { destruct Hi as [->|(-> & ->)]; [reflexivity|]. inversion F'; subst. rewrite len_nil in Hs. cbn [Z.ltb Z.compare]. lia. }
    unfold dcl_extract, dll_extract. destruct (Z.eqb_spec (l_size st) 0); [lia|]. rewrite Hj. destruct (Z.leb_spec (l_size st) 0); [lia|]. rewrite Hh.
    rewrite walk_zero, E, N. change (0 =? 0) with true. cbv iota.
    destruct ps as [|p1 ps].
    - inversion F'; subst. cbn [app hd_error]. rewrite len_nil in Hs. rewrite Hs. change (0 =? 0 + 1 - 1) with true. cbv iota.
      assert (EP : match nth_error (set_prev (l_heap st) p0 None) p0 with Some c2 => c_prev c2 | None => None end = None).
      { assert (X : pv (set_prev (l_heap st) p0 None) p0 = Some None). { rewrite pv_set_prev, Nat.eqb_refl. unfold pv. cbn [deref] in E. destruct (nth_error (l_heap st) p0); [reflexivity|discriminate]. } unfold pv in X. destruct (nth_error (set_prev (l_heap st) p0 None) p0); [|reflexivity]. injection X as ->. reflexivity. }
      cbn [l_tail l_heap l_head l_size]. rewrite EP. eexists. split; [f_equal; unfold out_node; cbn [l_heap]; rewrite ky_set_prev, Hk0; reflexivity|].
      exists (LL (set_prev (l_heap st) p0 None) None None 0), []. split; [apply sim_refl|apply dc_nil].
    - rewrite len_cons in Hs. pose proof (len_nonneg _ ps) as Hn2. destruct (Z.eqb_spec 0 (l_size st - 1)); [lia|]. cbn [app hd_error l_tail l_heap l_head l_size].
      destruct Hi as [->|(_ & ->)]; [|inversion F']. change (0 =? 0) with true. cbv iota.
      destruct (last_some (p1 :: ps)) as (t & ET); [discriminate|]. pose proof (dc_t _ _ _ D) as Ht. rewrite last_error_cons in Ht by discriminate. rewrite ET, <- Et in Ht. rewrite Ht.
      eexists. split; [f_equal; unfold out_node; cbn [l_heap]; rewrite ky_set_next, ky_set_prev, Hk0; reflexivity|].
      exists (LL (set_next (set_prev (l_heap st) p1 (Some t)) t (Some p1)) (Some p1) (Some t) (l_size st - 1)), (p1 :: ps). split.
      + apply mk_sim. constructor; [rewrite !set_next_len, !set_prev_len; reflexivity| | |]; intros b; rewrite ?nx_set_next, ?nx_set_prev, ?ky_set_next, ?ky_set_prev, ?pv_set_next, ?pv_set_prev; try reflexivity.
        intros Hb. destruct (Nat.eqb_spec p1 b); [congruence|reflexivity].
      + assert (ND := dc_nd _ _ _ D). assert (NP : forall b, In b (p1 :: ps) -> Some b <> l_head st) by (intros b Hb X; rewrite Hh in X; injection X as ->; inversion ND; contradiction).
        apply (dc_remove st' [] p0 (p1 :: ps) (k :: ks) _ _ _ _ D); rewrite ?app_nil_r; cbn [app hd_error]; [discriminate| | | |reflexivity|symmetry; exact ET|congruence].
        * intros b Hb. rewrite ET, opt_eqb_some, nx_set_next, nx_set_prev, (hs_n _ _ _ C). destruct (Nat.eqb_spec t b) as [<-|]; [|reflexivity]. apply in_split in Hb as (x & y & Exy). rewrite (dc_n _ _ _ D (p0 :: x) t y) by (rewrite Exy; reflexivity). reflexivity.
        * intros b Hb. rewrite ET, opt_eqb_some, pv_set_next, pv_set_prev. rewrite (hs_p _ _ _ C b (NP b Hb)). destruct (Nat.eqb_spec p1 b) as [<-|]; [|reflexivity]. apply in_split in Hb as (x & y & Exy). rewrite (dc_p _ _ _ D (p0 :: x) p1 y) by (rewrite Exy; reflexivity). reflexivity.
        * intros b Hb. rewrite ky_set_next, ky_set_prev. apply (hs_k _ _ _ C).
  Qed.
  (** the calls allowed: no index equal to (or below) -len for insert_at and extract on several elements, and nothing is inserted before the first node *)
  Definition dfwd_ok (l : list K) (o : lop K) : Prop :=
    match o with
    | LInsertAt i _ => - len l < i \/ len l = 0
    | LExtract i => - len l < i \/ len l <= 1
    | LInsertBefore i _ => i <> 0 /\ i <> - len l
    | _ => True
    end.
  Lemma weak_op st ks o ks' r : weak st ks -> dfwd_ok ks o -> spec_op ks o = Some (ks', r) -> exists st', cls_op DCL st o = (st', r) /\ weak st' ks'.
  Proof.
    intros W Ho H.
    assert (SP : forall i k, ks = [k] -> i = -1 -> spec_extract ks i = Some ([], LKey k)) by (intros i k -> ->; reflexivity).
    assert (NXT : (exists i, (i = 0 \/ (i = -1 /\ exists k, ks = [k])) /\ cls_op DCL st o = (let (s, x) := dcl_extract (S (S (length (l_heap st)))) st i in (s, out_node s x)) /\ spec_op ks o = spec_extract ks i) \/
       (o <> LPopLeft /\ o <> LExtract 0 /\ (len ks = 1 -> o <> LPopRight /\ o <> LExtract (-1)))).
    { destruct o as [i k|i k|i k|i|k|k| | |i]; try (right; split; [discriminate|split; [discriminate|intros _; split; discriminate]]).
      - destruct (Z.eq_dec i 0) as [->|Hi]; [left; exists 0; auto|]. destruct (Z.eq_dec i (-1)) as [->|Hi1]; [|right; split; [discriminate|split; [congruence|intros _; split; congruence]]].
        destruct ks as [|k [|k1 ks]]; [right; split; [discriminate|split; [discriminate|intros X; vm_compute in X; discriminate X]]|left; exists (-1); split; [right; eauto|auto]|right; split; [discriminate|split; [discriminate|rewrite !len_cons; pose proof (len_nonneg _ ks); lia]]].
      - left. exists 0. auto.
      - destruct ks as [|k [|k1 ks]]; [right; split; [discriminate|split; [discriminate|intros X; vm_compute in X; discriminate X]]|left; exists (-1); split; [right; eauto|auto]|right; split; [discriminate|split; [discriminate|rewrite !len_cons; pose proof (len_nonneg _ ks); lia]]]. }
    destruct NXT as [(i & Hi & E1 & E2)|(NX1 & NX2 & NX3)].
    { rewrite E1. rewrite E2 in H. clear E1 E2. destruct ks as [|k ks].
      - destruct Hi as [->|(_ & k & X)]; [|discriminate X]. unfold spec_extract in H. cbn in H. injection H as <- <-. destruct W as (st' & ps & S & D). exists st. split; [|exists st', ps; auto]. pose proof (rep_len _ _ _ _ (dc_crep _ _ _ D)) as El. pose proof (r_size _ _ _ _ (dc_crep _ _ _ D)) as Es.
        unfold dcl_extract, dll_extract. rewrite (sm_s _ _ S), Es, El. reflexivity.
      - destruct (weak_pop st k ks (S (length (l_heap st))) i) as (st' & E & W'); [destruct Hi as [?|(? & k0 & X)]; [auto|injection X as -> ->; auto]|exact W|]. exists st'. rewrite E.
        destruct Hi as [->|(-> & k0 & X)]; [|injection X as -> ->; cbn in H; injection H as <- <-; auto].
        unfold spec_extract in H. rewrite len_cons in H. pose proof (len_nonneg _ ks). destruct (Z.eqb_spec (len ks + 1) 0); [lia|]. cbn [Z.ltb Z.compare] in H. destruct (Z.leb_spec (len ks + 1) 0); [lia|]. cbn in H. injection H as <- <-. split; [reflexivity|exact W']. }
    clear SP.
    destruct W as (st' & ps & S & D). pose proof S as [Eh Et Es C].
    assert (HD : dcirc_ok ks o). { destruct o; cbn in *; auto; [|congruence]. destruct Ho; [left; split; [assumption|congruence]|right; assumption]. }
    assert (R := dc_crep _ _ _ D). pose proof (rep_len _ _ _ _ R) as El. pose proof (r_size _ _ _ _ R) as Esz. pose proof (len_nonneg _ ks) as Hn. pose proof (rep_size_heap _ _ _ _ R) as Hh.
    destruct (dcl_op_sim _ _ _ _ _ _ D HD H) as (st2 & ps2 & E2 & D2).
    assert (P : snd (cls_op DCL st o) = snd (cls_op DCL st' o) /\ sim (fst (cls_op DCL st o)) (fst (cls_op DCL st' o))).
    2: { rewrite E2 in P. cbn [fst snd] in P. destruct P as [P1 P2]. exists (fst (cls_op DCL st o)). split; [rewrite <- P1; destruct (cls_op DCL st o); reflexivity|]. exists st2, ps2. auto. }
    clear E2 D2 st2 ps2. unfold cls_op. rewrite (hs_l _ _ _ C).
    assert (INS : forall i k, psim (dcl_insert_at (Datatypes.S (Datatypes.S (length (l_heap st')))) st i k) (dcl_insert_at (Datatypes.S (Datatypes.S (length (l_heap st')))) st' i k)).
    { intros i k. apply dcl_at_sim; [|exact S]. intros X. rewrite Eh, (dc_h _ _ _ D). rewrite Es, Esz in X. destruct ps; [reflexivity|]. rewrite len_cons in X. pose proof (len_nonneg _ ps). lia. }
    assert (EXT : forall i, i <> 0 -> (len ks = 1 -> i <> -1) -> (- len ks < i \/ len ks <= 1) -> spec_extract ks i = Some (ks', r) -> psim (dcl_extract (Datatypes.S (Datatypes.S (length (l_heap st')))) st i) (dcl_extract (Datatypes.S (Datatypes.S (length (l_heap st')))) st' i)).
    { intros i Hi0 Hi1 Hi HS. destruct (Z.eqb_spec (len ks) 0) as [L0|L0].
      { unfold dcl_extract, dll_extract. rewrite Es, Esz, El, L0. cbn [Z.eqb]. split; [reflexivity|exact S]. }
      unfold spec_extract in HS. destruct (Z.eqb_spec (len ks) 0); [contradiction|].
      destruct (Z.leb_spec (len ks) (if i <? 0 then len ks + i else i)) as [G|G].
      { unfold dcl_extract, dll_extract. rewrite Es, Esz, El. destruct (Z.eqb_spec (len ks) 0); [contradiction|]. destruct (Z.leb_spec (len ks) (if i <? 0 then len ks + i else i)); [|lia]. split; [reflexivity|exact S]. }
      apply dcl_ext_sim2; [exact Hi0| | |exact S].
      - intros pr cu EW. rewrite Esz, El in EW.
        + destruct (Z.ltb_spec (if i <? 0 then len ks + i else i) 0) as [G2|G2]; [discriminate|]. assert (Hj : (if i <? 0 then len ks + i else i) <> 0) by (destruct (Z.ltb_spec i 0); lia).
          destruct (split_elem _ _ _ _ (if i <? 0 then len ks + i else i) R) as (l1 & a & l2 & k & Eps & Hl & Hk & Hka & Hlt); [lia|].
          destruct (list_snoc_case _ l1) as [->|(l & p & ->)]; [rewrite len_nil in Hl; lia|]. subst ps.
          rewrite <- Hl in EW. rewrite (walk_to_spec _ _ _ _ _ _ (r_fw _ _ _ _ R)) in EW by lia. rewrite last_error_snoc in EW. cbn [hd_or] in EW. injection EW as <- <-.
          split; [|split; [discriminate|]].
          * rewrite (dc_h _ _ _ D). intros X. assert (ND := NoDup_remove_2 _ _ _ (dc_nd _ _ _ D)). apply ND. rewrite !in_app_iff. destruct l; cbn in X |- *; injection X as ->; auto.
          * intros a0 c X Y. injection X as <-. destruct (dc_cell _ _ _ _ _ D) as (c' & Ec & _ & Ep). rewrite Y in Ec. injection Ec as <-. rewrite Ep. rewrite last_error_cons by (destruct l2; [destruct l|]; discriminate). rewrite app_assoc, last_error_snoc. discriminate.
      - rewrite (dc_t _ _ _ D). intros X. apply last_none in X. subst ps. rewrite len_nil in El. lia. }
    assert (OU : forall (a b : ll K * res unit), psim a b -> snd (let (s, r0) := a in (s, @out_unit K r0)) = snd (let (s, r0) := b in (s, @out_unit K r0)) /\ sim (fst (let (s, r0) := a in (s, @out_unit K r0))) (fst (let (s, r0) := b in (s, @out_unit K r0)))).
    { intros [a ra] [b rb] [X Y]. cbn in *. subst. auto. }
    assert (ON : forall (a b : ll K * res nat), psim a b -> snd (let (s, r0) := a in (s, out_node s r0)) = snd (let (s, r0) := b in (s, out_node s r0)) /\ sim (fst (let (s, r0) := a in (s, out_node s r0))) (fst (let (s, r0) := b in (s, out_node s r0)))).
    { intros [a ra] [b rb] [X Y]. cbn in *. subst. split; [|exact Y]. unfold out_node. destruct rb; try reflexivity. rewrite (hs_k _ _ _ (sm_c _ _ Y)). reflexivity. }
    destruct o as [i k|i k|i k|i|k|k| | |i]; cbn [DCL k_insert_at k_insert_after k_insert_before k_extract spec_op dfwd_ok] in *.
    - apply OU, INS.
    - unfold with_node. rewrite (getitem_sim _ _ _ _ S). destruct (ll_getitem _ st' i) as [[a|]|e|]; try (split; [reflexivity|exact S]). apply OU, dcl_after_sim, S.
    - unfold with_node. rewrite (getitem_sim _ _ _ _ S). destruct (ll_getitem _ st' i) as [[a|]|e|] eqn:EG; try (split; [reflexivity|exact S]). apply OU.
      unfold spec_insert_rel in H. unfold ll_getitem in EG. rewrite Esz, El in EG. destruct (Z.leb_spec (len ks) (if i <? 0 then len ks + i else i)); [discriminate|].
      destruct (Z.ltb_spec (if i <? 0 then len ks + i else i) 0) as [G2|G2]; [discriminate|]. assert (Hj : (if i <? 0 then len ks + i else i) <> 0) by (destruct (Z.ltb_spec i 0); lia).
      destruct (split_elem _ _ _ _ (if i <? 0 then len ks + i else i) R) as (l1 & a' & l2 & k' & Eps & Hl & Hk & Hka & Hlt); [lia|].
      destruct (list_snoc_case _ l1) as [->|(l & p & ->)]; [rewrite len_nil in Hl; lia|]. subst ps.
      rewrite <- Hl in EG. rewrite (walk_to_spec _ _ _ _ _ _ (r_fw _ _ _ _ R)) in EG by lia. cbn [bind hd_or] in EG. injection EG as <-.
      apply dcl_before_sim; [| | |exact S].
      + rewrite Eh, (dc_h _ _ _ D). intros X. assert (ND := NoDup_remove_2 _ _ _ (dc_nd _ _ _ D)). apply ND. rewrite !in_app_iff. destruct l; cbn in X |- *; injection X as ->; auto.
      + intros c Y. destruct (dc_cell _ _ _ _ _ D) as (c' & Ec & _ & Ep). rewrite Y in Ec. injection Ec as <-. rewrite Ep. rewrite last_error_cons by (destruct l2; [destruct l|]; discriminate). rewrite app_assoc, last_error_snoc. discriminate.
      + assert (X := dc_lt _ _ _ a' D ltac:(apply in_or_app; right; left; reflexivity)). rewrite (hs_l _ _ _ C). lia.
    - apply ON, EXT; [congruence|intros X; destruct (NX3 X) as [_ Y]; congruence|exact Ho|exact H].
    - rewrite Es. apply OU, INS.
    - apply OU, INS.
    - congruence.
    - apply ON, EXT; [lia|intros X; destruct (NX3 X) as [Y _]; congruence| |exact H]. lia.
    - cbn [fst snd]. split; [|exact S]. rewrite (getitem_sim _ _ _ _ S). destruct (ll_getitem _ st' i) as [[a|]|e|]; try reflexivity. rewrite (hs_k _ _ _ C). reflexivity.
  Qed.
  Lemma weak_run ops : forall st ks ks' rs, weak st ks -> hist_ok dfwd_ok ops ks -> spec_ops ops ks = Some (ks', rs) ->
    exists st', cls_run DCL ops st = (st', rs) /\ weak st' ks'.
  Proof.
    induction ops as [|o ops IH]; intros st ks ks' rs W Ho H; cbn [hist_ok spec_ops cls_run] in *.
    - injection H as <- <-. eauto.
    - destruct Ho as [Ho1 Ho2]. destruct (spec_op ks o) as [[l1 r]|] eqn:E1; [|discriminate].
      destruct (spec_ops ops l1) as [[l2 rs']|] eqn:E2; [|discriminate]. injection H as <- <-.
      destruct (weak_op _ _ _ _ _ W Ho1 E1) as (s1 & -> & W1). destruct (IH _ _ _ _ W1 Ho2 E2) as (s2 & -> & W2). eauto.
  Qed.
  Lemma weak_crep st ks : weak st ks -> exists ps, crep st ps ks.
  Proof.
    intros (st' & ps & S & D). pose proof S as [Eh Et Es C]. exists ps. pose proof (dc_crep _ _ _ D) as [A B Cc D' E]. constructor; [exact A|rewrite Eh|rewrite Et; exact Cc|rewrite Es; exact D'|].
    - eapply chain_ext; [exact B|]. intros a _. apply (hs_n _ _ _ C).
    - eapply Forall2_map_ky; [exact E|]. intros a _. apply (hs_k _ _ _ C).
  Qed.
  (** backwards from the tail too, as far as the head *)
  Lemma follow_sim x h h' : hsim x h h' -> forall n p, ~ In x (map (fun y => Some (fst y)) (firstn (n - 1) (follow c_prev n h' p))) -> follow c_prev n h p = follow c_prev n h' p.
  Proof.
    intros H. induction n as [|n IH]; intros p Hx; [reflexivity|]. destruct p as [a|]; [|reflexivity]. cbn [follow] in *. pose proof (hs_k _ _ _ H a) as Ka. pose proof (hs_p _ _ _ H a) as Pa. unfold ky, pv in *.
    destruct (nth_error h a) as [c|], (nth_error h' a) as [c'|]; cbn [option_map] in *; try discriminate Ka; [|reflexivity]. injection Ka as Ka. rewrite Ka. f_equal.
    destruct n as [|n]; [reflexivity|]. replace (Datatypes.S (Datatypes.S n) - 1)%nat with (Datatypes.S n) in Hx by lia. cbn [firstn map In fst] in Hx.
    assert (P : c_prev c = c_prev c') by (assert (Q : Some (c_prev c) = Some (c_prev c')) by (apply Pa; tauto); congruence). rewrite P. apply IH. replace (Datatypes.S n - 1)%nat with n by lia. intros X. apply Hx. right.
    exact X.
  Qed.
  Definition circular_but_head (st : ll K) (ks : list K) : Prop :=
    circular_shape st ks /\ follow c_prev (length ks) (l_heap st) (l_tail st) = rev (follow c_next (length ks) (l_heap st) (l_head st)).
  Lemma weak_shape st ks : weak st ks -> circular_but_head st ks.
  Proof.
    intros W. destruct (weak_crep st ks W) as (ps0 & R0). split; [eapply crep_shape; exact R0|]. destruct W as (st' & ps & S & D). pose proof S as [Eh Et Es C].
    destruct (dcrep_shape _ _ _ D) as (_ & B & _). rewrite Et. assert (R := dc_crep _ _ _ D). pose proof (rep_len _ _ _ _ R) as El. assert (El' : length ps = length ks) by (unfold len in El; lia).
    assert (EF' : follow c_next (length ks) (l_heap st') (l_head st') = combine ps ks) by (rewrite <- El'; eapply follow_chain; [exact (r_fw _ _ _ _ R)|exact (r_keys _ _ _ _ R)]).
    assert (EF : follow c_next (length ks) (l_heap st) (l_head st) = combine ps ks).
    { rewrite Eh, <- El'. eapply follow_chain; [eapply chain_ext; [exact (r_fw _ _ _ _ R)|intros a _; apply (hs_n _ _ _ C)]|]. eapply Forall2_map_ky; [exact (r_keys _ _ _ _ R)|]. intros a _. apply (hs_k _ _ _ C). }
    rewrite EF. rewrite EF' in B. rewrite <- B. apply (follow_sim _ _ _ C). rewrite B, Eh, (dc_h _ _ _ D). assert (ND := dc_nd _ _ _ D).
    clear -ND El'. destruct ps as [|p ps]; [cbn; destruct ks; [cbn; tauto|discriminate]|]. destruct ks as [|k ks]; [discriminate|]. injection El' as El'. cbn [combine rev hd_error length].
    replace (Datatypes.S (length ks) - 1)%nat with (length (rev (combine ps ks))) by (rewrite rev_length, combine_length; lia). rewrite firstn_app, Nat.sub_diag, firstn_all. cbn [firstn]. rewrite app_nil_r.
    intros X. apply in_map_iff in X as ([q k'] & X & HI). injection X as ->. apply in_rev in HI. apply in_combine_l in HI. inversion ND. contradiction.
  Qed.
  Lemma weak_new : weak (ll_new K) [].
  Proof. exists (ll_new K), []. split; [apply sim_refl|apply dc_new]. Qed.
End Sim.
