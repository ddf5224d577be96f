From Verif Require Import Base ArraysModel ArraysProofs SortModel SortSpec SortProofs HeapModel.

Section HP.
  Context {K D : Type} (comp : K -> K -> bool) (leK : K -> K -> Prop) (DC : decides comp leK) (d : Z) (Hd : 1 <= d) (nd : K * D).
  Notation node := (K * D)%type.
  Notation heap_t := (list node).
  Notation "a $ i" := (zn nd a i) (at level 9, format "a $ i").
  Definition le (x y : node) := leK (fst x) (fst y).
  Definition par (j : Z) := (j - 1) / d.

  Lemma le_refl x : le x x.
  Proof. unfold le. destruct (comp (fst x) (fst x)) eqn:E; [apply (dec_true _ _ DC)|apply (dec_false _ _ DC)]; exact E. Qed.
  Lemma le_trans x y z : le x y -> le y z -> le x z.
  Proof. apply (dec_trans _ _ DC). Qed.
  Lemma par_iff i j : par j = i <-> d * i + 1 <= j <= d * i + d.
  Proof.
    unfold par. split; intros H.
    - pose proof (Z.div_mod (j - 1) d ltac:(lia)). pose proof (Z.mod_pos_bound (j - 1) d ltac:(lia)). nia.
    - symmetry. apply Z.div_unique with (r := j - 1 - d * i); lia.
  Qed.
  Lemma par_lt j : 1 <= j -> 0 <= par j < j.
  Proof. intros H. pose proof (proj1 (par_iff (par j) j) eq_refl). nia. Qed.

  (** ordered at every parent >= lo *)
  Definition ord (h : heap_t) lo := forall j, 1 <= j < len h -> lo <= par j -> le (h$(par j)) (h$j).
  (** ... except below [i]; the parent of [i] bounds the children of [i] *)
  Definition hole (h : heap_t) lo i :=
    (forall j, 1 <= j < len h -> lo <= par j -> par j <> i -> le (h$(par j)) (h$j)) /\
    (forall j, 1 <= j < len h -> par j = i -> lo <= par i -> le (h$(par i)) (h$j)).

  Lemma target_ok (h : heap_t) i : 0 <= i < len h ->
    wp (heap_target comp d h i) (fun t => 0 <= t < len h /\ (t = i \/ (par t = i /\ 1 <= t)) /\ le (h$t) (h$i) /\
       forall j, 1 <= j < len h -> par j = i -> le (h$t) (h$j)).
  Proof.
    intros Hi. unfold heap_target.
    apply (wp_for_range _ _ _ _ (fun k t => 0 <= t < len h /\ (t = i \/ (par t = i /\ 1 <= t)) /\ le (h$t) (h$i) /\
       forall j, 1 <= j < len h -> d * i + 1 <= j < k -> le (h$t) (h$j))).
    - split; [lia|]. split; [left; reflexivity|]. split; [apply le_refl|]. intros; lia.
    - intros j t Hj (Ht & Hc & H1 & H2). destruct (Z.leb_spec j (len h - 1)).
      + apply wp_bind, (wp_aget _ nd); [nia|]. apply wp_bind, (wp_aget _ nd); [lia|]. destruct (comp (fst h$j) (fst h$t)) eqn:E; simpl.
        * apply (dec_true _ _ DC) in E. fold (le (h$j) (h$t)) in E. split; [nia|]. split; [right; split; [apply par_iff; lia|nia]|].
          split; [eapply le_trans; eauto|]. intros q Hq Hqk. destruct (Z.eq_dec q j) as [->|]; [apply le_refl|].
          eapply le_trans; [exact E|]. apply H2; lia.
        * apply (dec_false _ _ DC) in E. fold (le (h$t) (h$j)) in E. split; [lia|]. split; [exact Hc|]. split; [exact H1|].
          intros q Hq Hqk. destruct (Z.eq_dec q j) as [->|]; [exact E|]. apply H2; lia.
      + simpl. split; [lia|]. split; [exact Hc|]. split; [exact H1|]. intros q Hq Hqk. apply H2; lia.
    - intros t (Ht & Hc & H1 & H2). split; [lia|]. split; [exact Hc|]. split; [exact H1|]. intros j Hj Hp. apply par_iff in Hp. apply H2; lia.
  Qed.

  Lemma heapify_ok (h0 : heap_t) lo i0 : 0 <= lo -> lo <= i0 -> hole h0 lo i0 ->
    wp (heapify comp d h0 i0) (fun h => Permutation h0 h /\ ord h lo).
  Proof.
    intros Hlo Hi0 HH. unfold heapify.
    destruct (Z_lt_le_dec i0 (len h0)) as [Hin|Hout].
    - eapply wp_while with (m := fun '(h, i) => Z.to_nat (len h - i)) (I := fun '(h, i) => lo <= i < len h /\ Permutation h0 h /\ hole h lo i).
      + intros [h i] (Hi & HP & HO & HG). apply wp_bind. eapply wp_mono; [apply target_ok; lia|].
        intros t (Ht & Hc & H1 & H2). destruct (Z.eqb_spec t i) as [->|Hne]; cbn [negb].
        * simpl. split; [exact HP|]. intros j Hj Hp. destruct (Z.eq_dec (par j) i) as [E|E]; [rewrite E; apply H2; assumption|apply HO; assumption].
        * destruct Hc as [->|[Hpt Ht1]]; [contradiction|]. pose proof (par_lt t Ht1) as Hlt.
          apply wp_bind, (wp_swap nd); [lia|lia|]. simpl. rewrite len_swapz. split; [|lia]. split; [lia|].
          split; [etransitivity; [exact HP|symmetry; apply swapz_perm; lia]|]. split.
          -- intros j Hj Hp Hpn. rewrite !zn_swapz by (try lia; pose proof (par_lt j); lia).
             rewrite len_swapz in Hj. destruct (Z.eqb_spec (par j) t) as [|_]; [contradiction|]. pose proof (par_lt j ltac:(lia)).
             destruct (Z.eqb_spec (par j) i) as [E|E].
             ++ destruct (Z.eqb_spec j i) as [Ej|]; [lia|]. destruct (Z.eqb_spec j t) as [->|]; [exact H1|]. apply H2; assumption.
             ++ destruct (Z.eqb_spec j i) as [->|]; [apply HG; [lia|assumption|assumption]|].
                destruct (Z.eqb_spec j t) as [->|]; [congruence|]. apply HO; assumption.
          -- rewrite len_swapz. intros j Hj Hp Hlp. rewrite Hpt. rewrite !zn_swapz by lia. rewrite Z.eqb_refl.
             destruct (Z.eqb_spec i t); [congruence|]. pose proof (par_lt j ltac:(lia)).
             destruct (Z.eqb_spec j t); [lia|]. destruct (Z.eqb_spec j i); [lia|]. rewrite <- Hp. apply HO; lia.
      + split; [lia|]. split; [reflexivity|exact HH].
      + lia.
    - (* nothing below: no child, target = i *)
      cbn [while_loop]. unfold heap_target at 1.
      assert (E : wp (forM (zrange (d * i0 + 1) (d * i0 + d + 1)) (fun j target =>
         if j <=? len h0 - 1 then x <- aget h0 j ;; y <- aget h0 target ;; Ret (if comp (fst x) (fst y) then j else target) else Ret target) i0) (fun t => t = i0)).
      { apply (wp_for_range _ _ _ _ (fun _ t => t = i0)); auto. intros j t Hj ->. destruct (Z.leb_spec j (len h0 - 1)); [nia|reflexivity]. }
      apply wp_ex in E. destruct E as (t & -> & ->). simpl. rewrite Z.eqb_refl. simpl. split; [reflexivity|].
      intros j Hj Hp. destruct (Z.eq_dec (par j) i0) as [E|E]; [pose proof (par_lt j); lia|]. apply HH; assumption.
  Qed.

  Lemma build_ok (l : heap_t) : wp (heap_build comp d l) (fun h => Permutation l h /\ ord h 0).
  Proof.
    unfold heap_build. assert (Hn : 0 <= len l / d) by (apply Z.div_pos; [apply len_nonneg|lia]).
    apply (wp_for_down _ _ _ _ (fun i h => Permutation l h /\ ord h (i + 1))).
    - split; [reflexivity|]. intros j Hj Hp. pose proof (proj1 (par_iff (par j) j) eq_refl).
      pose proof (Z.div_mod (len l) d ltac:(lia)). pose proof (Z.mod_pos_bound (len l) d ltac:(lia)). nia.
    - intros i h Hi (HP & HO). eapply wp_mono; [apply (heapify_ok h i i); try lia|].
      + split.
        * intros j Hj Hp Hne. apply HO; [assumption|lia].
        * intros j Hj Hp Hlp. exfalso. destruct (Z.eq_dec i 0) as [->|]; [|pose proof (par_lt i); lia].
          assert (par 0 = -1) by (apply par_iff; lia). lia.
      + intros h' (HP' & HO'). split; [etransitivity; eauto|]. replace (i - 1 + 1) with i by lia. exact HO'.
    - rewrite Z.min_l by lia. intros h (HP & HO). split; [exact HP|]. exact HO.
  Qed.

  Lemma insert_ok (h0 : heap_t) k x : ord h0 0 -> wp (heap_insert comp d h0 k x) (fun h => Permutation ((k, x) :: h0) h /\ ord h 0).
  Proof.
    intros HO0. unfold heap_insert. set (h1 := h0 ++ [(k, x)]).
    assert (L1 : len h1 = len h0 + 1) by (unfold h1, len; rewrite app_length; simpl; lia). pose proof (len_nonneg _ h0).
    assert (Z1 : forall j, 0 <= j < len h0 -> h1$j = h0$j).
    { intros j Hj. unfold zn, h1. apply app_nth1. unfold len in Hj. lia. }
    eapply wp_while with (m := fun '(h, i) => Z.to_nat i)
      (I := fun '(h, i) => 0 <= i < len h /\ len h = len h1 /\ Permutation h1 h /\
          (forall j, 1 <= j < len h -> j <> i -> le (h$(par j)) (h$j)) /\
          (forall j, 1 <= j < len h -> par j = i -> 1 <= i -> le (h$(par i)) (h$j))).
    - intros [h i] (Hi & HL & HP & HO & HG). cbv zeta. fold (par i). destruct (Z.eqb_spec i 0) as [->|Hi0].
      + simpl. split; [etransitivity; [|exact HP]; unfold h1; apply Permutation_cons_append|]. intros j Hj Hp. apply HO; lia.
      + pose proof (par_lt i ltac:(lia)) as Hpi. apply wp_bind, (wp_aget _ nd); [lia|]. apply wp_bind, (wp_aget _ nd); [lia|].
        destruct (comp (fst h$(par i)) (fst h$i)) eqn:E.
        * apply (dec_true _ _ DC) in E. fold (le (h$(par i)) (h$i)) in E. simpl.
          split; [etransitivity; [|exact HP]; unfold h1; apply Permutation_cons_append|].
          intros j Hj Hp. destruct (Z.eq_dec j i) as [->|]; [exact E|]. apply HO; assumption.
        * apply (dec_false _ _ DC) in E. fold (le (h$i) (h$(par i))) in E.
          apply wp_bind, (wp_swap nd); [lia|lia|]. simpl. rewrite !len_swapz. split; [|lia]. split; [lia|]. split; [exact HL|].
          split; [etransitivity; [exact HP|symmetry; apply swapz_perm; lia]|]. split.
          -- intros j Hj Hne. pose proof (par_lt j ltac:(lia)). rewrite !zn_swapz by lia.
             destruct (Z.eqb_spec j (par i)); [contradiction|]. destruct (Z.eqb_spec j i) as [->|].
             ++ rewrite Z.eqb_refl. exact E.
             ++ destruct (Z.eqb_spec (par j) (par i)) as [Ej|].
                ** eapply le_trans; [exact E|]. rewrite <- Ej. apply HO; assumption.
                ** destruct (Z.eqb_spec (par j) i) as [Ej|]; [apply HG; [lia|exact Ej|lia]|apply HO; assumption].
          -- intros j Hj Hp Hp1. pose proof (par_lt j ltac:(lia)). pose proof (par_lt (par i) ltac:(lia)). rewrite !zn_swapz by lia.
             destruct (Z.eqb_spec (par (par i)) (par i)); [lia|]. destruct (Z.eqb_spec (par (par i)) i); [lia|].
             assert (Hgp : le (h$(par (par i))) (h$(par i))) by (apply HO; lia).
             destruct (Z.eqb_spec j (par i)); [lia|]. destruct (Z.eqb_spec j i); [exact Hgp|].
             eapply le_trans; [exact Hgp|]. rewrite <- Hp. apply HO; assumption.
    - split; [lia|]. split; [reflexivity|]. split; [reflexivity|]. split.
      + intros j Hj Hne. pose proof (par_lt j ltac:(lia)). rewrite !Z1 by lia. apply HO0; lia.
      + intros j Hj Hp Hi. pose proof (par_lt j ltac:(lia)). lia.
    - unfold len. lia.
  Qed.

  Lemma root_min (h : heap_t) : ord h 0 -> forall j, 0 <= j < len h -> le (h$0) (h$j).
  Proof.
    intros HO j Hj. assert (G : forall n j, 0 <= j < Z.of_nat n -> j < len h -> le (h$0) (h$j)).
    { clear j Hj. induction n as [|n IH]; intros j Hj Hl; [lia|]. destruct (Z.eq_dec j 0) as [->|]; [apply le_refl|].
      pose proof (par_lt j ltac:(lia)). eapply le_trans; [apply (IH (par j)); lia|]. apply HO; lia. }
    apply (G (S (Z.to_nat j))); lia.
  Qed.

  Lemma extract_nil : heap_extract comp d ([] : heap_t) = Raise IndexError.
  Proof. reflexivity. Qed.

  Lemma removelast_zn (l : heap_t) j : 0 <= j < len l - 1 -> (removelast l)$j = l$j.
  Proof.
    intros Hj. destruct l as [|y l] using rev_ind; [unfold len in Hj; simpl in Hj; lia|]. rewrite removelast_last.
    unfold zn. symmetry. apply app_nth1. unfold len in Hj. rewrite app_length in Hj. simpl in Hj. lia.
  Qed.
  Lemma removelast_perm (l : heap_t) : l <> [] -> Permutation l (l$(len l - 1) :: removelast l).
  Proof.
    intros H. destruct l as [|y l] using rev_ind; [contradiction|]. rewrite removelast_last. unfold zn, len. rewrite app_length. simpl.
    replace (Z.to_nat (Z.of_nat (length l + 1) - 1)) with (length l) by lia. rewrite app_nth2, Nat.sub_diag by lia. simpl.
    symmetry. apply Permutation_cons_append.
  Qed.
  Lemma removelast_len (l : heap_t) : l <> [] -> len (removelast l) = len l - 1.
  Proof. intros H. destruct l as [|y l] using rev_ind; [contradiction|]. rewrite removelast_last. unfold len. rewrite app_length. simpl. lia. Qed.

  Lemma extract_ok (h : heap_t) : h <> [] -> ord h 0 ->
    wp (heap_extract comp d h) (fun '(x, h') => Permutation h (x :: h') /\ (forall y, In y h -> le x y) /\ ord h' 0).
  Proof.
    intros Hne HO. assert (HL : 0 < len h) by (destruct h; [contradiction|unfold len; simpl; lia]). unfold heap_extract.
    destruct (Z.eqb_spec (len h - 1) (-1)); [lia|]. apply wp_bind, (wp_aget _ nd); [lia|]. apply wp_bind, (wp_swap nd); [lia|lia|].
    set (h1 := swapz nd h 0 (len h - 1)). assert (L1 : len h1 = len h) by apply len_swapz.
    assert (N1 : h1 <> []) by (intros E; rewrite E in L1; unfold len in L1 at 1; simpl in L1; lia).
    apply wp_bind. eapply wp_mono; [apply (heapify_ok (removelast h1) 0 0); try lia|].
    - split.
      + intros j Hj Hp Hpn. rewrite removelast_len in Hj by exact N1. pose proof (par_lt j ltac:(lia)). rewrite !removelast_zn by lia.
        unfold h1. rewrite !zn_swapz by lia.
        destruct (Z.eqb_spec (par j) (len h - 1)); [lia|]. destruct (Z.eqb_spec (par j) 0); [contradiction|].
        destruct (Z.eqb_spec j (len h - 1)); [lia|]. destruct (Z.eqb_spec j 0); [lia|]. apply HO; lia.
      + intros j Hj Hp Hlp. assert (par 0 = -1) by (apply par_iff; lia). lia.
    - intros h2 (HP & HO2). simpl. split; [|split].
      + assert (Ex : h$0 = h1$(len h1 - 1)).
        { rewrite L1. unfold h1. rewrite zn_swapz by lia. rewrite Z.eqb_refl. reflexivity. }
        rewrite Ex. rewrite <- HP. rewrite <- removelast_perm by exact N1. symmetry. apply swapz_perm; lia.
      + intros y Hy. apply (In_nth _ _ nd) in Hy. destruct Hy as (n0 & Hn0 & <-).
        pose proof (root_min h HO (Z.of_nat n0)) as G. unfold zn in *. rewrite Nat2Z.id in G. apply G. unfold len. lia.
      + exact HO2.
  Qed.

  Lemma step_ok h o : ord h 0 -> wp (heap_step comp d h o) (fun h' => ord h' 0).
  Proof.
    intros HO. destruct o as [k x|]; simpl.
    - eapply wp_mono; [apply insert_ok; exact HO|]. intros h' [_ H]; exact H.
    - destruct h as [|y h]; [exact HO|]. pose proof (extract_ok (y :: h) ltac:(discriminate) HO) as W.
      apply wp_ex in W. destruct W as ([z h'] & -> & _ & _ & H). exact H.
  Qed.
  Lemma run_ok ops : forall h, ord h 0 -> wp (heap_run comp d ops h) (fun h' => ord h' 0).
  Proof.
    induction ops as [|o ops IH]; intros h HO; [exact HO|]. unfold heap_run. simpl. apply wp_bind.
    eapply wp_mono; [apply step_ok; exact HO|]. intros h' H. apply IH, H.
  Qed.
End HP.

(** the same without a default element *)
Section HP2.
  Context {K D : Type} (comp : K -> K -> bool) (leK : K -> K -> Prop) (DC : decides comp leK) (d : Z) (Hd : 1 <= d).
  Notation node := (K * D)%type.
  Definition hok (h : list node) := forall nd, ord leK d nd h 0.
  Lemma zn_default (nd nd' : node) h j : 0 <= j < len h -> zn nd h j = zn nd' h j.
  Proof. intros H. unfold zn. apply nth_indep. unfold len in H. lia. Qed.
  Lemma ord_hok nd h : ord leK d nd h 0 -> hok h.
  Proof.
    intros H nd' j Hj Hp. pose proof (par_lt d Hd j ltac:(lia)). rewrite !(zn_default nd' nd) by lia. apply H; assumption.
  Qed.
  Lemma hok_nil : hok [].
  Proof. intros nd j Hj. unfold len in Hj. simpl in Hj. lia. Qed.
  Lemma build_hok l : wp (heap_build comp d l) (fun h => Permutation l h /\ hok h).
  Proof.
    destruct l as [|nd l].
    - unfold heap_build. change (len (@nil node)) with 0. rewrite Z.div_0_l by lia.
      rewrite zrange_down_cons, zrange_down_nil by lia. cbn [forM]. apply wp_bind.
      assert (E : heapify comp d ([] : list node) 0 = Ret []).
      { unfold heapify. cbn [while_loop]. unfold heap_target.
        assert (W : wp (forM (zrange (d * 0 + 1) (d * 0 + d + 1)) (fun j target =>
           if j <=? len (@nil node) - 1 then x <- aget (@nil node) j ;; y <- aget (@nil node) target ;; Ret (if comp (fst x) (fst y) then j else target) else Ret target) 0) (fun t => t = 0)).
        { apply (wp_for_range _ _ _ _ (fun _ t => t = 0)); auto. intros j t Hj ->. change (len (@nil node)) with 0. destruct (Z.leb_spec j (0 - 1)); [lia|reflexivity]. }
        apply wp_ex in W. destruct W as (t & -> & ->). reflexivity. }
      rewrite E. simpl. split; [reflexivity|apply hok_nil].
    - eapply wp_mono; [apply (build_ok comp leK DC d Hd nd)|]. intros h [P O]. split; [exact P|eapply ord_hok, O].
  Qed.
  Lemma insert_hok h k x : hok h -> wp (heap_insert comp d h k x) (fun h' => Permutation ((k, x) :: h) h' /\ hok h').
  Proof.
    intros H. eapply wp_mono; [apply (insert_ok comp leK DC d Hd (k, x)); apply H|]. intros h' [P O]. split; [exact P|eapply ord_hok, O].
  Qed.
  Lemma extract_hok h : h <> [] -> hok h ->
    wp (heap_extract comp d h) (fun '(x, h') => Permutation h (x :: h') /\ (forall y, In y h -> leK (fst x) (fst y)) /\ hok h').
  Proof.
    intros Hne H. destruct h as [|nd h]; [contradiction|].
    eapply wp_mono; [apply (extract_ok comp leK DC d Hd nd); [discriminate|apply H]|]. intros [x h'] (P & M & O).
    split; [exact P|]. split; [exact M|eapply ord_hok, O].
  Qed.
  Lemma run_hok ops : forall h, hok h -> wp (heap_run comp d ops h) hok.
  Proof.
    induction ops as [|o ops IH]; intros h HO; [exact HO|]. unfold heap_run. cbn [forM]. apply wp_bind.
    eapply wp_mono with (P := hok); [|intros h' H; apply IH, H].
    destruct o as [k x|]; cbn [heap_step].
    - eapply wp_mono; [apply insert_hok; exact HO|]. intros h' [_ H]; exact H.
    - destruct h as [|y h]; [exact HO|]. pose proof (extract_hok (y :: h) ltac:(discriminate) HO) as W.
      apply wp_ex in W. destruct W as ([z h'] & -> & _ & _ & H). exact H.
  Qed.
End HP2.
