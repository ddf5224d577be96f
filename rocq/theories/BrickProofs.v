(** brick_sort: exactly when it ends. *)
From Verif Require Import Base SortModel SortSpec SortProofs SortProofs3.

Lemma len_cons {X} (a : X) l : len (a :: l) = len l + 1.
Proof. unfold len. cbn [length]. lia. Qed.

Section FOP.
  Context {V : Type} (d : V) (P : V -> V -> Prop).
  Lemma FOP_of (l : list V) : (forall i j, 0 <= i -> i < j -> j < len l -> P (zn d l i) (zn d l j)) -> ForallOrdPairs P l.
  Proof.
    induction l as [|x l IH]; intros H; constructor.
    - apply Forall_forall. intros y Hy. apply (In_nth _ _ d) in Hy as (n & Hn & <-). specialize (H 0 (Z.of_nat n + 1) ltac:(lia) ltac:(lia)). unfold zn in H. replace (Z.to_nat (Z.of_nat n + 1)) with (S n) in H by lia. apply H. rewrite len_cons. unfold len. lia.
    - apply IH. intros i j Hi Hij Hj. specialize (H (i + 1) (j + 1) ltac:(lia) ltac:(lia)). unfold zn in *. replace (Z.to_nat (i + 1)) with (S (Z.to_nat i)) in H by lia. replace (Z.to_nat (j + 1)) with (S (Z.to_nat j)) in H by lia. apply H. rewrite len_cons. lia.
  Qed.
  Lemma of_FOP (l : list V) : ForallOrdPairs P l -> forall i j, 0 <= i -> i < j -> j < len l -> P (zn d l i) (zn d l j).
  Proof.
    induction 1 as [|x l F _ IH]; intros i j Hi Hij Hj; [unfold len in Hj; cbn in Hj; lia|]. rewrite len_cons in Hj. unfold zn. replace (Z.to_nat j) with (S (Z.to_nat (j - 1))) by lia. cbn [nth].
    destruct (Z.eq_dec i 0) as [->|Hz].
    - cbn. rewrite Forall_forall in F. apply F, nth_In. unfold len in Hj. lia.
    - replace (Z.to_nat i) with (S (Z.to_nat (i - 1))) by lia. cbn [nth]. apply (IH (i - 1) (j - 1)); lia.
  Qed.
End FOP.

Section Brick.
  Context {A : Type} (comp : A -> A -> bool) (leA : A -> A -> Prop) (D : decides comp leA).
  Notation cmp := (pcomp comp).
  Notation arr := (list (option A)).
  Notation "a $ i" := (zn None a i) (at level 9, format "a $ i").
  Notation R := (R leA).
  Notation inv := (inv comp). Notation no_tie := (no_tie comp).
  Definition untied (a : arr) s e := forall i j, s <= i -> i < j -> j <= e -> no_tie a$i a$j.
  Lemma untied_re (a b : arr) s e : 0 <= s -> e < len a -> rearranged None a s e b -> untied a s e -> untied b s e.
  Proof.
    intros Hs He RA U i j Hi Hij Hj. pose proof (rearr_len _ _ _ _ _ RA) as Hl. pose proof (rearr_seg None a b s e Hs ltac:(lia) RA) as P.
    assert (F : ForallOrdPairs no_tie (seg a s e)).
    { apply (FOP_of None). rewrite seg_len by lia. intros x y Hx Hxy Hy. rewrite !zn_seg by lia. apply U; lia. }
    apply (FOP_swap no_tie (no_tie_sym comp) _ _ P) in F. pose proof (of_FOP None no_tie _ F (i - s) (j - s) ltac:(lia) ltac:(lia)) as X. rewrite seg_len in X by lia. specialize (X ltac:(lia)).
    rewrite !zn_seg in X by lia. replace (s + (i - s)) with i in X by lia. replace (s + (j - s)) with j in X by lia. exact X.
  Qed.
  Lemma pass_ok s e l : 0 <= s -> (forall i, In i l -> s <= i < e) -> forall (a : arr) f, e < len a -> untied a s e ->
    wp (brick_pass comp l (a, f)) (fun '(b, f') => rearranged None a s e b /\ (inv b <= inv a)%nat /\
      (f' = true -> f = true /\ b = a /\ forall i, In i l -> R (a$i) (a$(i+1))) /\
      (f' = false -> f = false \/ (inv b < inv a)%nat)).
  Proof.
    intros Hs. induction l as [|i l IH]; intros Hl a f He F.
    - simpl. split; [apply rearr_refl|]. split; [lia|]. split; [intros ->; split; [reflexivity|]; split; [reflexivity|intros ? []]|auto].
    - unfold brick_pass. cbn [forM]. fold (brick_pass comp l). assert (Hi := Hl i (or_introl eq_refl)).
      apply wp_bind, wp_bind, (wp_aget _ None); [lia|]. apply wp_bind, (wp_aget _ None); [lia|].
      destruct (cmp (a$(i+1)) (a$i)) eqn:E.
      + apply wp_bind, (wp_swap None); [lia|lia|]. simpl.
        destruct (swapz_adj a i ltac:(lia) ltac:(lia)) as (l1 & l2 & E1 & E2).
        assert (En : cmp (a$i) (a$(i+1)) = false).
        { assert (X := F i (i + 1) ltac:(lia) ltac:(lia) ltac:(lia)). unfold SortProofs3.no_tie in X. rewrite E, andb_true_r in X. exact X. }
        assert (Hinv : (inv (swapz None a i (i+1)) < inv a)%nat) by (rewrite E2, (f_equal inv E1); apply inv_swap; assumption).
        assert (RS : rearranged None a s e (swapz None a i (i + 1))) by (apply rearr_swap with (i := i) (j := i + 1); lia).
        eapply wp_mono; [apply (IH (fun j Hj => Hl j (or_intror Hj)) (swapz None a i (i+1)) false)|].
        * rewrite len_swapz. exact He.
        * apply (untied_re a); assumption.
        * intros [b f'] (RA & I1 & I2 & I3). split; [eapply rearr_trans; [exact RS|exact RA]|].
          split; [lia|]. split; [intros Hf; destruct (I2 Hf); discriminate|]. intros _. right. lia.
      + apply (R_f comp leA D) in E. simpl.
        eapply wp_mono; [apply (IH (fun j Hj => Hl j (or_intror Hj)) a f He F)|].
        intros [b f'] (RA & I1 & I2 & I3). split; [exact RA|]. split; [exact I1|]. split; [|exact I3].
        intros Hf. destruct (I2 Hf) as (J1 & J2 & J3). split; [exact J1|]. split; [exact J2|]. intros j [<-|Hj]; [exact E|auto].
  Qed.
  (** the two passes look at every adjacent pair *)
  Lemma both_passes (Q : Z -> Prop) s e : (forall i, In i (zrange_step s e 2) -> Q i) -> (forall i, In i (zrange_step (s + 1) e 2) -> Q i) -> forall i, s <= i < e -> Q i.
  Proof.
    intros K2 K3 i Hi. destruct (Z.eq_dec ((i - s) mod 2) 0) as [E|E]; [apply K2, zrange_step2_in; split; [lia|exact E]|].
    apply K3, zrange_step2_in. split.
    - split; [|lia]. destruct (Z.eq_dec i s) as [->|]; [|lia]. rewrite Z.sub_diag in E. exfalso. apply E. reflexivity.
    - pose proof (Z.mod_pos_bound (i - s) 2 ltac:(lia)). pose proof (Z.div_mod (i - s) 2 ltac:(lia)). replace (i - (s + 1)) with (((i - s) / 2) * 2) by lia. apply Z.mod_mul. lia.
  Qed.
  Lemma brick_range_ok (a : arr) s e fuel : 0 <= s -> e < len a -> untied a s e -> (length a * length a + 2 <= fuel)%nat ->
    wp (brick_sort comp fuel a s e) (sorts leA a s e).
  Proof.
    intros Hs He F Hfuel. unfold brick_sort.
    eapply wp_while with (m := fun '(b, f) => if f : bool then 0%nat else S (inv b))
      (I := fun '(b, f) => rearranged None a s e b /\ (f = true -> sorted_range leA b s e)).
    - intros [b f] (RA & HS). destruct f; [simpl; split; [exact RA|apply HS; reflexivity]|].
      pose proof (rearr_len _ _ _ _ _ RA) as Hl. assert (Fb : untied b s e) by (apply (untied_re a); assumption).
      apply wp_bind. eapply wp_mono; [apply (pass_ok s e); auto; [|lia]|].
      { intros i Hi. apply zrange_step2_in in Hi. lia. }
      intros [c f1] (RA1 & I1 & I2 & I3). pose proof (rearr_len _ _ _ _ _ RA1) as Hl1.
      apply wp_bind. eapply wp_mono; [apply (pass_ok s e); auto; [|lia|]|].
      { intros i Hi. apply zrange_step2_in in Hi. lia. }
      { apply (untied_re b); try assumption. lia. }
      intros [c2 f2] (RA2 & J1 & J2 & J3). simpl. split; [split|].
      + eapply rearr_trans; [exact RA|]. eapply rearr_trans; eauto.
      + intros ->. destruct (J2 eq_refl) as (K1 & -> & K2). subst f1. destruct (I2 eq_refl) as (_ & -> & K3).
        apply (sorted_adj comp leA D). intros i Hi. apply (both_passes (fun i => R (b$i) (b$(i+1))) s e K2 K3). lia.
      + destruct f2; [lia|]. destruct (J3 eq_refl) as [->|H]; [destruct (I3 eq_refl); [discriminate|lia]|lia].
    - split; [apply rearr_refl|discriminate].
    - pose proof (inv_le comp a). lia.
  Qed.
End Brick.

Section Diverge.
  Context {A : Type} (comp : A -> A -> bool).
  Hypothesis total : forall x y, comp x y = true \/ comp y x = true.
  Hypothesis trans : forall x y z, comp x y = true -> comp y z = true -> comp x z = true.
  Notation cmp := (pcomp comp).
  Notation arr := (list (option A)).
  Notation "a $ i" := (zn None a i) (at level 9, format "a $ i").
  Notation no_tie := (no_tie comp).
  Lemma pass_any s e l : 0 <= s -> (forall i, In i l -> s <= i < e) -> forall (a : arr) f, e < len a ->
    wp (brick_pass comp l (a, f)) (fun '(b, f') => rearranged None a s e b /\ (f' = true -> f = true /\ b = a /\ forall i, In i l -> cmp (a$(i+1)) (a$i) = false)).
  Proof.
    intros Hs. induction l as [|i l IH]; intros Hl a f He.
    - simpl. split; [apply rearr_refl|]. intros ->. split; [reflexivity|]. split; [reflexivity|intros ? []].
    - unfold brick_pass. cbn [forM]. fold (brick_pass comp l). assert (Hi := Hl i (or_introl eq_refl)).
      apply wp_bind, wp_bind, (wp_aget _ None); [lia|]. apply wp_bind, (wp_aget _ None); [lia|].
      destruct (cmp (a$(i+1)) (a$i)) eqn:E.
      + apply wp_bind, (wp_swap None); [lia|lia|]. simpl. assert (RS : rearranged None a s e (swapz None a i (i + 1))) by (apply rearr_swap with (i := i) (j := i + 1); lia).
        eapply wp_mono; [apply (IH (fun j Hj => Hl j (or_intror Hj)) (swapz None a i (i+1)) false); rewrite len_swapz; exact He|].
        intros [b f'] (RA & I2). split; [eapply rearr_trans; [exact RS|exact RA]|]. intros Hf. destruct (I2 Hf); discriminate.
      + simpl. eapply wp_mono; [apply (IH (fun j Hj => Hl j (or_intror Hj)) a f He)|].
        intros [b f'] (RA & I2). split; [exact RA|]. intros Hf. destruct (I2 Hf) as (J1 & J2 & J3). split; [exact J1|]. split; [exact J2|]. intros j [<-|Hj]; [exact E|auto].
  Qed.
  Lemma chain u v w : cmp v u = false -> cmp w v = false -> cmp w u = false.
  Proof.
    destruct u as [x|], v as [y|], w as [z|]; cbn; try discriminate; try reflexivity; auto. intros H1 H2. destruct (comp z x) eqn:E; [|reflexivity].
    destruct (total x y) as [T|T]; [|congruence]. rewrite (trans z x y E T) in H2. discriminate.
  Qed.
  Lemma strict (b : arr) s e : (forall i, s <= i < e -> cmp (b$(i+1)) (b$i) = false) -> forall i j, s <= i -> i < j -> j <= e -> no_tie b$i b$j.
  Proof.
    intros H i j Hi Hij Hj. assert (G : forall n, i + 1 + Z.of_nat n <= e -> cmp (b$(i + 1 + Z.of_nat n)) (b$i) = false).
    { induction n as [|n IH]; intros Hn; [rewrite Z.add_0_r; apply H; lia|]. replace (i + 1 + Z.of_nat (S n)) with (i + 1 + Z.of_nat n + 1) by lia. apply (chain _ (b$(i + 1 + Z.of_nat n))); [apply IH; lia|apply H; lia]. }
    specialize (G (Z.to_nat (j - i - 1))). replace (i + 1 + Z.of_nat (Z.to_nat (j - i - 1))) with j in G by lia. unfold SortProofs3.no_tie. rewrite G by lia. apply andb_false_r.
  Qed.
  Lemma brick_diverges (a : arr) s e i j : 0 <= s -> e < len a -> s <= i -> i < j -> j <= e -> ~ no_tie a$i a$j -> forall fuel, brick_sort comp fuel a s e = OutOfFuel.
  Proof.
    intros Hs He Hi Hij Hj T fuel. unfold brick_sort.
    assert (G : forall fuel b, rearranged None a s e b -> while_loop fuel (fun '(array, is_sorted) => if is_sorted : bool then Ret (Break array) else s0 <- brick_pass comp (zrange_step (s + 1) e 2) (array, true) ;; s' <- brick_pass comp (zrange_step s e 2) s0 ;; Ret (Next s')) (b, false) = OutOfFuel); [|apply G, rearr_refl].
    clear fuel. induction fuel as [|fuel IH]; intros b RA; [reflexivity|]. cbn [while_loop]. pose proof (rearr_len _ _ _ _ _ RA) as Hl.
    assert (W1 : wp (brick_pass comp (zrange_step (s + 1) e 2) (b, true)) (fun '(c, f') => rearranged None b s e c /\ (f' = true -> true = true /\ c = b /\ forall i, In i (zrange_step (s + 1) e 2) -> cmp (b$(i+1)) (b$i) = false))).
    { apply pass_any; [exact Hs| |lia]. intros k Hk. apply zrange_step2_in in Hk. lia. }
    apply wp_ex in W1. destruct W1 as ([c f1] & E1 & RA1 & I1). rewrite E1. cbn [bind]. pose proof (rearr_len _ _ _ _ _ RA1) as Hl1.
    assert (W2 : wp (brick_pass comp (zrange_step s e 2) (c, f1)) (fun '(c2, f') => rearranged None c s e c2 /\ (f' = true -> f1 = true /\ c2 = c /\ forall i, In i (zrange_step s e 2) -> cmp (c$(i+1)) (c$i) = false))).
    { apply pass_any; [exact Hs| |lia]. intros k Hk. apply zrange_step2_in in Hk. lia. }
    apply wp_ex in W2. destruct W2 as ([c2 f2] & E2 & RA2 & I2). rewrite E2. cbn [bind].
    assert (RA3 : rearranged None a s e c2) by (eapply rearr_trans; [exact RA|]; eapply rearr_trans; eassumption).
    destruct f2; [|apply IH; exact RA3]. exfalso. destruct (I2 eq_refl) as (-> & -> & K2). destruct (I1 eq_refl) as (_ & -> & K1).
    assert (U : untied comp b s e) by (intros x y Hx Hxy Hy; apply (strict b s e); auto; intros k Hk; apply (both_passes (fun k => cmp (b$(k+1)) (b$k) = false) s e K2 K1); lia).
    apply T. assert (RB : rearranged None b s e a). { destruct RA as [P Q]. split; [symmetry; exact P|]. intros k Hk Ho. symmetry. apply Q; assumption. }
    apply (untied_re comp b a s e Hs ltac:(lia) RB U); lia.
  Qed.
End Diverge.
