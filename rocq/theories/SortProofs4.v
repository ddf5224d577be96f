From Verif Require Import Base ArraysProofs SortModel SortSpec SortProofs SortProofs2 SortProofs3 HeapModel HeapProofs SortModel2.
From Coq Require Import Sorted.

Section Finish.
  Context {A : Type} (leA : A -> A -> Prop) (leA_refl : forall x, leA x x).
  Notation arr := (list (option A)).
  Notation "a $ i" := (zn None a i) (at level 9, format "a $ i").

  Lemma perm_content (a : arr) : Permutation a (map Some (content a) ++ repeat None (length a - length (content a))).
  Proof.
    induction a as [|[x|] a IH]; [reflexivity| |].
    - change (content (Some x :: a)) with (x :: content a). cbn [map length app Nat.sub]. apply perm_skip. exact IH.
    - change (content (None :: a)) with (content a). pose proof (content_length_le a) as Hl. unfold len in Hl.
      replace (length (None :: a) - length (content a))%nat with (S (length a - length (content a))) by (cbn [length]; lia).
      simpl repeat. rewrite <- Permutation_middle. constructor. exact IH.
  Qed.
  Lemma nth_repeat_none n i : nth i (repeat (@None A) n) None = None.
  Proof. destruct (nth_in_or_default i (repeat (@None A) n) None) as [H|H]; [apply repeat_spec in H|]; exact H. Qed.
  Lemma SS_sorted w k : StronglySorted leA w -> forall i j, (i <= j)%nat ->
    none_last leA (nth i (map Some w ++ repeat None k) None) (nth j (map Some w ++ repeat None k) None).
  Proof.
    induction 1 as [|x w S IH F]; intros i j Hij.
    - simpl. rewrite !nth_repeat_none. exact I.
    - destruct i, j; simpl; try lia.
      + apply leA_refl.
      + destruct (nth_in_or_default j (map Some w ++ repeat None k) None) as [H|H]; [|rewrite H; exact I].
        apply in_app_or in H. destruct H as [H|H]; [|apply repeat_spec in H; rewrite H; exact I].
        apply in_map_iff in H. destruct H as (y & E & Hy). rewrite <- E. rewrite Forall_forall in F. apply F, Hy.
      + apply IH. lia.
  Qed.
  Lemma finish_sorts (a b : arr) s e w : 0 <= s -> s <= e + 1 -> e < len a -> len b = len a ->
    (forall i, 0 <= i -> i < s \/ e < i -> b$i = a$i) -> Permutation (content (seg a s e)) w -> StronglySorted leA w ->
    seg b s e = map Some w ++ repeat None (Z.to_nat (e + 1 - s - len w)) -> sorts leA a s e b.
  Proof.
    intros Hs Hse He Hl F P S E. split.
    - apply seg_rearr; auto. rewrite E, (perm_content (seg a s e)). pose proof (Permutation_length P) as PL.
      pose proof (seg_len a s e Hs Hse He) as SL. unfold len in *.
      replace (length (seg a s e) - length (content (seg a s e)))%nat with (Z.to_nat (e + 1 - s - Z.of_nat (length w))) by lia.
      apply Permutation_app_tail, Permutation_map, P.
    - intros i j Hi Hij Hj. pose proof (SS_sorted w (Z.to_nat (e + 1 - s - len w)) S (Z.to_nat (i - s)) (Z.to_nat (j - s)) ltac:(lia)) as G.
      rewrite <- E in G. fold (zn None (seg b s e) (i - s)) (zn None (seg b s e) (j - s)) in G. rewrite !(zn_seg None) in G by lia.
      replace (s + (i - s)) with i in G by lia. replace (s + (j - s)) with j in G by lia. exact G.
  Qed.
  Lemma SS_snoc w x : StronglySorted leA w -> (forall y, In y w -> leA y x) -> StronglySorted leA (w ++ [x]).
  Proof.
    induction 1 as [|y w S IH F]; intros H; simpl; [repeat constructor|]. constructor; [apply IH; intros; apply H; right; assumption|].
    apply Forall_app. split; [exact F|]. constructor; [apply H; left; reflexivity|constructor].
  Qed.
  Lemma sorts_empty (a : arr) s e : e < s -> sorts leA a s e a.
  Proof. intros H. split; [apply rearr_refl|]. intros i j; lia. Qed.
End Finish.

Section HI.
  Context {A : Type} (comp : A -> A -> bool) (leA : A -> A -> Prop) (D : decides comp leA).
  Notation arr := (list (option A)).
  Notation "a $ i" := (zn None a i) (at level 9, format "a $ i").
  Lemma leA_refl x : leA x x.
  Proof. destruct (comp x x) eqn:E; [apply (dec_true _ _ D)|apply (dec_false _ _ D)]; exact E. Qed.


  Lemma seg_snoc_c (a : arr) s e : 0 <= s -> s <= e -> e < len a ->
    content (seg a s e) = content (seg a s (e - 1)) ++ match a$e with Some v => [v] | None => [] end.
  Proof.
    intros Hs Hse He. rewrite seg_snoc by lia. rewrite content_app. f_equal. destruct (a$e); reflexivity.
  Qed.

  Lemma heapsort_ok (a : arr) s e : 0 <= s -> e < len a -> wp (heapsort comp a s e) (sorts leA a s e).
  Proof.
    intros Hs He. destruct (Z_lt_le_dec e s) as [Hlt|Hge].
    { unfold heapsort. rewrite zrange_nil by lia. simpl. apply sorts_empty. exact Hlt. }
    unfold heapsort. apply wp_bind.
    apply (wp_for_range _ _ _ _ (fun i '(b, h) => len b = len a /\ (forall k, 0 <= k -> k < s \/ i <= k -> b$k = a$k) /\
       (forall k, s <= k < i -> b$k = None) /\ hok leA 2 h /\ Permutation (map fst h) (content (seg a s (i - 1))))).
    - split; [reflexivity|]. split; [reflexivity|]. split; [intros; lia|]. split; [apply hok_nil|]. rewrite seg_empty by lia. reflexivity.
    - intros i [b h] Hi (L & F & N & O & P). apply wp_bind, (wp_aget _ None); [lia|]. rewrite (F i) by lia.
      apply wp_bind. replace (i + 1 - 1) with i by lia. rewrite (seg_snoc_c a s i) by lia.
      apply wp_mono with (P := fun h' => hok leA 2 h' /\ Permutation (map fst h') (content (seg a s (i - 1)) ++ match a$i with Some v => [v] | None => [] end)).
      + destruct (a$i) as [v|].
        * eapply wp_mono; [apply (insert_hok comp leA D 2); [lia|exact O]|]. intros h' (P' & O'). split; [exact O'|].
          rewrite <- P'. simpl. rewrite P. apply Permutation_cons_append.
        * simpl. rewrite app_nil_r. auto.
      + intros h' (O' & P'). apply wp_bind, wp_aset; [lia|]. simpl. rewrite len_zupd. split; [exact L|]. split; [|split; [|split]]; auto.
        * intros k Hk Ho. rewrite zn_zupd_ne by lia. apply F; lia.
        * intros k Hk. destruct (Z.eq_dec i k) as [->|]; [rewrite zn_zupd_eq by lia; reflexivity|rewrite zn_zupd_ne by lia; apply N; lia].
    - intros [b h]. rewrite Z.max_r by lia. replace (e + 1 - 1) with e by lia. intros (L & F & N & O & P).
      assert (Lh : len h <= e + 1 - s).
      { pose proof (Permutation_length P) as PL. rewrite map_length in PL. pose proof (content_length_le (seg a s e)) as CL.
        rewrite seg_len in CL by lia. unfold len in *. lia. }
      eapply wp_while with (m := fun '(b, h, i) => length h)
        (I := fun '(b', h', i) => exists w, i = s + len w /\ holds a b' s e (map Some w) /\ (forall k, i <= k <= e -> b'$k = None) /\ hok leA 2 h' /\
            Permutation (w ++ map fst h') (content (seg a s e)) /\ StronglySorted leA w /\ (forall x y, In x w -> In y h' -> leA x (fst y)) /\
            len w + len h' = len h).
      + intros [[b' h'] i] (w & -> & HH & N' & O' & P' & S' & M' & L'). unfold heap_is_empty. destruct HH as (H1 & H2 & H3).
        destruct h' as [|y h'].
        * simpl. simpl in P'. rewrite app_nil_r in P'. apply (finish_sorts leA leA_refl a b' s e w); auto; try lia; [symmetry; exact P'|].
          change (len (@nil (A * unit))) with 0 in L'.
          apply (zn_ext _ None); [rewrite seg_len by lia; unfold len; rewrite app_length, map_length, repeat_length; unfold len in *; lia|].
          intros k Hk. rewrite seg_len in Hk by lia. rewrite (zn_seg None) by lia. destruct (Z_lt_le_dec k (len w)) as [Hkw|Hkw].
          -- rewrite H2 by (rewrite len_map; lia). unfold zn at 2. unfold len in Hkw. rewrite app_nth1 by (rewrite map_length; lia). reflexivity.
          -- rewrite N' by lia. unfold zn. unfold len in Hkw. rewrite app_nth2 by (rewrite map_length; lia). rewrite nth_repeat_none. reflexivity.
        * destruct (Z.eqb_spec (len (y :: h') - 1) (-1)) as [E|E]; [unfold len in E; simpl in E; lia|].
          rewrite len_cons in L'. pose proof (len_nonneg _ h'). pose proof (len_nonneg _ w).
          apply wp_bind. eapply wp_mono; [apply (extract_hok comp leA D 2); [lia|discriminate|exact O']|].
          intros [x h''] (PX & MX & OX). apply wp_bind, wp_aset; [lia|]. simpl.
          assert (Lx : length (y :: h') = S (length h'')) by (apply (Permutation_length PX)).
          split; [|simpl in Lx; lia]. exists (w ++ [fst x]).
          assert (Lw : len (w ++ [fst x]) = len w + 1) by (rewrite len_app; reflexivity).

          split; [lia|]. split; [rewrite map_app; replace (s + len w) with (s + len (map Some w)) by (rewrite len_map; reflexivity);
            apply holds_snoc; try lia; [rewrite len_map; lia|split; [exact H1|split; assumption]]|].
          split; [intros k Hk; rewrite zn_zupd_ne by lia; apply N'; lia|]. split; [exact OX|].
          split; [rewrite <- P', <- app_assoc; apply Permutation_app_head; simpl; apply (Permutation_map fst) in PX; symmetry; exact PX|].
          assert (Hx : In x (y :: h')) by (apply (Permutation_in _ (Permutation_sym PX)); left; reflexivity).
          split; [apply SS_snoc; [exact S'|]; intros z Hz; apply M'; assumption|].
          split; [|rewrite Lw; unfold len in *; simpl in Lx; lia].
          intros z z' Hz Hz'. assert (Hz2 : In z' (y :: h')) by (apply (Permutation_in _ (Permutation_sym PX)); right; exact Hz').
          apply in_app_or in Hz. destruct Hz as [Hz|[<-|[]]]; [apply M'; assumption|apply MX; exact Hz2].
      + exists []. change (len (@nil A)) with 0. split; [lia|]. split; [split; [exact L|split; [intros t Ht; change (len (map (@Some A) [])) with 0 in Ht; lia|intros; apply F; lia]]|].
        split; [intros; apply N; lia|]. split; [exact O|]. split; [exact P|]. split; [constructor|]. split; [intros ? ? []|lia].
      + lia.
  Qed.

  Lemma intro_rec_ok fuel : forall (a : arr) lo hi md ins, 0 <= lo -> lo <= hi + 1 -> hi < len a -> (Z.to_nat (hi - lo + 1) < fuel)%nat ->
    wp (intro_rec comp fuel a lo hi md ins) (sorts leA a lo hi).
  Proof.
    induction fuel as [|fuel IH]; intros a lo hi md ins Hlo Hlh Hhi Hf; [lia|]. cbn [intro_rec]. cbv zeta.
    destruct (hi - lo + 1 <? ins); [apply (insertion_ok comp leA D); assumption|].
    destruct (Z.leb_spec (hi - lo + 1) 0); [simpl; apply heapsort_ok; assumption|].
    destruct (Z.eqb_spec md 0); [apply heapsort_ok; assumption|].
    apply wp_bind. eapply wp_mono; [apply (is_partition_ok comp leA D); lia|]. intros [b p] (Hp & RA & HL & HR).
    pose proof (rearr_len _ _ _ _ _ RA) as Lb. apply wp_bind.
    eapply wp_mono; [apply (IH b lo (p - 1)); lia|]. intros c (RB & SB). pose proof (rearr_len _ _ _ _ _ RB) as Lc.
    eapply wp_mono; [apply (IH c (p + 1) hi); lia|]. intros f (RC & SC). pose proof (rearr_len _ _ _ _ _ RC) as Lf.
    split.
    - eapply rearr_trans; [exact RA|]. eapply rearr_trans; [eapply rearr_weaken; [exact RB|lia|lia]|eapply rearr_weaken; [exact RC|lia|lia]].
    - assert (Ep : f$p = b$p) by (rewrite (proj2 RC), (proj2 RB) by lia; reflexivity).
      assert (HL' : forall i, lo <= i <= p -> R leA (f$i) (f$p)).
      { intros i Hi. rewrite Ep. destruct (Z.eq_dec i p) as [->|]; [rewrite Ep; apply (R_refl comp leA D)|].
        rewrite (proj2 RC) by lia. destruct (rearr_in None b c lo (p - 1) i) as (j & Hj & ->); try lia; [exact RB|]. apply HL. lia. }
      assert (HR' : forall i, p <= i <= hi -> R leA (f$p) (f$i)).
      { intros i Hi. rewrite Ep. destruct (Z.eq_dec i p) as [->|]; [rewrite Ep; apply (R_refl comp leA D)|].
        destruct (rearr_in None c f (p + 1) hi i) as (j & Hj & ->); try lia; [exact RC|]. rewrite (proj2 RB) by lia. apply HR. lia. }
      intros i j Hi Hij Hj. destruct (Z_lt_le_dec j p).
      + rewrite !(proj2 RC) by lia. apply SB; lia.
      + destruct (Z_lt_le_dec p i); [apply SC; lia|]. eapply (R_trans comp leA D); [apply HL'; lia|apply HR'; lia].
  Qed.
  Lemma intro_ok (a : arr) s e md ins : 0 <= s -> e < len a -> wp (intro_sort comp a s e md ins) (sorts leA a s e).
  Proof.
    intros Hs He. unfold intro_sort. destruct (Z_le_gt_dec s (e + 1)); [apply intro_rec_ok; lia|].
    cbn [intro_rec]. cbv zeta. destruct (Z.leb_spec (e - s + 1) 0); [|lia].
    destruct (e - s + 1 <? ins); [apply (insertion_ok comp leA D); assumption|apply heapsort_ok; assumption].
  Qed.
End HI.
