(** Proofs about the C++ backend: it computes what the Python backend computes, where no size_t wraps around. *)
From Verif Require Import Base SortModel SortSpec SortProofs SortProofs2 SearchModel SearchSpec SearchProofs CppModel.

Lemma forM_same B S (P : S -> Prop) (f g : B -> S -> res S) : forall (l : list B) (s : S),
  (forall i s, In i l -> P s -> f i s = g i s) -> (forall i s s', In i l -> P s -> g i s = Ret s' -> P s') ->
  P s -> forM l f s = forM l g s.
Proof.
  induction l as [|i l IH]; intros s H1 H2 HP; [reflexivity|]. cbn [forM].
  rewrite (H1 i s (or_introl eq_refl) HP). destruct (g i s) as [s'| |] eqn:E; cbn [bind]; try reflexivity.
  apply IH; [intros; apply H1; auto; right; assumption|intros ? ? ? ?; apply H2; right; assumption|].
  apply (H2 i s s'); auto. left; reflexivity.
Qed.
Lemma for_find_same B R (f g : B -> res (option R)) : forall (l : list B),
  (forall i, In i l -> f i = g i) -> for_find l f = for_find l g.
Proof.
  induction l as [|i l IH]; intros H; [reflexivity|]. cbn [for_find]. rewrite (H i) by (left; reflexivity).
  destruct (g i) as [[x|]| |]; cbn [bind]; try reflexivity. apply IH. intros; apply H; right; assumption.
Qed.
Lemma while_same S R (P : S -> Prop) (f g : S -> res (ctl S R)) :
  (forall s, P s -> f s = g s) -> (forall s s', P s -> g s = Ret (Next s') -> P s') ->
  forall fuel s, P s -> while_loop fuel f s = while_loop fuel g s.
Proof.
  intros H1 H2. induction fuel as [|n IH]; intros s HP; [reflexivity|]. cbn [while_loop]. rewrite (H1 s HP).
  destruct (g s) as [[s'|r]| |] eqn:E; try reflexivity. apply IH. eapply H2; eauto.
Qed.

Lemma word_val : word = 18446744073709551616. Proof. reflexivity. Qed.
Lemma u64_id z : 0 <= z < word -> u64 z = z.
Proof. intros H. unfold u64. apply Z.mod_small. exact H. Qed.
Lemma s32_id z : - 2 ^ 31 <= z < 2 ^ 31 -> s32 z = z.
Proof. intros H. unfold s32. rewrite Z.mod_small; lia. Qed.
Lemma s64_id z : - 2 ^ 63 <= z < 2 ^ 63 -> s64 z = z.
Proof. intros H. unfold s64. rewrite Z.mod_small; [lia|]. rewrite word_val. lia. Qed.
Lemma s64_low z : 0 <= z < 2 ^ 63 -> s64 (z - 1) = z - 1.
Proof. intros H. apply s64_id. lia. Qed.

(** the arguments [start], [end] default to the whole array *)
Definition dstart (o : option Z) : Z := match o with Some z => z | None => 0 end.
Definition dend {V} (a : list V) (o : option Z) : Z := match o with Some z => z | None => len a - 1 end.

Lemma cget_ok V (d : V) a i : 0 <= i < len a -> cget a i = Ret (zn d a i).
Proof. apply aget_ok. Qed.
Lemma cset_ok V (a : list V) i v : 0 <= i < len a -> cset a i v = Ret (zupd a i v).
Proof. intros H. unfold cset. destruct (Z.ltb_spec i 0), (Z.leb_spec (len a) i); try lia. simpl. apply aset_ok; lia. Qed.
Lemma swapz_sym V (d : V) a i j : 0 <= i < len a -> 0 <= j < len a -> swapz d a i j = swapz d a j i.
Proof.
  intros Hi Hj. unfold swapz, zupd. destruct (Z.eq_dec i j) as [->|N]; [reflexivity|]. apply upd_comm. lia.
Qed.
Lemma swapz_self V (d : V) a i : swapz d a i i = a.
Proof. unfold swapz, zupd, zn. rewrite upd_upd_same. apply upd_nth_same. Qed.
Lemma swap_ok V (d : V) a i j : 0 <= i < len a -> 0 <= j < len a -> swap a i j = Ret (swapz d a i j).
Proof.
  intros Hi Hj. unfold swap. rewrite (aget_ok _ d a j), (aget_ok _ d a i) by lia. cbn [bind].
  rewrite aset_ok by lia. cbn [bind]. rewrite aset_ok by (rewrite len_zupd; lia). reflexivity.
Qed.
Lemma len_swapz V (d : V) a i j : len (swapz d a i j) = len a.
Proof. unfold swapz. rewrite !len_zupd. reflexivity. Qed.

Section P.
  Context {A : Type} (le : A -> A -> bool) (tc : option (A -> A -> pyobj)).
  Notation arr := (list (option A)).

  (** the comparator the C++ backend really uses *)
  Definition eff (x y : A) : bool := match tc with Some f => is_true (f x y) | None => le x y end.
  (** the comparator the Python backend uses *)
  Definition peff (x y : A) : bool := match tc with Some f => truthy (f x y) | None => le x y end.
  Definition boolean : Prop := match tc with Some f => forall x y, f x y = PyTrue \/ f x y = PyFalse | None => True end.
  Lemma eff_peff : boolean -> forall x y, eff x y = peff x y.
  Proof. unfold boolean, eff, peff. destruct tc; intros H x y; [|reflexivity]. destruct (H x y) as [-> | ->]; reflexivity. Qed.

  Lemma ccomp_eff u v : ccomp le tc u v = pcomp eff u v.
  Proof. destruct u, v; reflexivity. Qed.
  Lemma cswap_ok (a : arr) i j : 0 <= i < len a -> 0 <= j < len a -> cswap a i j = Ret (swapz None a i j).
  Proof.
    intros Hi Hj. unfold cswap. rewrite (cget_ok _ None a i), (cget_ok _ None a j) by lia. cbn [bind].
    rewrite cset_ok by lia. cbn [bind]. rewrite cset_ok by (rewrite len_zupd; lia). reflexivity.
  Qed.

  Lemma forM_len (l : list Z) (f : Z -> arr -> res arr) (n : Z) :
    (forall i s s', In i l -> len s = n -> f i s = Ret s' -> len s' = n) -> forall s s', len s = n -> forM l f s = Ret s' -> len s' = n.
  Proof.
    induction l as [|i l IH]; intros H s s' Hs E; cbn [forM] in E.
    - injection E as <-. exact Hs.
    - destruct (f i s) as [s1| |] eqn:E1; cbn [bind] in E; try discriminate.
      eapply IH; [intros ? ? ? ?; apply H; right; assumption| |exact E]. eapply H; eauto. left; reflexivity.
  Qed.

  Section Rng.
    Context (s e : Z) (Hs : 0 <= s).

    Lemma bubble_same (a : arr) : 0 < len a < word -> e < len a ->
      cpp_bubble_impl le a s e tc (len a) = bubble_sort eff a s e.
    Proof.
      intros Hl He. unfold cpp_bubble_impl, bubble_sort. rewrite u64_id by lia.
      set (n := len a) in *. assert (Hn : len a = n) by reflexivity. clearbody n.
      apply forM_same with (P := fun b : arr => len b = n); [| |exact Hn].
      - intros _ b _ Hb. apply forM_same with (P := fun b : arr => len b = n); [| |exact Hb].
        + clear b Hb. intros j b Hj Hb. apply zrange_in in Hj. rewrite u64_id by lia.
          rewrite (cget_ok _ None b j), (cget_ok _ None b (j + 1)), (aget_ok _ None b j), (aget_ok _ None b (j + 1)) by lia. cbn [bind].
          rewrite ccomp_eff. destruct (negb _); [|reflexivity].
          rewrite cswap_ok, (swap_ok _ None) by lia. f_equal. apply swapz_sym; lia.
        + clear b Hb. intros j b b' Hj Hb. apply zrange_in in Hj.
          rewrite (aget_ok _ None b j), (aget_ok _ None b (j + 1)) by lia. cbn [bind]. destruct (negb _).
          * rewrite (swap_ok _ None) by lia. intros [= <-]. rewrite len_swapz. exact Hb.
          * intros [= <-]. exact Hb.
      - intros _ b b' _ Hb. apply forM_len; [|exact Hb]. clear b b' Hb. intros j b b' Hj Hb. apply zrange_in in Hj.
        rewrite (aget_ok _ None b j), (aget_ok _ None b (j + 1)) by lia. cbn [bind]. destruct (negb _).
        + rewrite (swap_ok _ None) by lia. intros [= <-]. rewrite len_swapz. exact Hb.
        + intros [= <-]. exact Hb.
    Qed.

    (** the inner loop of selection_sort *)
    Lemma sel_inner (b : arr) i j0 jm r : 0 <= i -> 0 <= j0 -> e < len b -> i <= jm <= Z.max i e -> i < j0 ->
      forM (zrange j0 (e + 1)) (fun j jMin => x <- aget b jMin ;; y <- aget b j ;; Ret (if negb (pcomp eff x y) then j else jMin)) jm = Ret r -> i <= r <= Z.max i e.
    Proof.
      intros Hi Hj0 He. remember (Z.to_nat (e + 1 - j0)) as t eqn:Et. revert j0 jm Hj0 Et.
      induction t as [|t IH]; intros j0 jm Hj0 Et Hm Hij E.
      - rewrite zrange_nil in E by lia. injection E as <-. exact Hm.
      - rewrite zrange_cons in E by lia. cbn [forM] in E.
        rewrite (aget_ok _ None b jm), (aget_ok _ None b j0) in E by lia. cbn [bind] in E.
        eapply IH; [| |  | |exact E]; try lia. destruct (negb _); lia.
    Qed.
    Lemma selection_same (a : arr) : len a < word -> e < len a ->
      cpp_selection_impl le a s (u64 e) tc = selection_sort eff a s e \/ e < -1.
    Proof.
      intros Hl He. destruct (Z_lt_le_dec e (-1)); [right; assumption|left].
      assert (Eu : u64 (u64 e + 1) = e + 1).
      { destruct (Z.eq_dec e (-1)) as [->|]; [reflexivity|]. rewrite (u64_id e) by lia. apply u64_id. lia. }
      unfold cpp_selection_impl, selection_sort. rewrite Eu.
      set (n := len a) in *. assert (Hn : len a = n) by reflexivity. clearbody n.
      apply forM_same with (P := fun b : arr => len b = n); [| |exact Hn].
      - intros i b Hi Hb. apply zrange_in in Hi. rewrite u64_id by lia.
        assert (E1 : forM (zrange (i + 1) (e + 1)) (fun j j_min => x <- cget b j_min ;; y <- cget b j ;; Ret (if negb (ccomp le tc x y) then j else j_min)) i
          = forM (zrange (i + 1) (e + 1)) (fun j jMin => x <- aget b jMin ;; y <- aget b j ;; Ret (if negb (pcomp eff x y) then j else jMin)) i).
        { apply forM_same with (P := fun _ => True); auto. intros j jm _ _. unfold cget.
          destruct (aget b jm); try reflexivity. cbn [bind]. destruct (aget b j); try reflexivity. cbn [bind]. rewrite ccomp_eff. reflexivity. }
        rewrite E1. clear E1. destruct (forM _ _ i) as [r| |] eqn:E; try reflexivity. cbn [bind].
        apply (sel_inner b i) in E; try lia. rewrite cswap_ok by lia.
        destruct (Z.eqb_spec r i) as [->|Hne]; cbn [negb].
        + rewrite swapz_self. reflexivity.
        + rewrite (swap_ok _ None) by lia. f_equal. apply swapz_sym; lia.
      - intros i b b' Hi Hb. apply zrange_in in Hi. destruct (forM _ _ i) as [r| |] eqn:E; try discriminate. cbn [bind].
        apply (sel_inner b i) in E; try lia. destruct (negb _).
        + rewrite (swap_ok _ None) by lia. intros [= <-]. rewrite len_swapz. exact Hb.
        + intros [= <-]. exact Hb.
    Qed.

    Lemma insertion_same (a : arr) : len a < word -> e < len a -> s + 1 < word ->
      cpp_insertion_impl le a s (u64 e) tc = insertion_sort eff a s e \/ e < -1.
    Proof.
      intros Hl He Hsw. destruct (Z_lt_le_dec e (-1)); [right; assumption|left].
      assert (Eu : u64 (u64 e + 1) = e + 1).
      { destruct (Z.eq_dec e (-1)) as [->|]; [reflexivity|]. rewrite (u64_id e) by lia. apply u64_id. lia. }
      unfold cpp_insertion_impl, insertion_sort. rewrite Eu, u64_id by lia.
      set (n := len a) in *. assert (Hn : len a = n) by reflexivity. clearbody n.
      assert (G : forall i b, s + 1 <= i < e + 1 -> len b = n ->
        (temp <- cget b i ;;
         ' (array, j) <- while_loop (S (Z.to_nat (i - s))) (fun '(array, j) =>
          if s <? j then
            x <- cget array (u64 (j - 1)) ;;
            if negb (ccomp le tc x temp) then array' <- cset array j x ;; Ret (Next (array', u64 (j - 1)))
            else Ret (Break (array, j))
          else Ret (Break (array, j))) (b, i) ;;
         cset array j temp) = gap_insert eff b s 1 i).
      { intros i b Hi Hb. unfold gap_insert. rewrite (cget_ok _ None b i), (aget_ok _ None b i) by lia. cbn [bind].
        set (temp := zn None b i). clearbody temp.
        set (g := fun '(array, j) => if s + 1 <=? j then x <- aget array (j - 1) ;;
             if negb (pcomp eff x temp) then array' <- aset array j x ;; Ret (Next (array', j - 1)) else Ret (Break (array, j))
             else Ret (Break (array, j))).
        assert (Inv : wp (while_loop (S (Z.to_nat (i - s))) g (b, i)) (fun '(c, j) => len c = n /\ s <= j <= i)).
        { apply wp_while with (I := fun p => len (fst p) = n /\ s <= snd p <= i) (m := fun p => Z.to_nat (snd p - s)).
          - intros [c j] [Hc Hj]. cbn [fst snd] in *. unfold g. destruct (Z.leb_spec (s + 1) j); [|split; assumption].
            rewrite (aget_ok _ None) by lia. cbn [bind]. destruct (negb _); [|split; assumption].
            rewrite aset_ok by lia. cbn. rewrite len_zupd. lia.
          - cbn. lia.
          - cbn. lia. }
        rewrite (while_same _ _ (fun p => len (fst p) = n /\ s <= snd p <= i) _ g).
        - fold g. destruct (while_loop _ g _) as [[c j]| |]; try reflexivity. cbn [bind]. cbn [wp] in Inv.
          rewrite cset_ok, aset_ok by lia. reflexivity.
        - intros [c j] [Hc Hj]. cbn [fst snd] in *. unfold g. destruct (Z.leb_spec (s + 1) j), (Z.ltb_spec s j); try lia; [|reflexivity].
          rewrite u64_id by lia. rewrite (cget_ok _ None), (aget_ok _ None) by lia. cbn [bind]. rewrite ccomp_eff.
          destruct (negb _); [|reflexivity]. rewrite cset_ok, aset_ok by lia. reflexivity.
        - intros [c j] p' [Hc Hj]. cbn [fst snd] in *. unfold g. destruct (Z.leb_spec (s + 1) j); [|discriminate].
          rewrite (aget_ok _ None) by lia. cbn [bind]. destruct (negb _); [|discriminate]. rewrite aset_ok by lia. cbn [bind].
          intros [= <-]. cbn. rewrite len_zupd. lia.
        - cbn. lia. }
      apply forM_same with (P := fun b : arr => len b = n); [| |exact Hn].
      - intros i b Hi Hb. apply zrange_in in Hi. apply G; [lia|exact Hb].
      - intros i b b' Hi Hb. apply zrange_in in Hi. rewrite <- G by lia. rewrite (cget_ok _ None b i) by lia. cbn [bind].
        destruct (while_loop _ _ _) as [[c j]| |] eqn:E; try discriminate. cbn [bind].
        assert (Inv : wp (while_loop (S (Z.to_nat (i - s))) (fun '(array, j) =>
          if s <? j then
            x <- cget array (u64 (j - 1)) ;;
            if negb (ccomp le tc x (zn None b i)) then array' <- cset array j x ;; Ret (Next (array', u64 (j - 1)))
            else Ret (Break (array, j))
          else Ret (Break (array, j))) (b, i)) (fun '(c, j) => len c = n /\ s <= j <= i)).
        { apply wp_while with (I := fun p => len (fst p) = n /\ s <= snd p <= i) (m := fun p => Z.to_nat (snd p - s)).
          - intros [c1 j1] [Hc Hj]. cbn [fst snd] in *. destruct (Z.ltb_spec s j1); [|split; assumption].
            rewrite u64_id by lia. rewrite (cget_ok _ None) by lia. cbn [bind]. destruct (negb _); [|split; assumption].
            rewrite cset_ok by lia. cbn. rewrite len_zupd. lia.
          - cbn. lia.
          - cbn. lia. }
        rewrite E in Inv. cbn [wp] in Inv. rewrite cset_ok by lia. intros [= <-]. rewrite len_zupd. lia.
    Qed.
  End Rng.
End P.
