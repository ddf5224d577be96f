(** Proofs for the three priority queues. *)
From Verif Require Import Base ArraysProofs LinkedModel LinkedProofs SortSpec HeapModel HeapProofs BinomialModel BinomialSpec BinomialProofs PQModel StackQueueModel.

Section LinkedPQ.
  Context {P V : Type} (comp : P -> P -> bool) (le : P -> P -> Prop) (DC : decides comp le).
  Notation elt := (P * V)%type.

  Lemma dle_refl x : le x x.
  Proof. destruct (comp x x) eqn:E; [apply (dec_true _ _ DC), E|apply (dec_false _ _ DC), E]. Qed.

  (** what _find_peek knows after reading the prefix [pre] *)
  Definition peeked (pre : list elt) (m : elt) (mi : Z) : Prop :=
    (forall y, In y pre -> le (fst m) (fst y)) /\
    ((forall x y, comp x y = true -> ~ le y x) -> forall j y, nth_error pre j = Some y -> Z.of_nat j < mi -> comp (fst m) (fst y) = true).

  Lemma peek_loop h : forall l pre walk m mi fuel i, 
    chain (nx h) walk (map fst l) None -> Forall (fun '(a, k) => ky h a = Some k) l ->
    0 <= mi <= len pre -> nth_error (pre ++ map snd l) (Z.to_nat mi) = Some m -> i = len pre -> peeked pre m mi -> (length l < fuel)%nat ->
    wp (while_loop fuel (fun '(walk, i, max_p, max_i) =>
        match walk with
        | None => Ret (Break (max_p, max_i))
        | Some _ =>
          c <- deref h walk ;;
          if comp (fst (c_key c)) (fst max_p) then Ret (Next (c_next c, i + 1, c_key c, i))
          else Ret (Next (c_next c, i + 1, max_p, max_i))
        end) (walk, i, m, mi))
      (fun '(m', mi') => 0 <= mi' /\ nth_error (pre ++ map snd l) (Z.to_nat mi') = Some m' /\ peeked (pre ++ map snd l) m' mi').
  Proof.
    induction l as [|[a k] l IH]; intros pre walk m mi fuel i C F Hmi Hm Ei Hp Hf.
    - simpl in C. subst walk. destruct fuel; [lia|]. cbn. rewrite app_nil_r in *. split; [lia|]. split; assumption.
    - simpl in C. destruct C as (-> & q & Hq & C). inversion F as [|? ? Hk F']; subst.
      destruct (nx_cell _ _ _ Hq) as (c & Hc & En). assert (Ek : c_key c = k) by (unfold ky in Hk; rewrite Hc in Hk; simpl in Hk; congruence).
      destruct fuel as [|fuel]; [simpl in Hf; lia|]. cbn [while_loop]. rewrite (deref_some _ _ _ Hc). cbn [bind]. rewrite Ek, En.
      simpl map. replace (pre ++ k :: map snd l) with ((pre ++ [k]) ++ map snd l) by (rewrite <- app_assoc; reflexivity).
      destruct Hp as [Hp1 Hp2].
      destruct (comp (fst k) (fst m)) eqn:Ec.
      + apply IH; auto; [rewrite len_app; unfold len; simpl; lia| | | |simpl in Hf; lia].
        * unfold len. rewrite Nat2Z.id, <- app_assoc, nth_error_app2, Nat.sub_diag by lia. reflexivity.
        * rewrite len_app. reflexivity.
        * split.
          -- intros y Hy. apply in_app_iff in Hy. destruct Hy as [Hy|[<- | []]]; [|apply dle_refl].
             eapply (dec_trans _ _ DC); [apply (dec_true _ _ DC), Ec|apply Hp1, Hy].
          -- intros Hs j y Hj Hlt. unfold len in Hlt. rewrite nth_error_app1 in Hj by lia.
             destruct (comp (fst k) (fst y)) eqn:E; [reflexivity|]. exfalso. apply (dec_false _ _ DC) in E.
             apply (Hs _ _ Ec). eapply (dec_trans _ _ DC); [apply Hp1; eapply nth_error_In; eauto|exact E].
      + apply IH; auto; [rewrite len_app; unfold len; simpl; unfold len in Hmi; lia| | | |simpl in Hf; lia].
        * rewrite <- app_assoc. exact Hm.
        * rewrite len_app. reflexivity.
        * split.
          -- intros y Hy. apply in_app_iff in Hy. destruct Hy as [Hy|[<- | []]]; [apply Hp1, Hy|apply (dec_false _ _ DC), Ec].
          -- intros Hs j y Hj Hlt. destruct (Nat.lt_ge_cases j (length pre)) as [Hl|Hl]; [rewrite nth_error_app1 in Hj by lia; eapply Hp2; eauto|].
             unfold len in Hmi. lia.
  Qed.

  Lemma combine_rep (h : list (cell elt)) ps ks : Forall2 (fun a k => ky h a = Some k) ps ks ->
    exists l, map fst l = ps /\ map snd l = ks /\ Forall (fun '(a, k) => ky h a = Some k) l.
  Proof.
    induction 1 as [|a k ps ks H _ (l & E1 & E2 & F)]; [exists []; repeat split; constructor|].
    exists ((a, k) :: l). simpl. rewrite E1, E2. repeat split. constructor; assumption.
  Qed.
  Lemma find_peek_ok (st : ll elt) ps ks : rep st ps None ks -> ks <> [] ->
    wp (lpq_find_peek comp st) (fun '(m, mi) => 0 <= mi /\ nth_error ks (Z.to_nat mi) = Some m /\ peeked ks m mi).
  Proof.
    intros R Hne. unfold lpq_find_peek. pose proof (r_size _ _ _ _ R) as Es. pose proof (rep_len _ _ _ _ R) as El.
    pose proof (rep_size_heap _ _ _ _ R) as Hh.
    destruct ks as [|k ks]; [contradiction|]. rewrite Es, El, len_cons. pose proof (len_nonneg _ ks).
    destruct (Z.eqb_spec (len ks + 1) 0); [lia|].
    destruct (combine_rep _ _ _ (r_keys _ _ _ _ R)) as (l & E1 & E2 & F). pose proof (r_fw _ _ _ _ R) as C.
    destruct l as [|[a k'] l]; [discriminate|]. simpl in E2. injection E2 as -> E2. simpl in E1. subst ps.
    assert (exists c, deref (l_heap st) (l_head st) = Ret c /\ c_key c = k) as (c & Ed & Ek).
    { pose proof (chain_hd _ _ _ _ C) as Hh0. simpl in Hh0. rewrite Hh0. inversion F as [|? ? Hk _]; subst. unfold ky in Hk.
      destruct (nth_error (l_heap st) a) as [c|] eqn:Hc; [|discriminate]. exists c. split; [apply deref_some, Hc|]. simpl in Hk. congruence. }
    rewrite Ed. cbn [bind]. rewrite Ek. change (a :: map fst l) with (map fst ((a, k) :: l)) in C.
    replace (k :: ks) with ([] ++ map snd ((a, k) :: l)) by (simpl; rewrite E2; reflexivity).
    apply (peek_loop (l_heap st) ((a, k) :: l) [] (l_head st) k 0); auto; try lia.
    - unfold len; simpl; lia.
    - split; [intros y []|]. intros _ [|j] y Hj; discriminate.
    - simpl in Hh |- *. rewrite map_length in Hh. lia.
  Qed.

  Lemma del_perm (l : list elt) i x : nth_error l i = Some x -> Permutation l (x :: del l (Z.of_nat i)).
  Proof.
    intros H. unfold del. rewrite Nat2Z.id. assert (E : l = firstn i l ++ x :: skipn (S i) l).
    { revert i H. induction l as [|a l IH]; intros [|i] H; try discriminate; simpl in *; [congruence|]. f_equal. apply IH, H. }
    rewrite E at 1. symmetry. apply Permutation_middle.
  Qed.

  Lemma lpq_pop_spec (st : ll elt) ps (ks : list elt) (m : elt) mi : rep st ps None ks -> 0 <= mi -> nth_error ks (Z.to_nat mi) = Some m ->
    exists st' ps', cls_op SLL st (LExtract mi) = (st', LKey m) /\ rep st' ps' None (del ks mi).
  Proof.
    intros R Hmi Hm. assert (Hlt : (Z.to_nat mi < length ks)%nat) by (apply nth_error_Some; congruence).
    apply (sll_op_sim st ps ks (LExtract mi) (del ks mi) (LKey m) R I).
    cbn [spec_op]. unfold spec_extract, len. destruct (Z.ltb_spec mi 0); [lia|]. destruct (Z.eqb_spec (Z.of_nat (length ks)) 0); [lia|].
    destruct (Z.leb_spec (Z.of_nat (length ks)) mi); [lia|]. rewrite Hm. destruct (Z.ltb_spec mi 0); [lia|reflexivity].
  Qed.

  Lemma lpq_allowed ops : forall (st : ll elt) ps ks l, rep st ps None ks -> Permutation l ks -> pq_allowed le l ops (snd (run_hist (lpq_step comp) ops st)).
  Proof.
    induction ops as [|o ops IH]; intros st ps ks l R Pm; [constructor|]. cbn [run_hist].
    pose proof (r_size _ _ _ _ R) as Es. pose proof (rep_len _ _ _ _ R) as El.
    destruct (lpq_step comp st o) as [st1 r] eqn:E1. destruct (run_hist (lpq_step comp) ops st1) as [s2 rs] eqn:E2.
    assert (Ers : rs = snd (run_hist (lpq_step comp) ops st1)) by (rewrite E2; reflexivity). cbn [snd]. rewrite Ers. clear E2 Ers.
    destruct o as [v p| | |]; cbn [lpq_step] in E1.
    - destruct (sll_op_sim st ps ks (LAppend (p, v)) (ks ++ [(p, v)]) LOk R I eq_refl) as (st' & ps' & E & R'). rewrite E in E1. injection E1 as <- <-.
      constructor. eapply IH; [exact R'|]. rewrite Pm. apply Permutation_cons_append.
    - destruct ks as [|k ks].
      + unfold lpq_find_peek in E1. rewrite Es, El in E1. simpl in E1. injection E1 as <- <-. symmetry in Pm. apply Permutation_nil in Pm. subst l.
        constructor. eapply IH; [exact R|reflexivity].
      + pose proof (find_peek_ok st ps (k :: ks) R ltac:(discriminate)) as W. apply wp_ex in W. destruct W as ([m mi] & Ep & Hmi & Hm & Hpk & _).
        rewrite Ep in E1. destruct (lpq_pop_spec st ps _ m mi R Hmi Hm) as (st' & ps' & E & R'). rewrite E in E1. destruct m as [p v]. injection E1 as <- <-.
        apply nth_error_In in Hm as Hin.
        apply (pa_pop le l p v (del (k :: ks) mi)).
        * split; [eapply Permutation_in; [symmetry; exact Pm|exact Hin]|]. intros y Hy. apply Hpk. eapply Permutation_in; eauto.
        * rewrite Pm. rewrite <- (Z2Nat.id mi) by lia. apply del_perm. exact Hm.
        * eapply IH; [exact R'|reflexivity].
    - destruct ks as [|k ks].
      + unfold lpq_find_peek in E1. rewrite Es, El in E1. simpl in E1. injection E1 as <- <-. symmetry in Pm. apply Permutation_nil in Pm. subst l.
        constructor. eapply IH; [exact R|reflexivity].
      + pose proof (find_peek_ok st ps (k :: ks) R ltac:(discriminate)) as W. apply wp_ex in W. destruct W as ([m mi] & Ep & Hmi & Hm & Hpk & _).
        rewrite Ep in E1. destruct m as [p v]. injection E1 as <- <-. apply nth_error_In in Hm as Hin. constructor; [|eapply IH; eauto].
        split; [eapply Permutation_in; [symmetry; exact Pm|exact Hin]|]. intros y Hy. apply Hpk. eapply Permutation_in; eauto.
    - injection E1 as <- <-. constructor; [|eapply IH; eauto]. rewrite Es, El.
      destruct ks as [|k ks]; [symmetry in Pm; apply Permutation_nil in Pm; subst l; split; reflexivity|].
      rewrite len_cons. pose proof (len_nonneg _ ks). destruct (Z.eqb_spec (len ks + 1) 0); [lia|]. split; [discriminate|].
      intros ->. apply Permutation_nil_cons in Pm. contradiction.
  Qed.

  (** ** stability *)
  Context (ST : forall x y, comp x y = true -> ~ le y x).
  Lemma pq_first_spec (l : list elt) : match pq_first comp l with
    | None => l = []
    | Some (y, r) => exists a b, l = a ++ y :: b /\ r = a ++ b /\ (forall x, In x a -> comp (fst y) (fst x) = true) /\ (forall x, In x l -> le (fst y) (fst x))
    end.
  Proof.
    induction l as [|x l IH]; [reflexivity|]. cbn [pq_first]. destruct (pq_first comp l) as [[y r]|].
    - destruct IH as (a & b & -> & -> & H1 & H2). destruct (comp (fst y) (fst x)) eqn:E.
      + exists (x :: a), b. repeat split; auto.
        * intros z [<- | Hz]; auto.
        * intros z [<- | Hz]; [apply (dec_true _ _ DC), E|auto].
      + exists [], (a ++ y :: b). split; [reflexivity|]. split; [reflexivity|]. split; [intros z []|]. intros z [<- | Hz]; [apply dle_refl|].
        eapply (dec_trans _ _ DC); [apply (dec_false _ _ DC), E|apply H2, Hz].
    - subst l. exists [], []. split; [reflexivity|]. split; [reflexivity|]. split; [intros z []|]. intros z [<- | []]. apply dle_refl.
  Qed.
  Lemma first_unique (l : list elt) a1 y1 b1 m i : l = a1 ++ y1 :: b1 -> (forall x, In x a1 -> comp (fst y1) (fst x) = true) -> (forall x, In x l -> le (fst y1) (fst x)) ->
    nth_error l i = Some m -> (forall j y, nth_error l j = Some y -> (j < i)%nat -> comp (fst m) (fst y) = true) -> (forall x, In x l -> le (fst m) (fst x)) ->
    i = length a1 /\ m = y1.
  Proof.
    intros El H1 H2 Hm H3 H4. 
    assert (Hy : nth_error l (length a1) = Some y1) by (subst l; rewrite nth_error_app2, Nat.sub_diag by lia; reflexivity).
    assert (i = length a1).
    { destruct (Nat.lt_trichotomy i (length a1)) as [Hlt|[Heq|Hlt]]; [|exact Heq|].
      - exfalso. assert (Hi : In m a1) by (subst l; rewrite nth_error_app1 in Hm by lia; eapply nth_error_In; eauto).
        apply (ST _ _ (H1 _ Hi)). apply H4. eapply nth_error_In; eauto.
      - exfalso. apply (ST _ _ (H3 _ _ Hy Hlt)). apply H2. eapply nth_error_In; eauto. }
    subst i. split; [reflexivity|congruence].
  Qed.
  Lemma find_peek_first (st : ll elt) ps ks : rep st ps None ks -> ks <> [] ->
    exists m mi, lpq_find_peek comp st = Ret (m, mi) /\ 0 <= mi /\ nth_error ks (Z.to_nat mi) = Some m /\ pq_first comp ks = Some (m, del ks mi).
  Proof.
    intros R Hne. pose proof (find_peek_ok st ps ks R Hne) as W. apply wp_ex in W. destruct W as ([m mi] & Ep & Hmi & Hm & Hpk & Hst).
    exists m, mi. repeat split; auto. pose proof (pq_first_spec ks) as S. destruct (pq_first comp ks) as [[y r]|]; [|contradiction].
    destruct S as (a & b & El & -> & H1 & H2).
    destruct (first_unique ks a y b m (Z.to_nat mi) El H1 H2 Hm) as [Ei Em]; auto.
    { intros j z Hj Hlt. eapply (Hst ST j z Hj). lia. }
    assert (G : forall a (y : elt) b, firstn (length a) (a ++ y :: b) ++ skipn (S (length a)) (a ++ y :: b) = a ++ b).
    { clear. induction a as [|x a IH]; intros y b; [reflexivity|]. simpl length. cbn [app firstn]. f_equal. apply IH. }
    subst m. unfold del. rewrite Ei. f_equal. f_equal. rewrite El. symmetry. apply G.
  Qed.

  Lemma lpq_stable ops : forall (st : ll elt) ps ks, rep st ps None ks ->
    snd (run_hist (lpq_step comp) ops st) = snd (run_hist (pq_stable_step comp) ops ks).
  Proof.
    induction ops as [|o ops IH]; intros st ps ks R; [reflexivity|]. cbn [run_hist].
    pose proof (r_size _ _ _ _ R) as Es. pose proof (rep_len _ _ _ _ R) as El.
    assert (G : forall st' ps' ks' r, lpq_step comp st o = (st', r) -> rep st' ps' None ks' -> pq_stable_step comp ks o = (ks', r) ->
      snd (let (s1, r) := lpq_step comp st o in let (s2, rs) := run_hist (lpq_step comp) ops s1 in (s2, r :: rs)) =
      snd (let (s1, r) := pq_stable_step comp ks o in let (s2, rs) := run_hist (pq_stable_step comp) ops s1 in (s2, r :: rs))).
    { intros st' ps' ks' r E1 R' E2. rewrite E1, E2. specialize (IH st' ps' ks' R').
      destruct (run_hist (lpq_step comp) ops st'), (run_hist (pq_stable_step comp) ops ks'). simpl in *. congruence. }
    destruct o as [v p| | |].
    - destruct (sll_op_sim st ps ks (LAppend (p, v)) (ks ++ [(p, v)]) LOk R I eq_refl) as (st' & ps' & E & R').
      eapply (G st' ps' (ks ++ [(p, v)])); [|exact R'|reflexivity]. cbn [lpq_step]. rewrite E. reflexivity.
    - destruct ks as [|k ks].
      + eapply (G st ps []); [|exact R|reflexivity]. cbn [lpq_step]. unfold lpq_find_peek. rewrite Es, El. reflexivity.
      + destruct (find_peek_first st ps (k :: ks) R ltac:(discriminate)) as (m & mi & Ep & Hmi & Hm & Ef).
        destruct (lpq_pop_spec st ps _ m mi R Hmi Hm) as (st' & ps' & E & R'). destruct m as [p v].
        eapply (G st' ps' (del (k :: ks) mi)); [|exact R'|].
        * cbn [lpq_step]. rewrite Ep, E. reflexivity.
        * cbn [pq_stable_step]. rewrite Ef. reflexivity.
    - destruct ks as [|k ks].
      + eapply (G st ps []); [|exact R|reflexivity]. cbn [lpq_step]. unfold lpq_find_peek. rewrite Es, El. reflexivity.
      + destruct (find_peek_first st ps (k :: ks) R ltac:(discriminate)) as (m & mi & Ep & Hmi & Hm & Ef). destruct m as [p v].
        eapply (G st ps (k :: ks)); [|exact R|].
        * cbn [lpq_step]. rewrite Ep. reflexivity.
        * cbn [pq_stable_step]. rewrite Ef. reflexivity.
    - eapply (G st ps ks); [reflexivity|exact R|]. cbn [pq_stable_step]. rewrite Es, El. destruct ks as [|k ks]; [reflexivity|].
      rewrite len_cons. pose proof (len_nonneg _ ks). destruct (Z.eqb_spec (len ks + 1) 0); [lia|reflexivity].
  Qed.
End LinkedPQ.

Section HeapPQ.
  Context {P V : Type} (comp : P -> P -> bool) (le : P -> P -> Prop) (DC : decides comp le).
  Lemma hpq_allowed ops : forall h l, hok le 2 h -> Permutation l h -> pq_allowed le l ops (snd (run_hist (@hpq_step P V comp) ops h)).
  Proof.
    induction ops as [|o ops IH]; intros h l O Pm; [constructor|]. cbn [run_hist].
    destruct (hpq_step comp h o) as [h1 r] eqn:E1. destruct (run_hist (hpq_step comp) ops h1) as [s2 rs] eqn:E2.
    assert (Ers : rs = snd (run_hist (hpq_step comp) ops h1)) by (rewrite E2; reflexivity). cbn [snd]. rewrite Ers. clear E2 Ers.
    destruct o as [v p| | |]; cbn [hpq_step] in E1.
    - pose proof (insert_hok comp le DC 2 ltac:(lia) h p v O) as W. apply wp_ex in W. destruct W as (h' & E & Ph & Oh). rewrite E in E1. injection E1 as <- <-.
      constructor. apply IH; [exact Oh|]. rewrite Pm. exact Ph.
    - destruct h as [|x h].
      + change (heap_extract comp 2 []) with (@Raise ((P * V) * list (P * V)) IndexError) in E1. injection E1 as <- <-.
        symmetry in Pm. apply Permutation_nil in Pm. subst l. constructor. apply IH; [exact O|reflexivity].
      + pose proof (extract_hok comp le DC 2 ltac:(lia) (x :: h) ltac:(discriminate) O) as W. apply wp_ex in W.
        destruct W as ([[p v] h'] & E & Ph & M & Oh). rewrite E in E1. injection E1 as <- <-.
        apply (pa_pop le l p v h').
        * split; [eapply Permutation_in; [symmetry; exact Pm|]; eapply Permutation_in; [symmetry; exact Ph|left; reflexivity]|].
          intros y Hy. apply (M y). eapply Permutation_in; eauto.
        * rewrite Pm. exact Ph.
        * apply IH; [exact Oh|reflexivity].
    - destruct h as [|x h].
      + change (heap_is_empty (@nil (P * V))) with true in E1. injection E1 as <- <-.
        symmetry in Pm. apply Permutation_nil in Pm. subst l. constructor. apply IH; [exact O|reflexivity].
      + assert (Ee : heap_is_empty (x :: h) = false) by (unfold heap_is_empty; rewrite len_cons; pose proof (len_nonneg _ h); destruct (Z.eqb_spec (len h + 1 - 1) (-1)); [lia|reflexivity]).
        rewrite Ee in E1. rewrite (aget_ok _ x) in E1 by (rewrite len_cons; pose proof (len_nonneg _ h); lia).
        change (zn x (x :: h) 0) with x in E1. 
        pose proof (extract_hok comp le DC 2 ltac:(lia) (x :: h) ltac:(discriminate) O) as W. apply wp_ex in W.
        destruct W as ([y h'] & E & Ph & M & Oh).
        assert (y = x).
        { revert E. unfold heap_extract. unfold heap_is_empty in Ee. rewrite Ee. rewrite (aget_ok _ x) by (rewrite len_cons; pose proof (len_nonneg _ h); lia). cbn [bind].
          destruct (SortModel.swap _ _ _); cbn [bind]; try discriminate. destruct (heapify _ _ _ _); cbn [bind]; try discriminate. intros E. injection E as <- _. reflexivity. }
        subst y. destruct x as [p v]. injection E1 as <- <-. constructor; [|apply IH; assumption].
        split; [eapply Permutation_in; [symmetry; exact Pm|left; reflexivity]|]. intros y Hy. apply (M y). eapply Permutation_in; eauto.
    - injection E1 as <- <-. constructor; [|apply IH; assumption].
      destruct h as [|x h]; [symmetry in Pm; apply Permutation_nil in Pm; subst l; split; reflexivity|].
      unfold heap_is_empty. rewrite len_cons. pose proof (len_nonneg _ h). destruct (Z.eqb_spec (len h + 1 - 1) (-1)); [lia|]. split; [discriminate|].
      intros ->. apply Permutation_nil_cons in Pm. contradiction.
  Qed.
  Lemma hok_nil : hok le 2 (@nil (P * V)).
  Proof. pose proof (build_hok comp le DC 2 ltac:(lia) (@nil (P * V))) as W. apply wp_ex in W. destruct W as (h & E & Ph & O). apply Permutation_nil in Ph. subst h. exact O. Qed.
End HeapPQ.

Lemma bh_elems_nil {V} (h : bheap V) : bh_elems h = [] -> h = [].
Proof. destruct h as [|[o [k d ch]] h]; [reflexivity|discriminate]. Qed.
Lemma bpq_allowed {V} ops : forall (h : bheap V) l, bh_ok h -> Permutation l (bh_elems h) -> pq_allowed Z.le l ops (snd (run_hist bpq_step ops h)).
Proof.
  induction ops as [|o ops IH]; intros h l O Pm; [constructor|]. cbn [run_hist].
  destruct (bpq_step h o) as [h1 r] eqn:E1. destruct (run_hist bpq_step ops h1) as [s2 rs] eqn:E2.
  assert (Ers : rs = snd (run_hist bpq_step ops h1)) by (rewrite E2; reflexivity). cbn [snd]. rewrite Ers. clear E2 Ers.
  destruct o as [v p| | |]; cbn [bpq_step] in E1.
  - pose proof (BinomialProofs.insert_ok h p v O) as W. apply wp_ex in W. destruct W as (h' & E & Oh & Ph). rewrite E in E1. injection E1 as <- <-.
    constructor. apply IH; [exact Oh|]. rewrite Pm. exact Ph.
  - destruct h as [|t h].
    + injection E1 as <- <-. symmetry in Pm. apply Permutation_nil in Pm. subst l. constructor. apply IH; [exact O|reflexivity].
    + destruct (delete_min_ok _ O ltac:(discriminate)) as (m & mi & h' & Ef & Ed & Oh & Ph & L). rewrite Ef in E1. cbn [bind] in E1. rewrite Ed in E1. cbn [bind] in E1. injection E1 as <- <-.
      apply (pa_pop Z.le l (b_key m) (b_data m) (bh_elems h')).
      * split; [eapply Permutation_in; [symmetry; exact Pm|]; eapply Permutation_in; [symmetry; exact Ph|left; reflexivity]|].
        intros y Hy. apply (L y). eapply Permutation_in; eauto.
      * rewrite Pm. exact Ph.
      * apply IH; [exact Oh|reflexivity].
  - destruct h as [|t h].
    + injection E1 as <- <-. symmetry in Pm. apply Permutation_nil in Pm. subst l. constructor. apply IH; [exact O|reflexivity].
    + destruct (delete_min_ok _ O ltac:(discriminate)) as (m & mi & h' & Ef & Ed & Oh & Ph & L). rewrite Ef in E1. injection E1 as <- <-.
      constructor; [|apply IH; assumption].
      split; [eapply Permutation_in; [symmetry; exact Pm|]; eapply Permutation_in; [symmetry; exact Ph|left; reflexivity]|].
      intros y Hy. apply (L y). eapply Permutation_in; eauto.
  - injection E1 as <- <-. constructor; [|apply IH; assumption].
    destruct h as [|t h]; [symmetry in Pm; apply Permutation_nil in Pm; subst l; split; reflexivity|]. split; [discriminate|].
    intros ->. apply Permutation_nil in Pm. apply bh_elems_nil in Pm. discriminate.
Qed.
