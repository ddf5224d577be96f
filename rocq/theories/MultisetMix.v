(** Proofs: Multiset, adds and removes in any order. *)
From Coq Require Import Sorting.Sorted.
From Verif Require Import Base TreeModel TreeModel2 TreeSpec TreeProofs TreeRotate TreeBst TreeTrav TreeQuery TreeLca TreeDel TreeHist TreeBalSpec TreeAvl TreeAvl2 TreeSim TreeTreap TreeSplay TreeRb TreeReins TreeMulti TreeHist2Spec TreeHist2 TreeHist3 TreeMixSpec TreeMix2 TreeMix7 TreeMix8 MultisetSpec MultisetProofs MultisetMixSpec.

Lemma is_key_In {D} (l : list (Z * option D)) k : is_key l k = true <-> In k (map fst l).
Proof. unfold is_key. rewrite existsb_exists, in_map_iff. split; intros (e & A & B); exists e; [apply Z.eqb_eq in B|]; auto. split; [exact B|]. apply Z.eqb_eq. exact A. Qed.
Lemma put_keys {D} (l : list (Z * option D)) k d z : In z (map fst (put k d l)) <-> z = k \/ In z (map fst l).
Proof.
  unfold put. rewrite map_app, in_app_iff. cbn [map In fst]. rewrite !in_map_iff. split.
  - intros [(e & A & B)|[A|(e & A & B)]]; [right|left; congruence|right]; apply filter_In in B as [B _]; exists e; auto.
  - intros [->|(e & A & B)]; [auto|]. destruct (Z.lt_trichotomy z k) as [L|[->|L]]; [left|auto|right; right]; exists e; (split; [exact A|]); apply filter_In; (split; [exact B|]); apply Z.ltb_lt; lia.
Qed.
Lemma take_keys {D} (l : list (Z * option D)) k z : In z (map fst (take_out k l)) <-> z <> k /\ In z (map fst l).
Proof.
  unfold take_out. rewrite !in_map_iff. split.
  - intros (e & A & B). apply filter_In in B as [B C]. apply negb_true_iff, Z.eqb_neq in C. split; [congruence|]. exists e. auto.
  - intros (A & e & B & C). exists e. split; [exact B|]. apply filter_In. split; [exact C|]. apply negb_true_iff, Z.eqb_neq. congruence.
Qed.
Definition held_keys (s : mmap Z) (l : list Z) : Prop := forall x, In x (map fst (m_ents s)) <-> In x l.
Lemma m_put_ents {D} k d (s : mmap D) : m_ents (m_put k d s) = put k d (m_ents s).
Proof. unfold m_put. destruct (is_key _ _); reflexivity. Qed.
Lemma run_mixed ops : forall m done T s s' fs, counted m done -> rbgood (ms_tree m) T s -> held_keys s (bag done) -> removes_added (done ++ ops) ->
  m_run absent_key spare_older s (value_calls (bag done) ops) = Some (s', fs) ->
  exists m' T', ms_run m ops = Ret m' /\ rbgood (ms_tree m') T' s' /\ held_keys s' (bag (done ++ ops)).
Proof.
  induction ops as [|o ops IH]; intros m done T s s' fs HC G HK RA HR; cbn [ms_run value_calls m_run] in *.
  - injection HR as <- <-. exists m, T. rewrite app_nil_r. auto.
  - assert (STEP : forall m1 T1 s1 fs1, ms_step m o = Ret m1 -> rbgood (ms_tree m1) T1 s1 -> held_keys s1 (mstep (bag done) o) -> m_run absent_key spare_older s1 (value_calls (mstep (bag done) o) ops) = Some (s', fs1) ->
      exists m' T', (m <- ms_step m o ;; ms_run m ops) = Ret m' /\ rbgood (ms_tree m') T' s' /\ held_keys s' (bag (done ++ o :: ops))).
    { intros m1 T1 s1 fs1 E1 G1 K1 R1. rewrite E1. cbn [bind]. change (done ++ o :: ops) with (done ++ [o] ++ ops) in *. rewrite app_assoc in *. rewrite <- bag_snoc in *. apply (IH m1 (done ++ [o]) T1 s1 s' fs1); auto. eapply step_counted; eassumption. }
    destruct HC as (H1 & H2 & H3). pose proof (occurs_nonneg) as ON. destruct o as [x|x]; cbn [mstep] in *.
    + cbn [ms_step] in *. unfold ms_add in STEP |- *. set (c := cset (ms_counter m) x (ms_count m x + 1)) in *. assert (EC : ms_count (mkms c (ms_tree m) (ms_n m + 1)) x = occurs x (bag done) + 1) by (unfold ms_count; cbn [ms_counter]; unfold c; rewrite cget_cset, Z.eqb_refl, H1; reflexivity). rewrite EC in *.
      specialize (ON x (bag done)). destruct (Z.eqb_spec (occurs x (bag done)) 0) as [E0|N0].
      * rewrite E0 in *. cbn [Z.add Z.eqb Pos.eqb ms_tree ms_n] in *. cbn [m_run] in HR. destruct (absent_key s x) eqn:EA; [|discriminate]. unfold absent_key in EA. apply negb_true_iff in EA. destruct (r_insert _ T s x None G EA) as (b1 & T1 & E1 & G1 & _). rewrite E1 in *. cbn [bind] in *.
        apply (STEP _ T1 (m_put x None s) fs eq_refl); [exact G1| |exact HR]. intros z. rewrite m_put_ents, put_keys, (HK z). cbn [In]. intuition congruence.
      * destruct (Z.eqb_spec (occurs x (bag done) + 1) 1); [lia|]. apply (STEP _ T s fs eq_refl); [exact G| |exact HR]. intros z. rewrite (HK z). cbn [In]. split; [auto|]. intros [<- |X]; [apply occurs_In; lia|exact X].
    + assert (HA : In (Add x) done) by (apply (RA done x ops eq_refl)). cbn [ms_step] in *. unfold ms_remove in STEP |- *. destruct (cget (ms_counter m) x) as [c|] eqn:EG; [|exfalso; apply (proj1 (H3 x) EG); exact HA].
      assert (EO : occurs x (bag done) = c) by (rewrite <- H1; unfold ms_count; rewrite EG; reflexivity). rewrite EO in HR. specialize (ON x (bag done)). destruct (Z.eqb_spec c 1) as [E0|N0].
      * cbn [m_run] in HR. destruct (spare_older s x) eqn:EM; [|discriminate]. destruct (m_run absent_key spare_older (m_take x s) _) as [[s1 fs1]|] eqn:ER; [|discriminate]. injection HR as <- <-. destruct (r_delete _ T s x G EM) as (b1 & T1 & E1 & G1 & _). rewrite E1 in *. cbn [bind] in *. replace (0 <? c) with true in * by lia.
        apply (STEP _ T1 (m_take x s) fs1 eq_refl); [exact G1| |exact ER]. intros z. cbn [m_take m_ents]. rewrite take_keys, (HK z), <- !occurs_In, remove_one_occurs, EO. destruct (Z.eqb_spec z x) as [->|N]; cbn [andb]; [rewrite EO; destruct (Z.ltb_spec 0 c)|]; lia.
      * cbn [bind] in *. assert (HK' : held_keys s (remove_one x (bag done))). { intros z. rewrite (HK z), <- !occurs_In, remove_one_occurs, EO. destruct (Z.eqb_spec z x) as [->|N]; cbn [andb]; [rewrite EO; destruct (Z.ltb_spec 0 c); lia|lia]. }
        destruct (0 <? c); apply (STEP _ T s fs eq_refl); auto.
Qed.
Lemma r_one os k (d : option Z) : rbgood (one os (mkinfo (Some k) d 0 1 true None (Some 0))) (N E 0 (mkinfo (Some k) d 0 1 true None (Some 0)) E) (m_first k d).
Proof.
  set (x := mkinfo (Some k) d 0 1 true None (Some 0)). split; [apply (m_one os x k d eq_refl)|split; constructor|reflexivity|reflexivity|exists 1; cbn; left; auto|]. intros i. unfold what, one, b_mem. cbn. unfold cell, aget. intros HI. destruct (Z.ltb_spec i 0); cbn [orb] in HI; [exfalso; apply HI; reflexivity|]. match type of HI with context [?a <=? i] => destruct (Z.leb_spec a i) as [HL|HL]; [exfalso; apply HI; reflexivity|]; change a with 1 in HL end. left. lia.
Qed.
Lemma history_mixed ops s fs : removes_added ops -> m_history absent_key spare_older None (value_calls [] ops) = Some (s, fs) ->
  exists m T, ms_history ops = Ret m /\ rbgood (ms_tree m) T s /\ held_keys s (bag ops).
Proof.
  intros RA HR. destruct ops as [|[x|x] ops]; [discriminate| |destruct (RA [] x ops eq_refl)]. cbn [value_calls occurs count_occ Z.of_nat Z.eqb m_history] in HR. change (ms_history (Add x :: ops)) with (m <- ms_add (mkms [] (fresh false) 0) x ;; ms_run m ops).
  assert (E1 : ms_add (mkms [] (fresh false) 0) x = Ret (mkms [(x, 1)] (one false (mkinfo (Some x) None 0 1 true None (Some 0))) 1)). { unfold ms_add, ms_count. cbn [ms_counter cget cset ms_tree ms_n Z.add Pos.add]. rewrite Z.eqb_refl. cbn [Z.eqb Pos.eqb]. rewrite rb_first. reflexivity. }
  rewrite E1. cbn [bind]. change (Add x :: ops) with ([Add x] ++ ops). eapply (run_mixed ops _ [Add x]) with (s := m_first x None) (fs := fs).
  - eapply step_counted with (ops := []); [apply new_counted|exact E1].
  - apply r_one.
  - intros z. cbn. tauto.
  - exact RA.
  - exact HR.
Qed.
