(** The C++ trees (CppTreeModel.v) do what the Python trees (TreeModel.v) do, as long as the Python code returns and no compaction of the array takes place:
    a simulation. [rk] names the key objects by integers in the order of the comparator. *)
From Verif Require Import Base ArraysProofs DistProofs2 TreeModel TreeModel2 CppArrayModel CppTreeModel CppTreeQuery.

Definition sim {A B} (R : A -> B -> Prop) (c : res A) (p : res B) : Prop := forall y, p = Ret y -> exists x, c = Ret x /\ R x y.
Definition ctlR {S S' R R'} (I : S -> S' -> Prop) (Q : R -> R' -> Prop) (a : ctl S R) (b : ctl S' R') : Prop :=
  match a, b with Next s, Next s' => I s s' | Break r, Break r' => Q r r' | _, _ => False end.
Lemma sim_ret A B (R : A -> B -> Prop) x y : R x y -> sim R (Ret x) (Ret y).
Proof. intros H z E. inversion E; subst. eauto. Qed.
Lemma sim_bind A A' B B' (R : A -> A' -> Prop) (Q : B -> B' -> Prop) c p k k' : sim R c p -> (forall x y, R x y -> sim Q (k x) (k' y)) -> sim Q (bind c k) (bind p k').
Proof. intros H1 H2 z E. destruct p as [y| |]; cbn in E; try discriminate. destruct (H1 y eq_refl) as (x & -> & HR). cbn. apply (H2 x y HR z E). Qed.
Lemma sim_raise A B (R : A -> B -> Prop) c e : sim R c (Raise e).
Proof. intros z E. discriminate. Qed.
Lemma sim_out A B (R : A -> B -> Prop) c : sim R c OutOfFuel.
Proof. intros z E. discriminate. Qed.
Lemma sim_while S S' R R' (I : S -> S' -> Prop) (Q : R -> R' -> Prop) body body' :
  (forall s s', I s s' -> sim (ctlR I Q) (body s) (body' s')) -> forall n s s', I s s' -> sim Q (while_loop n body s) (while_loop n body' s').
Proof.
  intros H n. induction n as [|n IH]; intros s s' HI; [apply sim_out|]. cbn [while_loop]. specialize (H s s' HI). intros y E.
  destruct (body' s') as [[s1|r1]| |]; try discriminate.
  - destruct (H _ eq_refl) as ([s2|r2] & -> & HR); cbn in HR; [|destruct HR]. apply (IH s2 s1 HR y E).
  - destruct (H _ eq_refl) as ([s2|r2] & -> & HR); cbn in HR; [destruct HR|]. inversion E; subst. eauto.
Qed.
Lemma sim_forM B B' S S' (E : B -> B' -> Prop) (R : S -> S' -> Prop) body body' : (forall b b' s s', E b b' -> R s s' -> sim R (body b s) (body' b' s')) ->
  forall l l', Forall2 E l l' -> forall s s', R s s' -> sim R (forM l body s) (forM l' body' s').
Proof.
  intros H l l' HF. induction HF as [|b b' l l' HE HF IH]; intros s s' HR; cbn [forM]; [apply sim_ret; exact HR|]. eapply sim_bind; [apply H; eauto|]. intros x y HX. apply IH. exact HX.
Qed.
Lemma sim_ext A B (R : A -> B -> Prop) c p : (forall y, p = Ret y -> exists x, c = Ret x /\ R x y) -> sim R c p.
Proof. exact (fun H => H). Qed.
Lemma sim_mono A B (R Q : A -> B -> Prop) c p : sim R c p -> (forall x y, R x y -> Q x y) -> sim Q c p.
Proof. intros H HQ y E. destruct (H y E) as (x & E1 & HR). eauto. Qed.

Section Sim.
  Context {K D : Type} (same : K -> K -> bool) (val : K -> Z) (rk : K -> Z).
  Hypothesis same_ok : forall x y, same x y = true <-> x = y.
  Hypothesis rk_inj : forall x y, rk x = rk y -> x = y.

  Definition di (x : cinfo K D) : info D := mkinfo (option_map rk (ck_key x)) (ck_data x) (ck_height x) (ck_size x) (ck_isroot x) (ck_prio x) (ck_color x).
  Definition dn (n : cnode K D) : node D := mknode (di (cn_inf n)) (cn_left n) (cn_right n) (cn_parent n).
  Definition dm (t : cmem K D) : mem D := map (option_map dn) t.
  Definition dt (b : ctree K D) : bst D := mkbst (mkaft (dm (ct_mem b)) (cr_num (ct_arr b)) (cr_last (ct_arr b))) (ct_root b) (ct_size b) None (ct_os b).
  Definition wfc (b : ctree K D) : Prop :=
    cr_isize (ct_arr b) = len (ct_mem b) /\ cr_size (ct_arr b) = len (ct_mem b) /\ forall x y, ct_comp b x y = Z.b2z (rk x <? rk y).
  Definition RN (n : cnode K D) (n' : node D) : Prop := n' = dn n.
  Definition RM (N : nat) (t : cmem K D) (t' : mem D) : Prop := t' = dm t /\ length t = N.
  Definition RB (b : ctree K D) (b' : bst D) : Prop := b' = dt b /\ wfc b.

  Lemma dm_len t : length (dm t) = length t. Proof. apply map_length. Qed.
  Lemma dm_lenz t : len (dm t) = len t. Proof. unfold len. rewrite dm_len. reflexivity. Qed.
  Lemma rk_eqb x y : same x y = (rk x =? rk y).
  Proof.
    destruct (same x y) eqn:E.
    - apply same_ok in E. subst. symmetry. apply Z.eqb_refl.
    - symmetry. apply Z.eqb_neq. intros H. apply rk_inj in H. apply same_ok in H. congruence.
  Qed.
  Lemma sameo_ok (a b : option K) : sameo same a b = oeqb (option_map rk a) (option_map rk b).
  Proof. destruct a, b; cbn; auto. apply rk_eqb. Qed.

  Lemma sim_get N t t' i : RM N t t' -> sim RN (cget t i) (tget t' i).
  Proof.
    intros [-> _] n' E. destruct i as [i|]; [|discriminate]. cbn [tget cget] in *. unfold aget in E. unfold rawget. rewrite dm_lenz in E.
    destruct ((i <? 0) || (len t <=? i)) eqn:Ei; [discriminate|]. unfold dm in E. rewrite nth_error_map in E.
    destruct (nth_error t (Z.to_nat i)) as [[n|]|]; cbn in E; try discriminate. inversion E; subst. cbn. exists n. split; reflexivity.
  Qed.
  Lemma upd_map A B (f : A -> B) l n v : upd (map f l) n (f v) = map f (upd l n v).
  Proof. revert n. induction l as [|a l IH]; intros [|n]; cbn; auto. rewrite IH. reflexivity. Qed.
  Lemma upd_len A (l : list A) n v : length (upd l n v) = length l.
  Proof. revert n. induction l as [|a l IH]; intros [|n]; cbn; auto. Qed.
  Lemma sim_set N t t' i c : RM N t t' -> 0 <= i -> sim (RM N) (rawset t i c) (aset t' i (option_map dn c)).
  Proof.
    intros [-> HN] Hi. unfold aset, rawset. rewrite dm_lenz. destruct (i <? 0) eqn:E0; [lia|]. cbn [orb]. destruct (len t <=? i) eqn:E1; cbn [orb]; rewrite ?E0; [apply sim_raise|].
    apply sim_ret. split; [apply upd_map|rewrite upd_len; exact HN].
  Qed.
  Lemma sim_mod N t t' i f g : RM N t t' -> (forall n, g (dn n) = dn (f n)) -> sim (RM N) (cmod t i f) (tmod t' i g).
  Proof.
    intros HM Hf. unfold cmod, tmod. destruct i as [i|]; [|apply sim_raise]. intros t2 E.
    destruct (tget t' (Some i)) as [n'| |] eqn:Eg; try discriminate. cbn [bind] in E. destruct (sim_get N t t' (Some i) HM n' Eg) as (n & En & ->). rewrite En. cbn [bind].
    assert (0 <= i). { cbn [cget] in En. unfold rawget in En. destruct (i <? 0) eqn:Ei; [discriminate|lia]. }
    rewrite Hf in E. apply (sim_set N t t' i (Some (f n)) HM H t2 E).
  Qed.

  Lemma RB_mem b b' : RB b b' -> RM (length (ct_mem b)) (ct_mem b) (b_mem b').
  Proof. intros [-> _]. split; reflexivity. Qed.
  Lemma RB_set b b' t t' : RB b b' -> RM (length (ct_mem b)) t t' -> RB (cset_mem b t) (set_mem b' t').
  Proof. intros [-> (W1 & W2 & W3)] [-> HL]. split; [reflexivity|]. unfold wfc, ct_mem, cset_mem in *. cbn in *. unfold len in *. rewrite HL. auto. Qed.
  Lemma RB_root b b' r : RB b b' -> RB (cset_root b r) (set_root b' r).
  Proof. intros [-> W]. split; [reflexivity|exact W]. Qed.
  Lemma RB_size b b' s : RB b b' -> RB (cset_size b s) (set_bsize b' s).
  Proof. intros [-> W]. split; [reflexivity|exact W]. Qed.
  Lemma RB_fuel b b' : RB b b' -> cfuel (ct_mem b) = fuel (b_mem b').
  Proof. intros [-> _]. unfold cfuel, fuel. cbn. rewrite dm_len. reflexivity. Qed.
  Lemma RB_rt b b' : RB b b' -> b_root b' = ct_root b. Proof. intros [-> _]. reflexivity. Qed.
  Lemma RB_sz b b' : RB b b' -> b_size b' = ct_size b. Proof. intros [-> _]. reflexivity. Qed.
  Lemma RB_os b b' : RB b b' -> b_os b' = ct_os b. Proof. intros [-> _]. reflexivity. Qed.
  Lemma RM_fuel N t t' : RM N t t' -> cfuel t = fuel t'.
  Proof. intros [-> _]. unfold cfuel, fuel. rewrite dm_len. reflexivity. Qed.

  Lemma sim_comp b b' x y x' y' : RB b b' -> x' = option_map rk x -> y' = option_map rk y -> sim (fun c l => c = Z.b2z l) (ccomp b x y) (comparator b' x' y').
  Proof.
    intros [-> (_ & _ & W)] -> -> l E. unfold comparator in E. cbn in E. destruct x as [x|]; cbn in *; try discriminate. destruct y as [y|]; cbn in *; try discriminate. inversion E; subst. rewrite W. eauto.
  Qed.

  Ltac rm := first [eassumption | eapply RB_mem; eassumption].
  Ltac step :=
    match goal with
    | |- sim _ _ (Raise _) => apply sim_raise
    | |- sim _ _ OutOfFuel => apply sim_out
    | |- sim _ (bind (cget _ _) _) (bind (tget _ _) _) => eapply sim_bind; [eapply sim_get; rm | let x := fresh "n" in let y := fresh "m" in let z := fresh "HN" in intros x y z; unfold RN in z; subst y]
    | |- sim _ (cget _ _) (tget _ _) => eapply sim_get; rm
    | |- sim _ (bind (cmod _ _ _) _) (bind (tmod _ _ _) _) => eapply sim_bind; [eapply sim_mod; [rm | reflexivity] | let x := fresh "t" in let y := fresh "u" in let z := fresh "HM" in intros x y z]
    | |- sim _ (cmod _ _ _) (tmod _ _ _) => eapply sim_mod; [rm | reflexivity]
    | |- sim _ (match ?x with Some _ => _ | None => _ end) (match ?x with Some _ => _ | None => _ end) => destruct x
    | |- sim _ (if ?x then _ else _) (if ?x then _ else _) => destruct x
    end.
  Lemma dn_left n : n_left (dn n) = cn_left n. Proof. reflexivity. Qed.
  Lemma dn_right n : n_right (dn n) = cn_right n. Proof. reflexivity. Qed.
  Lemma dn_parent n : n_parent (dn n) = cn_parent n. Proof. reflexivity. Qed.
  Lemma dn_inf n : n_inf (dn n) = di (cn_inf n). Proof. reflexivity. Qed.
  Lemma dn_key n : n_key (dn n) = option_map rk (cn_key n). Proof. reflexivity. Qed.
  Ltac red1 := rewrite ?dn_left, ?dn_right, ?dn_parent, ?dn_inf, ?dn_key; cbn [di k_height k_size k_data k_isroot].
  Ltac go := repeat (red1; step).

  Lemma sim_left_size N t t' n : RM N t t' -> sim eq (c_left_size t n) (left_size t' (dn n)).
  Proof. intros HM. unfold c_left_size, left_size. go; apply sim_ret; reflexivity. Qed.
  Lemma sim_right_size N t t' n : RM N t t' -> sim eq (c_right_size t n) (right_size t' (dn n)).
  Proof. intros HM. unfold c_right_size, right_size. go; apply sim_ret; reflexivity. Qed.
  Lemma sim_fix_size N t t' i : RM N t t' -> sim (RM N) (c_fix_size t i) (fix_size t' i).
  Proof.
    intros HM. unfold c_fix_size, fix_size. step. eapply sim_bind; [eapply sim_left_size; eassumption|intros l ? <-]. eapply sim_bind; [eapply sim_right_size; eassumption|intros r ? <-]. step.
  Qed.
  Lemma sim_update_size b b' i : RB b b' -> sim RB (c_update_size b i) (update_size b' i).
  Proof.
    intros HB. unfold c_update_size, update_size. rewrite (RB_os _ _ HB). destruct (ct_os b); [|apply sim_ret; exact HB]. rewrite (RB_fuel _ _ HB).
    eapply sim_bind with (R := RM (length (ct_mem b))).
    - eapply sim_while with (I := fun s s' => RM (length (ct_mem b)) (fst s) (fst s') /\ snd s' = snd s).
      + intros [t w] [t' w'] [HM E]. cbn in HM, E. subst w'. destruct w; [|apply sim_ret; exact HM]. eapply sim_bind; [eapply sim_fix_size; exact HM|]. intros u u' HU. go. apply sim_ret. cbn. split; [exact HU|reflexivity].
      + cbn. split; [apply RB_mem; exact HB|reflexivity].
    - intros t t' HM. apply sim_ret. apply RB_set; assumption.
  Qed.

  Lemma b2z_1 l : (Z.b2z l =? 1) = l. Proof. destruct l; reflexivity. Qed.
  Lemma b2z_0 l : (Z.b2z l =? 0) = negb l. Proof. destruct l; reflexivity. Qed.
  Lemma sim_search_loop b b' k : RB b b' -> sim eq (c_search_loop same b k) (search_loop b' (rk k)).
  Proof.
    intros HB. unfold c_search_loop, search_loop. rewrite (RB_fuel _ _ HB), (RB_rt _ _ HB).
    eapply sim_while with (I := eq); [|reflexivity]. intros [w p] ? <-. destruct w; [|apply sim_ret; reflexivity]. step. red1. rewrite sameo_ok. cbn [option_map].
    destruct (oeqb (option_map rk (cn_key n)) (Some (rk k))); [apply sim_ret; reflexivity|].
    eapply sim_bind; [eapply sim_comp; [exact HB|reflexivity|reflexivity]|]. intros c l ->.
    apply sim_ret. cbn. rewrite b2z_1. destruct l; reflexivity.
  Qed.
  Lemma sim_search b b' k : RB b b' -> sim eq (c_search same b k) (search b' (rk k)).
  Proof.
    intros HB. unfold c_search, search. rewrite (RB_rt _ _ HB). step. red1. destruct (cn_key n); cbn [option_map]; [|apply sim_ret; reflexivity].
    eapply sim_bind; [apply sim_search_loop; exact HB|]. intros [w p] ? <-. apply sim_ret. reflexivity.
  Qed.
  Lemma sim_search_parent b b' k : RB b b' -> sim eq (c_search_parent same b k) (search_parent b' (rk k)).
  Proof.
    intros HB. unfold c_search_parent, search_parent. rewrite (RB_rt _ _ HB). step. red1. destruct (cn_key n); cbn [option_map]; [|apply sim_raise].
    apply sim_search_loop; exact HB.
  Qed.

  (** ** the array: append and delete as long as nothing is compacted *)
  Lemma copy_loop (t : cmem K D) M : (length t <= M)%nat -> forM (zrange 0 (len t)) (fun i arr => x <- rawget t i ;; rawset arr i x) (repeat None M) = Ret (t ++ repeat None (M - length t)).
  Proof.
    intros HM.
    assert (G : forall m, (m <= length t)%nat -> forM (zrange 0 (Z.of_nat m)) (fun i arr => x <- rawget t i ;; rawset arr i x) (repeat None M) = Ret (firstn m t ++ repeat None (M - m))).
    { induction m as [|m IH]; intros Hm; [cbn; rewrite Nat.sub_0_r; reflexivity|].
      rewrite zrange_snoc by lia. replace (Z.of_nat (S m) - 1) with (Z.of_nat m) by lia. rewrite forM_app, IH by lia. cbn [bind forM]. unfold rawget, rawset, len.
      destruct ((Z.of_nat m <? 0) || (Z.of_nat (length t) <=? Z.of_nat m)) eqn:E; [lia|]. rewrite Nat2Z.id. destruct (nth_error t m) as [x|] eqn:Ex; [|apply nth_error_None in Ex; lia]. cbn [bind].
      assert (LL : length (firstn m t ++ repeat None (M - m)) = M) by (rewrite app_length, firstn_length, repeat_length; lia). rewrite LL.
      destruct ((Z.of_nat m <? 0) || (Z.of_nat M <=? Z.of_nat m)) eqn:E2; [lia|]. cbn [bind]. f_equal.
      replace (M - m)%nat with (S (M - S m)) by lia. cbn [repeat]. rewrite upd_app2 by (rewrite firstn_length; lia). rewrite firstn_length, Nat.min_l, Nat.sub_diag by lia. cbn [upd].
      replace (firstn (S m) t) with (firstn m t ++ [x]); [rewrite <- app_assoc; reflexivity|]. rewrite (firstn_S_nth _ None) by lia. rewrite (nth_error_nth _ _ _ Ex). reflexivity. }
    unfold len. rewrite (G (length t)) by lia. rewrite firstn_all. reflexivity.
  Qed.


  Definition RA (a : carr K D) (a' : aft D) : Prop := a' = mkaft (dm (cr_buf a)) (cr_num a) (cr_last a) /\ cr_isize a = len (cr_buf a) /\ cr_size a = len (cr_buf a).
  (** the array is not compacted by the next append / by a delete *)
  Definition room (a : aft D) : Prop := 0 <= a_last a + 1 /\ (if a_last a + 1 =? len (a_data a) then 2 * len (a_data a) + 1 else len (a_data a)) <= 4 * (a_num a + 1).
  Definition dense (a : aft D) : Prop := len (a_data a) <= 4 * (a_num a - 1).
  Lemma RB_arr b b' : RB b b' -> RA (ct_arr b) (b_arr b'). Proof. intros [-> (W1 & W2 & _)]. split; [reflexivity|]. split; assumption. Qed.
  Lemma RB_set_arr b b' a a' : RB b b' -> RA a a' -> RB (cset_arr b a) (set_arr b' a').
  Proof. intros [-> (_ & _ & W)] (-> & A1 & A2). split; [reflexivity|]. split; [exact A1|]. split; [exact A2|exact W]. Qed.
  Lemma RA_mem a a' : RA a a' -> RM (length (cr_buf a)) (cr_buf a) (a_data a'). Proof. intros (-> & _). split; reflexivity. Qed.
  Lemma dm_repeat n : map (option_map dn) (repeat None n) = repeat None n.
  Proof. induction n; cbn; congruence. Qed.
  Lemma sim_append_any a a' (el : option (cnode K D)) : RA a a' -> room a' -> sim RA (carr_append val a el) (aft_append a' (option_map dn el)).
  Proof.
    intros (-> & A1 & A2) [R0 R1]. cbn [a_data a_last a_num] in *. rewrite dm_lenz in R1. unfold aft_append. cbn [a_data a_last a_num]. rewrite dm_lenz.
    intros y E. revert E. unfold carr_append. rewrite A1. destruct (cr_last a + 1 =? len (cr_buf a)) eqn:E1.
    - assert (E1' : cr_last a + 1 = len (cr_buf a)) by lia. rewrite E1'. rewrite copy_loop by (unfold len; lia). cbn [bind].
      replace (dm (cr_buf a) ++ repeat None (Z.to_nat (len (cr_buf a) + 1))) with (dm (cr_buf a ++ repeat None (Z.to_nat (2 * len (cr_buf a) + 1) - length (cr_buf a)))).
      2:{ unfold dm. rewrite map_app, dm_repeat. do 2 f_equal. unfold len. lia. }
      intros E. set (t := cr_buf a ++ _) in *. 
      destruct (aset (dm t) (len (cr_buf a)) (option_map dn el)) as [u| |] eqn:Es; try discriminate. cbn [bind] in E.
      destruct (sim_set (length t) t (dm t) (len (cr_buf a)) el (conj eq_refl eq_refl) ltac:(unfold len; lia) u Es) as (u0 & -> & [-> HL]). cbn [bind cr_buf cr_isize cr_size cr_num cr_last].
      assert (LT : len u0 = 2 * len (cr_buf a) + 1). { unfold len. rewrite HL. unfold t. rewrite app_length, repeat_length. unfold len. lia. }
      revert E. unfold aft_modify, carr_modify. cbn [a_num a_data cr_num cr_size cr_last]. rewrite dm_lenz. rewrite LT. destruct (4 * (cr_num a + 1) <? 2 * len (cr_buf a) + 1) eqn:E2; [lia|]. cbn [bind]. intros E. inversion E; subst y. eexists. split; [reflexivity|]. split; [|split; cbn; lia]. cbn. rewrite E1'. reflexivity.
    - intros E. destruct (aset (dm (cr_buf a)) (cr_last a + 1) (option_map dn el)) as [u| |] eqn:Es; try discriminate. cbn [bind] in E.
      destruct (sim_set _ (cr_buf a) (dm (cr_buf a)) (cr_last a + 1) el (conj eq_refl eq_refl) R0 u Es) as (u0 & -> & [-> HL]). cbn [bind cr_buf cr_isize cr_size cr_num cr_last].
      assert (LT : len u0 = len (cr_buf a)) by (unfold len; lia).
      revert E. unfold aft_modify, carr_modify. cbn [a_num a_data cr_num cr_size cr_last]. rewrite dm_lenz. rewrite A2, LT. destruct (4 * (cr_num a + 1) <? len (cr_buf a)) eqn:E2; [lia|]. cbn [bind]. intros E. inversion E; subst y. eexists. split; [reflexivity|]. split; [reflexivity|]. cbn. lia.
  Qed.
  Lemma sim_append a a' n : RA a a' -> room a' -> sim RA (carr_append val a (Some n)) (aft_append a' (Some (dn n))).
  Proof. apply (sim_append_any a a' (Some n)). Qed.
  Lemma sim_aft_delete a a' i : RA a a' -> dense a' -> sim (fun x y => RA (fst x) (fst y) /\ snd x = None /\ snd y = None) (carr_delete val a i) (aft_delete a' i).
  Proof.
    intros (-> & A1 & A2) HD. unfold dense in HD. cbn [a_data a_num] in HD. rewrite dm_lenz in HD. destruct i as [i|]; [|apply sim_raise]. unfold carr_delete, aft_delete. cbn [a_data a_last a_num].
    destruct ((i <=? cr_last a) && (0 <=? i)) eqn:Ei; [|apply sim_ret; cbn; split; [split; [reflexivity|split; assumption]|split; reflexivity]].
    intros y. unfold aget, rawget. rewrite dm_lenz. destruct ((i <? 0) || (len (cr_buf a) <=? i)) eqn:E1; [discriminate|]. unfold dm at 1. rewrite nth_error_map. destruct (nth_error (cr_buf a) (Z.to_nat i)) as [[n|]|]; cbn [option_map bind]; try discriminate.
    - intros E. change (@None (node D)) with (option_map dn None) in E. destruct (aset (dm (cr_buf a)) i (option_map dn None)) as [u| |] eqn:Es; try discriminate. cbn [bind] in E.
      destruct (sim_set _ (cr_buf a) (dm (cr_buf a)) i None (conj eq_refl eq_refl) ltac:(lia) u Es) as (u0 & -> & [-> HL]). cbn [bind].
      assert (LT : len u0 = len (cr_buf a)) by (unfold len; lia).
      revert E. unfold aft_modify, carr_modify. cbn [a_num a_data cr_num cr_size cr_last]. rewrite dm_lenz. rewrite A2, LT. destruct (4 * (cr_num a - 1) <? len (cr_buf a)) eqn:E2; [lia|]. intros E. inversion E; subst y. eexists. split; [reflexivity|]. cbn. split; [|auto]. split; [reflexivity|]. cbn. lia.
    - intros E. inversion E; subst. eexists. split; [reflexivity|]. cbn. split; [|auto]. split; [reflexivity|]. auto.
  Qed.

  (** ** insert *)
  Lemma sim_insert b b' k d : RB b b' -> room (b_arr b') -> sim RB (c_insert same val b k d) (insert b' (rk k) d).
  Proof.
    intros HB HR. unfold c_insert, insert. eapply sim_bind; [apply sim_search; exact HB|]. intros r ? <-. destruct r as [r|].
    - step. apply sim_ret. apply RB_set; assumption.
    - rewrite (RB_rt _ _ HB). step. red1. destruct (cn_key n) as [kn|]; cbn [option_map].
      + rewrite (RB_fuel _ _ HB). eapply sim_bind with (R := fun x y => RB (fst x) (fst y) /\ snd y = snd x).
        * eapply sim_while with (I := eq); [|reflexivity]. intros [w p] ? <-. step. red1. eapply sim_bind; [eapply sim_comp; [exact HB|reflexivity|reflexivity]|]. intros c l ->. rewrite b2z_0.
          destruct l; cbn [negb].
          -- destruct (cn_left n0) as [z|] eqn:El; [apply sim_ret; reflexivity|].
             eapply sim_bind; [apply (sim_append _ _ (cs_parent p (c_new_node (Some k) d)) (RB_arr _ _ HB) HR)|]. intros a a' HA. rewrite (RB_sz _ _ HB). assert (HM := RA_mem _ _ HA).
             eapply sim_bind; [eapply sim_mod; [exact HM|reflexivity]|]. intros t t' HT. step. red1. apply sim_ret. cbn. split; [|reflexivity]. apply RB_size. apply RB_set; [apply RB_set_arr; assumption|exact HT].
          -- destruct (cn_right n0) as [z|] eqn:El; [apply sim_ret; reflexivity|].
             eapply sim_bind; [apply (sim_append _ _ (cs_parent p (c_new_node (Some k) d)) (RB_arr _ _ HB) HR)|]. intros a a' HA. rewrite (RB_sz _ _ HB). assert (HM := RA_mem _ _ HA).
             eapply sim_bind; [eapply sim_mod; [exact HM|reflexivity]|]. intros t t' HT. step. red1. apply sim_ret. cbn. split; [|reflexivity]. apply RB_size. apply RB_set; [apply RB_set_arr; assumption|exact HT].
        * intros [b1 w] [b1' w'] [H1 H2]. cbn in H1, H2. subst w'. apply sim_update_size. exact H1.
      + eapply sim_bind; [eapply sim_mod; [rm|reflexivity]|]. intros t t' HM. apply sim_ret. apply RB_set; assumption.
  Qed.


  (** ** delete *)
  Ltac del := eapply sim_bind; [apply sim_aft_delete; [apply RB_arr; eassumption|assumption]|]; let x := fresh "x" in let y := fresh "y" in let A := fresh "HA" in let H1 := fresh in let H2 := fresh in intros [x ?] [y ?] (A & H1 & H2); cbn in A, H1, H2; subst.
  Lemma dense_set b t : dense (b_arr b) -> length t = length (b_mem b) -> dense (b_arr (set_mem b t)).
  Proof. unfold dense, b_mem. cbn. intros H E. unfold len in *. rewrite E. exact H. Qed.
  Lemma RM_len N t t' : RM N t t' -> length t' = N. Proof. intros [-> H]. rewrite dm_len. exact H. Qed.
  Lemma sim_delete_info_dense b b' k : RB b b' -> dense (b_arr b') -> sim (fun x y => RB (fst x) (fst y) /\ snd y = snd x) (c_delete_info same val b k) (delete_info b' (rk k)).
  Proof.
    intros HB HD. unfold c_delete_info, delete_info. assert (LL : length (ct_mem b) = length (b_mem b')) by (symmetry; apply (RM_len _ _ _ (RB_mem _ _ HB))).
    assert (HS : forall t t', RM (length (ct_mem b)) t t' -> RB (cset_mem b t) (set_mem b' t') /\ dense (b_arr (set_mem b' t'))).
    { intros t t' HM. split; [apply RB_set; assumption|]. apply dense_set; [exact HD|]. rewrite (RM_len _ _ _ HM). exact LL. }
    eapply sim_bind; [apply sim_search_parent; exact HB|]. intros [walk parent] ? <-. destruct walk as [walk|]; [|apply sim_ret; cbn; auto]. step. red1.
    assert (Fin : forall b1 b1' a, RB b1 b1' -> sim (fun x y => RB (fst x) (fst y) /\ snd y = snd x) (b2 <- c_update_size b1 a ;; Ret (b2, Some a)) (b2 <- update_size b1' a ;; Ret (b2, Some a))).
    { intros b1 b1' a H1. eapply sim_bind; [apply sim_update_size; exact H1|]. intros b2 b2' H2. apply sim_ret. cbn. auto. }
    destruct (cn_left n) as [lf|] eqn:El, (cn_right n) as [rg|] eqn:Er.
    - rewrite (RB_fuel _ _ HB). eapply sim_bind with (R := eq).
      + eapply sim_while with (I := eq); [|reflexivity]. intros [[tw par] flag] ? <-. step. red1. destruct (cn_left n0); apply sim_ret; reflexivity.
      + intros [[tw par] flag] ? <-. step. eapply sim_bind; [eapply sim_mod; [rm|reflexivity]|]. intros t t' HT. step. red1.
        eapply sim_bind with (R := RM (length (ct_mem b))); [destruct flag; (eapply sim_mod; [exact HT|reflexivity])|]. intros t1 t1' HT1. step. red1.
        eapply sim_bind with (R := RM (length (ct_mem b))). { destruct (cn_right n2); [eapply sim_mod; [exact HT1|reflexivity]|apply sim_ret; exact HT1]. }
        intros t2 t2' HT2. destruct (HS _ _ HT2) as [HB2 HD2]. step. change (b_root (set_mem b' t2')) with (b_root b'). change (ct_root (cset_mem b t2)) with (ct_root b). rewrite (RB_rt _ _ HB). step. red1. del.
        cbn [c_after_delete after_delete bind]. apply Fin. apply RB_set_arr; assumption.
    - destruct parent as [parent|].
      + step. red1. eapply sim_bind with (R := RM (length (ct_mem b))); [destruct (oeqb (cn_left n0) (Some walk)); (eapply sim_mod; [rm|reflexivity])|]. intros t t' HT. step. destruct (HS _ _ HM) as [HB2 HD2].
        step. change (b_root (set_mem b' u)) with (b_root b'). change (ct_root (cset_mem b t0)) with (ct_root b). rewrite (RB_rt _ _ HB). step. red1. del. cbn [bind]. apply Fin. apply RB_set_arr; assumption.
      + step. rewrite (RB_rt _ _ HB). red1. eapply sim_bind; [eapply sim_mod; [rm|reflexivity]|]. intros t t' HT. destruct (HS _ _ HT) as [HB2 HD2]. change (b_root (set_mem b' t')) with (b_root b'). change (ct_root (cset_mem b t)) with (ct_root b). rewrite (RB_rt _ _ HB). step. red1. del. cbn [bind]. apply sim_ret. cbn. split; [|reflexivity]. apply RB_set_arr; assumption.
    - destruct parent as [parent|].
      + step. red1. eapply sim_bind with (R := RM (length (ct_mem b))); [destruct (oeqb (cn_left n0) (Some walk)); (eapply sim_mod; [rm|reflexivity])|]. intros t t' HT. step. destruct (HS _ _ HM) as [HB2 HD2].
        step. change (b_root (set_mem b' u)) with (b_root b'). change (ct_root (cset_mem b t0)) with (ct_root b). rewrite (RB_rt _ _ HB). step. red1. del. cbn [bind]. apply Fin. apply RB_set_arr; assumption.
      + step. rewrite (RB_rt _ _ HB). red1. eapply sim_bind; [eapply sim_mod; [rm|reflexivity]|]. intros t t' HT. destruct (HS _ _ HT) as [HB2 HD2]. change (b_root (set_mem b' t')) with (b_root b'). change (ct_root (cset_mem b t)) with (ct_root b). rewrite (RB_rt _ _ HB). step. red1. del. cbn [bind]. apply sim_ret. cbn. split; [|reflexivity]. apply RB_set_arr; assumption.
    - eapply sim_bind with (R := fun x y => RB (fst x) (fst y) /\ snd y = snd x).
      + destruct parent as [parent|].
        * step. red1. eapply sim_bind with (R := RM (length (ct_mem b))); [destruct (oeqb (cn_left n0) (Some walk)); (eapply sim_mod; [rm|reflexivity])|]. intros t t' HT. destruct (HS _ _ HT) as [HB2 HD2].
          step. change (b_root (set_mem b' t')) with (b_root b'). change (ct_root (cset_mem b t)) with (ct_root b). rewrite (RB_rt _ _ HB). step. red1. del. cbn [c_after_delete after_delete]. apply sim_ret. cbn. split; [|reflexivity]. apply RB_set_arr; assumption.
        * rewrite (RB_rt _ _ HB). eapply sim_bind; [eapply sim_mod; [rm|reflexivity]|]. intros t t' HT. apply sim_ret. cbn. split; [|reflexivity]. apply RB_set; assumption.
      + intros [b1 a] [b1' a'] [H1 H2]. cbn in H1, H2. subst a'. apply Fin. exact H1.
  Qed.
  (** an absent key leaves the array alone *)
  Definition dense_for (b' : bst D) (z : Z) : Prop := forall w p, search_parent b' z = Ret (Some w, p) -> dense (b_arr b').
  Lemma sim_delete_info b b' k : RB b b' -> dense_for b' (rk k) -> sim (fun x y => RB (fst x) (fst y) /\ snd y = snd x) (c_delete_info same val b k) (delete_info b' (rk k)).
  Proof.
    intros HB HD y E. destruct (search_parent b' (rk k)) as [[[w|] p]| |] eqn:Es.
    - apply (sim_delete_info_dense b b' k HB); [|exact E]. eapply HD. exact Es.
    - unfold delete_info in E. rewrite Es in E. cbn [bind] in E. injection E as <-. destruct (sim_search_parent b b' k HB _ Es) as (x & Ex & ->). unfold c_delete_info. rewrite Ex. cbn [bind]. eexists. split; [reflexivity|]. auto.
    - unfold delete_info in E. rewrite Es in E. discriminate.
    - unfold delete_info in E. rewrite Es in E. discriminate.
  Qed.
  Lemma sim_delete b b' k : RB b b' -> dense_for b' (rk k) -> sim (fun x y => RB (fst x) (fst y) /\ snd y = snd x) (c_delete same val b k) (delete b' (rk k)).
  Proof. intros HB HD. unfold c_delete, delete. eapply sim_bind; [apply sim_delete_info; eassumption|]. intros [b1 a] [b1' a'] [H1 H2]. cbn in H1, H2. subst. apply sim_ret. cbn. auto. Qed.


  (** ** queries *)
  Definition RK (a : option K) (z : option Z) : Prop := z = option_map rk a.
  Lemma sim_bound b b' k up : RB b b' -> forall f i, sim RK (c_bound_helper same f b i k up) (bound_helper f b' i (rk k) up).
  Proof.
    intros HB f. induction f as [|f IH]; intros i; [apply sim_out|]. cbn [c_bound_helper bound_helper]. destruct i as [i|]; [|apply sim_ret; reflexivity]. step. red1.
    destruct (cn_key n) as [kn|] eqn:Ek; cbn [option_map]; [|apply sim_ret; reflexivity]. rewrite sameo_ok. cbn [option_map]. destruct (oeqb (Some (rk kn)) (Some (rk k))).
    - destruct up; cbn [negb]; [apply IH|apply sim_ret; reflexivity].
    - eapply sim_bind; [eapply sim_comp; [exact HB|reflexivity|reflexivity]|]. intros c l ->. rewrite b2z_1. destruct l; [apply IH|]. eapply sim_bind; [apply IH|]. intros r r' HK. unfold RK in HK. subst r'. apply sim_ret. unfold RK. destruct r; reflexivity.
  Qed.
  Lemma sim_lower b b' k : RB b b' -> sim RK (c_lower_bound same b k) (lower_bound b' (rk k)).
  Proof. intros HB. unfold c_lower_bound, lower_bound. rewrite (RB_fuel _ _ HB), (RB_rt _ _ HB). apply sim_bound. exact HB. Qed.
  Lemma sim_upper b b' k : RB b b' -> sim RK (c_upper_bound same b k) (upper_bound b' (rk k)).
  Proof. intros HB. unfold c_upper_bound, upper_bound. rewrite (RB_fuel _ _ HB), (RB_rt _ _ HB). apply sim_bound. exact HB. Qed.
  Lemma sim_rank b b' k : RB b b' -> sim eq (c_rank same b k) (rank b' (rk k)).
  Proof.
    intros HB. unfold c_rank, rank. eapply sim_bind; [apply sim_search; exact HB|]. intros w ? <-. destruct w as [w|]; [|apply sim_ret; reflexivity]. step. eapply sim_bind; [eapply sim_left_size; rm|]. intros l ? <-.
    rewrite (RB_fuel _ _ HB), (RB_rt _ _ HB). eapply sim_while with (I := eq); [|reflexivity]. intros [i r] ? <-. step. step. red1. rewrite sameo_ok. destruct (oeqb (option_map rk (cn_key n0)) (option_map rk (cn_key n1))); [apply sim_ret; reflexivity|]. step. red1. destruct (oeqb i (cn_right n2)); [|apply sim_ret; reflexivity]. eapply sim_bind; [eapply sim_left_size; rm|]. intros l2 ? <-. apply sim_ret. reflexivity.
  Qed.
  Lemma sim_lca_2 b b' j k : RB b b' -> sim RK (c_lca_2 same b j k) (lca_2 b' (rk j) (rk k)).
  Proof.
    intros HB. unfold c_lca_2, lca_2. eapply sim_bind; [apply sim_search; exact HB|]. intros u ? <-. eapply sim_bind; [apply sim_search; exact HB|]. intros v ? <-. destruct u as [u|]; [|apply sim_raise]. destruct v as [v|]; [|apply sim_raise].
    step. step. rewrite (RB_rt _ _ HB). step. red1.
    eapply sim_bind; [eapply sim_comp; [exact HB|reflexivity|reflexivity]|]. intros c1 l1 ->. eapply sim_bind; [eapply sim_comp; [exact HB|reflexivity|reflexivity]|]. intros c2 l2 ->.
    rewrite (RB_fuel _ _ HB). eapply sim_while with (I := fun '(r, a, c) '(r', a', c') => r' = r /\ a = Z.b2z a' /\ c = Z.b2z c'); [|auto]. intros [[r a] c] [[r' a'] c'] (-> & -> & ->).
    replace (Z.lxor (Z.b2z a') (Z.b2z c') =? 0) with (negb (xorb a' c')) by (destruct a', c'; reflexivity). rewrite !b2z_0, !negb_involutive. destruct (negb (xorb a' c')).
    - step. red1. set (r2 := if a' && c' then cn_left n2 else cn_right n2). destruct (oeqb r2 (Some u) || oeqb r2 (Some v)).
      + destruct r2; [|apply sim_raise]. step. red1. apply sim_ret. reflexivity.
      + step. red1. eapply sim_bind; [eapply sim_comp; [exact HB|reflexivity|reflexivity]|]. intros d1 e1 ->. eapply sim_bind; [eapply sim_comp; [exact HB|reflexivity|reflexivity]|]. intros d2 e2 ->. apply sim_ret. cbn. auto.
    - destruct r; [|apply sim_raise]. step. red1. apply sim_ret. reflexivity.
  Qed.

  (** ** rotations *)
  Definition RR (N : nat) (x : cmem K D * option Z) (y : mem D * option Z) : Prop := RM N (fst x) (fst y) /\ snd y = snd x.
  Lemma sim_relink N t t' p j k : RM N t t' -> sim (RM N) (c_relink t p j k) (relink t' p j k).
  Proof. intros HM. unfold c_relink, relink. go. Qed.
  Ltac om := eapply sim_bind with (R := RM _); [match goal with |- sim _ (match ?x with _ => _ end) _ => destruct x; [first [eapply sim_mod; [eassumption|reflexivity] | eapply sim_relink; eassumption]|apply sim_ret; eassumption] end|let t := fresh "t" in let u := fresh "u" in let H := fresh "HM" in intros t u H].
  Ltac rg := repeat (red1; first [step | om]); red1.
  Lemma sim_right_rotate N t t' r j k : RM N t t' -> sim (RR N) (c_right_rotate t r j k) (right_rotate t' r j k).
  Proof. intros HM. unfold c_right_rotate, right_rotate. cbv zeta. step. red1. om. rg. apply sim_ret. split; [assumption|reflexivity]. Qed.
  Lemma sim_left_rotate N t t' r j k : RM N t t' -> sim (RR N) (c_left_rotate t r j k) (left_rotate t' r j k).
  Proof. intros HM. unfold c_left_rotate, left_rotate. cbv zeta. step. red1. om. rg. apply sim_ret. split; [assumption|reflexivity]. Qed.
  Lemma sim_left_right_rotate N t t' r j k : RM N t t' -> sim (RR N) (c_left_right_rotate t r j k) (left_right_rotate t' r j k).
  Proof.
    intros HM. unfold c_left_right_rotate, left_right_rotate. cbv zeta. step. red1. step. red1. step. step. om. om. rg. 
    - eapply sim_bind; [eapply sim_relink; eassumption|]. intros ? ? ?. apply sim_ret. split; [assumption|reflexivity].
    - apply sim_ret. split; [assumption|reflexivity].
  Qed.
  Lemma sim_right_left_rotate N t t' r j k : RM N t t' -> sim (RR N) (c_right_left_rotate t r j k) (right_left_rotate t' r j k).
  Proof.
    intros HM. unfold c_right_left_rotate, right_left_rotate. cbv zeta. step. red1. step. red1. step. step. om. om. rg. 
    - eapply sim_bind; [eapply sim_relink; eassumption|]. intros ? ? ?. apply sim_ret. split; [assumption|reflexivity].
    - apply sim_ret. split; [assumption|reflexivity].
  Qed.
  Lemma sim_rot f g b b' j k : (forall N t t' r j k, RM N t t' -> sim (RR N) (f t r j k) (g t' r j k)) -> RB b b' -> sim RB (crot f b j k) (rot g b' j k).
  Proof.
    intros H HB. unfold crot, rot. rewrite (RB_rt _ _ HB). eapply sim_bind; [eapply H; rm|]. intros [t r] [t' r'] [HM E]. cbn in HM, E. subst r'. apply sim_ret. apply RB_root. apply RB_set; assumption.
  Qed.
  Lemma sim_on_mem f g b b' : (forall N t t', RM N t t' -> sim (RM N) (f t) (g t')) -> RB b b' -> sim RB (con_mem f b) (on_mem g b').
  Proof. intros H HB. unfold con_mem, on_mem. eapply sim_bind; [eapply H; rm|]. intros t t' HM. apply sim_ret. apply RB_set; assumption. Qed.

  (** ** AVL *)
  Lemma sim_left_height N t t' n : RM N t t' -> sim eq (c_left_height t n) (left_height t' (dn n)).
  Proof. intros HM. unfold c_left_height, left_height. go; apply sim_ret; reflexivity. Qed.
  Lemma sim_right_height N t t' n : RM N t t' -> sim eq (c_right_height t n) (right_height t' (dn n)).
  Proof. intros HM. unfold c_right_height, right_height. go; apply sim_ret; reflexivity. Qed.
  Lemma sim_bf N t t' n : RM N t t' -> sim eq (c_balance_factor t n) (balance_factor t' (dn n)).
  Proof. intros HM. unfold c_balance_factor, balance_factor. eapply sim_bind; [eapply sim_right_height; eassumption|intros l ? <-]. eapply sim_bind; [eapply sim_left_height; eassumption|intros r ? <-]. apply sim_ret. reflexivity. Qed.
  Lemma sim_fix_height N t t' i : RM N t t' -> sim (RM N) (c_fix_height t i) (fix_height t' i).
  Proof. intros HM. unfold c_fix_height, fix_height. step. eapply sim_bind; [eapply sim_left_height; eassumption|intros l ? <-]. eapply sim_bind; [eapply sim_right_height; eassumption|intros r ? <-]. step. Qed.
  Lemma sim_os_size b b' i : RB b b' -> sim RB (c_os_size b i) (os_size b' i).
  Proof. intros HB. unfold c_os_size, os_size. rewrite (RB_os _ _ HB). destruct (ct_os b); [|apply sim_ret; exact HB]. apply sim_on_mem; [|exact HB]. intros. apply sim_fix_size. assumption. Qed.
  Ltac nx := eapply sim_bind with (R := RB); [|let b := fresh "b" in let c := fresh "c" in let H := fresh "HB" in intros b c H].
  Ltac ht := apply sim_on_mem; [intros; apply sim_fix_height; assumption|assumption].
  Lemma sim_avl_right_rotate b b' j k : RB b b' -> sim RB (c_avl_right_rotate b j k) (avl_right_rotate b' j k).
  Proof. intros HB. unfold c_avl_right_rotate, avl_right_rotate. nx; [apply sim_rot; [apply sim_right_rotate|exact HB]|]. nx; [ht|]. apply sim_os_size. assumption. Qed.
  Lemma sim_avl_left_rotate b b' j k : RB b b' -> sim RB (c_avl_left_rotate b j k) (avl_left_rotate b' j k).
  Proof. intros HB. unfold c_avl_left_rotate, avl_left_rotate. nx; [apply sim_rot; [apply sim_left_rotate|exact HB]|]. nx; [ht|]. nx; [ht|]. apply sim_os_size. assumption. Qed.
  Lemma sim_avl_left_right_rotate b b' j k : RB b b' -> sim RB (c_avl_left_right_rotate b j k) (avl_left_right_rotate b' j k).
  Proof. intros HB. unfold c_avl_left_right_rotate, avl_left_right_rotate. nx; [apply sim_rot; [apply sim_left_right_rotate|exact HB]|]. nx; [ht|]. nx; [ht|]. nx; [apply sim_os_size; assumption|]. apply sim_os_size. assumption. Qed.
  Lemma sim_avl_right_left_rotate b b' j k : RB b b' -> sim RB (c_avl_right_left_rotate b j k) (avl_right_left_rotate b' j k).
  Proof. intros HB. unfold c_avl_right_left_rotate, avl_right_left_rotate. nx; [apply sim_rot; [apply sim_right_left_rotate|exact HB]|]. nx; [ht|]. nx; [ht|]. nx; [apply sim_os_size; assumption|]. apply sim_os_size. assumption. Qed.
  (** an index object of the queue stands for its int; it is a fresh object only if the int is cached *)
  Definition RI (x : pix) (z : option Z) : Prop := z = fst x /\ (snd x = true -> match fst x with Some i => cached i = true | None => True end).
  Lemma ixsame_ok x y z : RI y z -> ixsame x y = oeqb x z.
  Proof. intros [-> H]. unfold ixsame. destruct y as [[i|] [|]], x as [x|]; cbn in *; rewrite ?andb_true_r; auto. specialize (H eq_refl). destruct (x =? i) eqn:E; [|reflexivity]. apply Z.eqb_eq in E. subst. exact H. Qed.
  Lemma sim_hangs N t t' x last z f g l2 z2 : RM N t t' -> RI last z -> RI l2 z2 -> (forall n, g (dn n) = f n) -> sim eq (c_hangs t x last f l2) (hangs t' x z g z2).
  Proof. intros HM HL H2 HF. unfold c_hangs, hangs. destruct x as [x|]; [|apply sim_ret; reflexivity]. rewrite (ixsame_ok _ _ _ HL). destruct (oeqb (Some x) z); [|apply sim_ret; reflexivity]. step. rewrite HF, (ixsame_ok _ _ _ H2). apply sim_ret. reflexivity. Qed.
  Lemma sim_rebalance b b' w last z l2 z2 : RB b b' -> RI last z -> RI l2 z2 -> sim RB (c_rebalance b w last l2) (rebalance b' w z z2).
  Proof.
    intros HB HL H2. unfold c_rebalance, rebalance. assert (El : z = fst last) by (apply HL). step. eapply sim_bind; [eapply sim_bf; rm|]. intros bf ? <-. red1. rewrite !negb_orb. destruct (negb (bf =? 1) && negb (bf =? 0) && negb (bf =? -1)); [|apply sim_ret; exact HB].
    cbv zeta. eapply sim_bind; [eapply sim_hangs; [rm|eassumption|eassumption|reflexivity]|]. intros c ? <-. rewrite El. nx; [destruct c; [apply sim_avl_right_rotate; exact HB|apply sim_ret; exact HB]|]. rewrite <- El. step. red1.
    eapply sim_bind; [eapply sim_hangs; [rm|eassumption|eassumption|reflexivity]|]. intros c1 ? <-. rewrite El. nx; [destruct c1; [apply sim_avl_left_rotate; eassumption|apply sim_ret; eassumption]|]. rewrite <- El.
    eapply sim_bind; [eapply sim_hangs; [rm|eassumption|eassumption|reflexivity]|]. intros c3 ? <-. rewrite El. nx; [destruct c3; [apply sim_avl_left_right_rotate; eassumption|apply sim_ret; eassumption]|]. rewrite <- El.
    eapply sim_bind; [eapply sim_hangs; [rm|eassumption|eassumption|reflexivity]|]. intros c5 ? <-. rewrite El. destruct c5; [apply sim_avl_right_left_rotate; eassumption|apply sim_ret; eassumption].
  Qed.
  Lemma sim_balance_insertion b b' curr last : RB b b' -> (match curr with Some i => cached i = true | None => True end) -> sim RB (c_balance_insertion b curr last) (balance_insertion b' curr last).
  Proof.
    intros HB HC. unfold c_balance_insertion, balance_insertion. rewrite (RB_fuel _ _ HB).
    eapply sim_while with (I := fun '(b, w, p) '(b', w', p') => RB b b' /\ w' = w /\ Forall2 RI p p'); [|split; [exact HB|split; [reflexivity|]]].
    - intros [[b1 w] p] [[b1' w'] p'] (H1 & -> & HF). destruct w as [w|]; [|apply sim_ret; exact H1]. nx; [ht|]. nx; [apply sim_os_size; assumption|].
      destruct HF as [|x x' p p' Hx HF]; [apply sim_raise|]. destruct HF as [|y y' p p' Hy HF]; [apply sim_raise|]. nx; [apply sim_rebalance; eassumption|]. step. red1. apply sim_ret. cbn. split; [assumption|]. split; [reflexivity|]. apply Forall2_app; [exact HF|]. constructor; [split; [reflexivity|discriminate]|]. constructor; [exact Hx|constructor].
    - constructor; [split; [reflexivity|intros _; exact HC]|]. constructor; [split; [reflexivity|discriminate]|constructor].
  Qed.
  Lemma sim_avl_insert b b' k d : RB b b' -> room (b_arr b') -> (forall b1, insert b' (rk k) d = Ret b1 -> cached (b_size b1 - 1) = true) -> sim RB (c_avl_insert same val b k d) (avl_insert b' (rk k) d).
  Proof.
    intros HB HR HC. unfold c_avl_insert, avl_insert. intros y E. destruct (insert b' (rk k) d) as [b1'| |] eqn:Ei; try discriminate. cbn [bind] in E. destruct (sim_insert b b' k d HB HR b1' Ei) as (b1 & -> & H1). cbn [bind].
    specialize (HC b1' eq_refl). revert y E. rewrite (RB_sz _ _ H1) in *. change (sim RB (n <- cget (ct_mem b1) (Some (ct_size b1 - 1)) ;; c_balance_insertion b1 (Some (ct_size b1 - 1)) (cn_parent n)) (n <- tget (b_mem b1') (Some (ct_size b1 - 1)) ;; balance_insertion b1' (Some (ct_size b1 - 1)) (n_parent n))). step. red1. apply sim_balance_insertion; assumption.
  Qed.
  Lemma sim_balance_deletion b b' i : RB b b' -> sim RB (c_balance_deletion b i) (balance_deletion b' i).
  Proof.
    intros HB. unfold c_balance_deletion, balance_deletion. rewrite (RB_fuel _ _ HB).
    eapply sim_while with (I := fun '(b, w) '(b', w') => RB b b' /\ w' = w); [|auto]. intros [b1 w] [b1' w'] (H1 & ->). destruct w as [w|]; [|apply sim_ret; exact H1]. nx; [ht|]. nx; [apply sim_os_size; assumption|].
    step. eapply sim_bind; [eapply sim_bf; rm|]. intros bf ? <-. red1. rewrite !negb_orb. nx.
    - destruct (negb (bf =? 1) && negb (bf =? 0) && negb (bf =? -1)); [|apply sim_ret; assumption]. destruct (bf <? 0); cbv zeta; step; (eapply sim_bind; [eapply sim_bf; rm|]); intros bc ? <-.
      + destruct (bc <=? 0); [apply sim_avl_right_rotate|apply sim_avl_left_right_rotate]; assumption.
      + destruct (0 <=? bc); [apply sim_avl_left_rotate|apply sim_avl_right_left_rotate]; assumption.
    - step. red1. apply sim_ret. cbn. auto.
  Qed.
  Lemma sim_avl_delete b b' k : RB b b' -> dense_for b' (rk k) -> sim (fun x y => RB (fst x) (fst y) /\ snd y = snd x) (c_avl_delete same val b k) (avl_delete b' (rk k)).
  Proof.
    intros HB HD. unfold c_avl_delete, avl_delete. eapply sim_bind; [apply sim_delete_info; eassumption|]. intros [b1 a] [b1' a'] [H1 H2]. cbn in H1, H2. subst. nx; [apply sim_balance_deletion; exact H1|]. apply sim_ret. cbn. auto.
  Qed.

  (** ** traversals *)
  Definition RV (v : list (cinfo K D)) (v' : list (info D)) : Prop := v' = map di v.
  Lemma RV_snoc v v' n : RV v v' -> RV (v ++ [cn_inf n]) (v' ++ [di (cn_inf n)]).
  Proof. unfold RV. intros ->. rewrite map_app. reflexivity. Qed.
  Lemma sim_in_order N t t' i : RM N t t' -> sim RV (c_in_order t i) (in_order t' i).
  Proof.
    intros HM. unfold c_in_order, in_order. rewrite (RM_fuel _ _ _ HM). eapply sim_while with (I := fun '(s, n, v) '(s', n', v') => s' = s /\ n' = n /\ RV v v'); [|cbn; repeat split].
    intros [[s n] v] [[s' n'] v'] (-> & -> & HV). destruct n as [n|]; [step; red1; apply sim_ret; cbn; auto|]. destruct s as [|x s]; [apply sim_ret; exact HV|]. step. red1. apply sim_ret. cbn. repeat split. apply RV_snoc. exact HV.
  Qed.
  Lemma sim_out_order N t t' i : RM N t t' -> sim RV (c_out_order t i) (out_order t' i).
  Proof. intros HM. unfold c_out_order, out_order. eapply sim_bind; [eapply sim_in_order; eassumption|]. intros v v' HV. unfold RV in HV. subst v'. apply sim_ret. unfold RV. rewrite map_rev. reflexivity. Qed.
  Lemma sim_pre_order N t t' i : RM N t t' -> sim RV (c_pre_order t i) (pre_order t' i).
  Proof.
    intros HM. unfold c_pre_order, pre_order. rewrite (RM_fuel _ _ _ HM). destruct i as [i|]; [|intros y E; discriminate]. cbn [bind].
    eapply sim_while with (I := fun '(s, v) '(s', v') => s' = map Some s /\ RV v v'); [|cbn; repeat split].
    intros [s v] [s' v'] (-> & HV). destruct s as [|x s]; [apply sim_ret; exact HV|]. cbn [map]. step. red1. apply sim_ret. cbn. split; [|apply RV_snoc; exact HV]. destruct (cn_left n), (cn_right n); reflexivity.
  Qed.
  Lemma sim_bfs N t t' i : RM N t t' -> sim RV (c_bfs t i) (tree_bfs t' i).
  Proof.
    intros HM. unfold c_bfs, tree_bfs. rewrite (RM_fuel _ _ _ HM). eapply sim_while with (I := fun '(s, v) '(s', v') => s' = s /\ RV v v'); [|cbn; repeat split].
    intros [s v] [s' v'] (-> & HV). destruct s as [|x s]; [apply sim_ret; exact HV|]. step. red1. apply sim_ret. cbn. split; [reflexivity|]. apply RV_snoc; exact HV.
  Qed.
  Lemma sim_done last i : sim eq (match i with None => Ret true | Some i => b <- rawget (map Some last) i ;; match b with Some b => Ret b | None => undefined end end) (match i with None => Ret true | Some i => aget last i end : res bool).
  Proof.
    destruct i as [i|]; [|apply sim_ret; reflexivity]. unfold rawget, aget. replace (len (map Some last)) with (len last) by (unfold len; rewrite map_length; reflexivity). destruct ((i <? 0) || (len last <=? i)); [apply sim_raise|]. rewrite nth_error_map. destruct (nth_error last (Z.to_nat i)); [apply sim_ret; reflexivity|apply sim_raise].
  Qed.
  Lemma sim_post_order N t t' sz i : RM N t t' -> sim RV (c_post_order t sz i) (post_order t' sz i).
  Proof.
    intros HM. unfold c_post_order, post_order. cbv zeta. rewrite (RM_fuel _ _ _ HM). eapply sim_while with (I := fun '(s, l, v) '(s', l', v') => s' = s /\ l' = l /\ RV v v'); [|cbn; repeat split].
    intros [[s l] v] [[s' l'] v'] (-> & -> & HV). destruct s as [|x s]; [apply sim_ret; exact HV|]. destruct x as [x|]; [|apply sim_raise].
    intros y E. destruct (tget t' (Some x)) as [n'| |] eqn:Eg; try discriminate. cbn [bind] in E. destruct (sim_get _ _ _ _ HM n' Eg) as (n & En & HN). unfold RN in HN. subst n'. rewrite En. cbn [bind].
    assert (Hx : 0 <= x). { cbn [cget] in En. unfold rawget in En. destruct (x <? 0) eqn:Ei; [discriminate|lia]. }
    rewrite dn_left in E. rewrite dn_right in E. rewrite dn_inf in E. revert y E. match goal with |- forall y, ?p = Ret y -> exists x0, ?c = Ret x0 /\ ctlR ?I ?Q x0 y => change (sim (ctlR I Q) c p) end.
    eapply sim_bind; [apply sim_done|]. intros cl ? <-. eapply sim_bind; [apply sim_done|]. intros cr ? <-. destruct (cl && cr).
    - eapply sim_bind with (R := eq).
      + unfold aset. destruct (x <? 0) eqn:E0; [lia|]. cbn [orb]. rewrite E0. destruct (len l <=? x); cbn [orb]; [apply sim_raise|apply sim_ret; reflexivity].
      + intros l2 ? <-. apply sim_ret. cbn. repeat split. apply (RV_snoc v v' n HV).
    - apply sim_ret. cbn. auto.
  Qed.

  (** ** select, _simple_path, _lca_1 *)
  Definition RO (x : option (cnode K D)) (y : option (node D)) : Prop := y = option_map dn x.
  Lemma sim_select b b' i : RB b b' -> sim RO (c_select b i) (select_strict b' i).
  Proof.
    intros HB. unfold c_select, select_strict. cbv zeta. rewrite (RB_fuel _ _ HB), (RB_rt _ _ HB). destruct (i - 1 <? 0); [apply sim_raise|].
    replace (a_num (b_arr b')) with (cr_num (ct_arr b)) by (destruct HB as [-> _]; reflexivity). destruct (cr_num (ct_arr b) <=? i - 1); [apply sim_raise|].
    eapply sim_while with (I := eq); [|reflexivity]. intros [w q] ? <-. destruct w as [w|]; [|apply sim_ret; reflexivity]. step. red1. eapply sim_bind; [eapply sim_left_size; rm|]. intros l ? <-.
    destruct (q =? l); [apply sim_ret; reflexivity|]. destruct (cn_left n) as [lf|] eqn:El, (cn_right n) as [rg|] eqn:Er; try apply sim_raise;
    (destruct (q <? l); step; red1; (eapply sim_bind; [eapply sim_comp; [exact HB|reflexivity|reflexivity]|]); intros c r ->; apply sim_ret; cbn [ctlR]; rewrite b2z_0, ?negb_involutive; reflexivity).
  Qed.
  Lemma sim_path b b' hit hit' r : RB b b' -> (forall x, hit x = hit' (option_map rk x)) -> sim eq (c_simple_path b hit r) (path_nt b' hit' r).
  Proof.
    intros HB HH. unfold c_simple_path, path_nt. cbv zeta. rewrite (RB_fuel _ _ HB). destruct r as [r|]; [|apply sim_raise]. cbn [bind]. eapply sim_bind with (R := eq).
    - eapply sim_while with (I := eq); [|reflexivity]. intros st ? <-. destruct st as [|nd st]; [apply sim_ret; reflexivity|]. step. red1. rewrite HH. destruct (hit' _); apply sim_ret; reflexivity.
    - intros i ? <-. destruct (i =? -1); [apply sim_ret; reflexivity|]. eapply sim_while with (I := eq); [|reflexivity]. intros [nd p] ? <-. destruct (nd =? 0); [apply sim_ret; reflexivity|]. step. red1. destruct (cn_parent n); [apply sim_ret; reflexivity|apply sim_raise].
  Qed.
  Lemma sim_rawz (l : list Z) i : sim (fun x y => x = Some y) (rawget (map Some l) i) (aget l i).
  Proof.
    unfold rawget, aget. replace (len (map Some l)) with (len l) by (unfold len; rewrite map_length; reflexivity). destruct ((i <? 0) || (len l <=? i)); [apply sim_raise|]. rewrite nth_error_map. destruct (nth_error l (Z.to_nat i)); [apply sim_ret; reflexivity|apply sim_raise].
  Qed.
  Lemma sim_lca_1 b b' j k hj hk : RB b b' -> (forall x, fresh_key val (val j) x = hj (option_map rk x)) -> (forall x, fresh_key val (val k) x = hk (option_map rk x)) -> sim RK (c_lca_1 val b j k) (lca_nt b' hj hk).
  Proof.
    intros HB Hj Hk. unfold c_lca_1, lca_nt. cbv zeta. rewrite (RB_rt _ _ HB). eapply sim_bind; [apply sim_path; eassumption|]. intros p1 ? <-. eapply sim_bind; [apply sim_path; eassumption|]. intros p2 ? <-.
    destruct ((len p1 =? 0) || (len p2 =? 0)); [apply sim_raise|]. eapply sim_while with (I := eq); [|reflexivity]. intros i ? <-. destruct ((i <? len p1) && (i <? len p2)).
    - eapply sim_bind; [apply sim_rawz|]. intros x x' ->. eapply sim_bind; [apply sim_rawz|]. intros y y' ->. cbn [oeqb]. destruct (negb _); [|apply sim_ret; reflexivity]. eapply sim_bind; [apply sim_rawz|]. intros p p' ->. step. red1. apply sim_ret. reflexivity.
    - eapply sim_bind; [apply sim_rawz|]. intros p p' ->. step. red1. apply sim_ret. reflexivity.
  Qed.
  Lemma lca_1_error b b' j k hj hk p1 p2 : RB b b' -> (forall x, fresh_key val (val j) x = hj (option_map rk x)) -> (forall x, fresh_key val (val k) x = hk (option_map rk x)) ->
    path_nt b' hj (b_root b') = Ret p1 -> path_nt b' hk (b_root b') = Ret p2 -> p1 = [] \/ p2 = [] -> c_lca_1 val b j k = Raise ValueError.
  Proof.
    intros HB Hj Hk E1 E2 H. rewrite (RB_rt _ _ HB) in E1, E2. unfold c_lca_1. destruct (sim_path b b' _ _ _ HB Hj _ E1) as (q1 & -> & ->). destruct (sim_path b b' _ _ _ HB Hk _ E2) as (q2 & -> & ->). cbn [bind]. destruct H as [-> | ->]; [reflexivity|]. rewrite orb_true_r. reflexivity.
  Qed.

End Sim.
