(** The C++ trees do what the Python trees do also when a delete compacts the array, unless the node deleted has exactly one child and a parent.
    After a compaction the length that ArrayForTrees_append looks at is out of date, so this is about deletes only. Continues CppTreeSim.v and CppTreeSim2.v. *)
From Verif Require Import Base ArraysProofs DistProofs2 TreeModel TreeModel2 TreeSpec TreeProofs TreeRotate TreeBst TreeCompact CppArrayModel CppTreeModel CppTreeModel2 CppTreeQuery CppTreeSim CppTreeSim2.

Section Compact.
  Context {K D : Type} (same : K -> K -> bool) (val : K -> Z) (rk : K -> Z).
  Hypothesis same_ok : forall x y, same x y = true <-> x = y.
  Hypothesis rk_inj : forall x y, rk x = rk y -> x = y.
  Hypothesis val_inj : forall x y, val x = val y -> x = y.
  Notation RM := (RM (D := D) rk). Notation RN := (RN (D := D) rk). Notation dn := (dn (D := D) rk). Notation di := (di (D := D) rk). Notation dm := (dm (D := D) rk). Notation dt := (dt (D := D) rk).

  (** as RB, without the inner array's _size *)
  Definition wfw (b : ctree K D) : Prop := cr_size (ct_arr b) = len (ct_mem b) /\ forall x y, ct_comp b x y = Z.b2z (rk x <? rk y).
  Definition RW (b : ctree K D) (b' : bst D) : Prop := b' = dt b /\ wfw b.
  Definition RAW (a : carr K D) (a' : aft D) : Prop := a' = mkaft (dm (cr_buf a)) (cr_num a) (cr_last a) /\ cr_size a = len (cr_buf a).
  (** the same tree with the inner array's _size set right; queries do not look at it *)
  Definition renewed (b : ctree K D) : ctree K D := let a := ct_arr b in mkct (mkca (cr_buf a) (len (cr_buf a)) (cr_size a) (cr_num a) (cr_last a)) (ct_root b) (ct_size b) (ct_comp b) (ct_os b).
  Lemma RW_renewed b b' : RW b b' -> RB rk (renewed b) b'.
  Proof. intros [-> [W1 W2]]. split; [reflexivity|]. split; [reflexivity|]. split; [exact W1|exact W2]. Qed.
  Lemma RB_RW b b' : RB rk b b' -> RW b b'.
  Proof. intros [-> (W1 & W2 & W3)]. split; [reflexivity|]. split; assumption. Qed.

  Lemma RW_mem b b' : RW b b' -> RM (length (ct_mem b)) (ct_mem b) (b_mem b').
  Proof. intros [-> _]. split; reflexivity. Qed.
  Lemma RW_set b b' t t' : RW b b' -> RM (length (ct_mem b)) t t' -> RW (cset_mem b t) (set_mem b' t').
  Proof. intros [-> (W2 & W3)] [-> HL]. split; [reflexivity|]. unfold wfw, ct_mem, cset_mem in *. cbn in *. unfold len in *. rewrite HL. auto. Qed.
  Lemma RW_root b b' r : RW b b' -> RW (cset_root b r) (set_root b' r).
  Proof. intros [-> W]. split; [reflexivity|exact W]. Qed.
  Lemma RW_fuel b b' : RW b b' -> cfuel (ct_mem b) = fuel (b_mem b').
  Proof. intros [-> _]. unfold cfuel, fuel. cbn. rewrite dm_len. reflexivity. Qed.
  Lemma RW_rt b b' : RW b b' -> b_root b' = ct_root b. Proof. intros [-> _]. reflexivity. Qed.
  Lemma RW_os b b' : RW b b' -> b_os b' = ct_os b. Proof. intros [-> _]. reflexivity. Qed.
  Lemma RW_arr b b' : RW b b' -> RAW (ct_arr b) (b_arr b'). Proof. intros [-> (W1 & _)]. split; [reflexivity|exact W1]. Qed.
  Lemma RW_set_arr b b' a a' : RW b b' -> RAW a a' -> RW (cset_arr b a) (set_arr b' a').
  Proof. intros [-> (_ & W)] (-> & A1). split; [reflexivity|]. split; [exact A1|exact W]. Qed.

  (** ** the dictionaries of new indices *)
  Definition RD (d : list (option Z * Z)) (d' : list (option Z * Z)) : Prop := forall k : option K, odget d (option_map val k) = odget d' (option_map rk k).
  Lemma omap_eqb (f : K -> Z) (H : forall x y, f x = f y -> x = y) (a b : option K) : oeqb (option_map f a) (option_map f b) = true <-> a = b.
  Proof. destruct (oeqb_spec (option_map f a) (option_map f b)) as [E|E]; (split; [intros X|intros ->]); try congruence. destruct a, b; cbn in E; try discriminate; [|reflexivity]. injection E as E. rewrite (H _ _ E). reflexivity. Qed.
  Lemma RD_set d d' k v : RD d d' -> RD (odset d (option_map val k) v) (odset d' (option_map rk k) v).
  Proof.
    intros H k2. destruct (oeqb (option_map val k2) (option_map val k)) eqn:E.
    - apply (omap_eqb val val_inj) in E. subst k2. rewrite !od_same. reflexivity.
    - assert (N : k <> k2). { intros ->. rewrite (proj2 (omap_eqb val val_inj k2 k2) eq_refl) in E. discriminate. }
      rewrite !od_other; [apply H| |]; intros X; apply N; [apply (omap_eqb rk rk_inj)|apply (omap_eqb val val_inj)]; rewrite X; destruct (oeqb_spec (option_map rk k2) (option_map rk k2)); destruct (oeqb_spec (option_map val k2) (option_map val k2)); congruence.
  Qed.
  Definition ROD (d : option (list (option Z * Z))) (d' : option (list (option Z * Z))) : Prop := match d, d' with None, None => True | Some d, Some d' => RD d d' | _, _ => False end.
  Lemma sim_dict d d' k k' : RD d d' -> k' = option_map rk k -> sim eq (cdict val d k) (odgetE d' k').
  Proof. intros H -> y. unfold cdict, odgetE. rewrite H. destruct (odget d' (option_map rk k)); [|discriminate]. intros [= <-]. eauto. Qed.

  (** ** compaction *)
  Lemma sim_rawget N t t' i : RM N t t' -> sim (fun c c' => c' = option_map dn c) (rawget t i) (aget t' i).
  Proof.
    intros [-> _] y E. unfold aget in E. unfold rawget. rewrite dm_lenz in E. destruct ((i <? 0) || (len t <=? i)); [discriminate|]. unfold CppTreeSim.dm in E. rewrite nth_error_map in E. destruct (nth_error t (Z.to_nat i)) as [c|]; cbn in E; [|discriminate]. injection E as <-. eauto.
  Qed.
  Lemma zrange_ge a b x : In x (zrange a b) -> a <= x.
  Proof. unfold zrange. intros H. apply in_map_iff in H as (y & <- & _). lia. Qed.
  Lemma forall2_pos a b : 0 <= a -> Forall2 (fun x y => y = x /\ 0 <= x) (zrange a b) (zrange a b).
  Proof. intros Ha. assert (H : forall x, In x (zrange a b) -> 0 <= x) by (intros x Hx; apply zrange_ge in Hx; lia). induction (zrange a b) as [|x l IH]; constructor; [split; [reflexivity|apply H; left; reflexivity]|]. apply IH. intros y Hy. apply H. right. exact Hy. Qed.
  Lemma sim_modify a a' : RAW a a' -> 0 <= cr_num a -> sim (fun x y => RAW (fst x) (fst y) /\ ROD (snd x) (snd y)) (carr_modify val a) (aft_modify a').
  Proof.
    intros (-> & A2) HNum. unfold carr_modify, aft_modify. cbn [a_num a_data a_last]. rewrite dm_lenz, A2. destruct (4 * cr_num a <? len (cr_buf a)); [|apply sim_ret; cbn; split; [split; [reflexivity|exact A2]|exact I]].
    set (M := Z.to_nat (2 * cr_num a + 1)). assert (HM : RM (length (cr_buf a)) (cr_buf a) (dm (cr_buf a))) by (split; reflexivity).
    eapply sim_bind with (R := fun x y => RM M (fst (fst x)) (fst (fst y)) /\ RD (snd (fst x)) (snd (fst y)) /\ snd y = snd x /\ 0 <= snd x).
    - eapply sim_forM with (E := fun x y => y = x /\ 0 <= x).
      + intros i i' [[t d] j] [[t' d'] j'] [-> Hi] (H1 & H2 & H3 & H4). cbn [fst snd] in *. subst j'. eapply sim_bind; [eapply sim_rawget; exact HM|]. intros c ? ->. destruct c as [n|]; cbn [option_map].
        * eapply sim_bind; [apply (sim_set rk M t t' j (Some n)); assumption|]. intros u u' HU. apply sim_ret. cbn [fst snd]. split; [exact HU|]. split; [rewrite dn_key; apply RD_set; exact H2|]. split; [reflexivity|lia].
        * apply sim_ret. cbn [fst snd]. auto.
      + apply forall2_pos. lia.
      + cbn [fst snd]. split; [split; [unfold CppTreeSim.dm; rewrite dm_repeat; reflexivity|rewrite repeat_length; reflexivity]|]. split; [intros k; reflexivity|]. split; [reflexivity|lia].
    - intros [[t d] j] [[t' d'] j'] (H1 & H2 & H3 & H4). cbn [fst snd] in *. subst j'. cbv zeta.
      assert (RNM : forall l, sim eq (match l with None => Ret None | Some _ => m <- cget (cr_buf a) l ;; match odget d (option_map val (cn_key m)) with Some v => Ret (Some v) | None => undefined end end)
         (match l with None => Ret None | Some _ => m <- tget (dm (cr_buf a)) l ;; v <- odgetE d' (n_key m) ;; Ret (Some v) end)).
      { intros [l|]; [|apply sim_ret; reflexivity]. eapply sim_bind; [eapply sim_get; exact HM|]. intros n m HN. unfold CppTreeSim.RN in HN. subst m. rewrite dn_key. intros y. unfold odgetE. rewrite <- H2. destruct (odget d (option_map val (cn_key n))); [|discriminate]. intros [= <-]. eauto. }
      eapply sim_bind with (R := RM M).
      + eapply sim_forM with (E := fun x y => y = x /\ 0 <= x); [|apply forall2_pos; lia|exact H1]. intros i i' s s' [-> Hi] HS. eapply sim_bind; [eapply sim_get; exact HS|]. intros n m HN. unfold CppTreeSim.RN in HN. subst m.
        rewrite dn_left, dn_right, dn_parent. eapply sim_bind; [apply RNM|]. intros l ? <-. eapply sim_bind; [apply RNM|]. intros r ? <-. eapply sim_bind; [apply RNM|]. intros p ? <-. apply (sim_set rk M s s' i (Some (mkcn (cn_inf n) l r p))); assumption.
      + intros u u' [-> HL]. apply sim_ret. cbn [fst snd]. split; [|exact H2]. split; [reflexivity|]. cbn [cr_size cr_buf]. unfold len. rewrite HL. unfold M.
        lia.
  Qed.


  Lemma sim_aft_delete_w a a' i : RAW a a' -> 1 <= a_num a' -> sim (fun x y => RAW (fst x) (fst y) /\ ROD (snd x) (snd y)) (carr_delete val a i) (aft_delete a' i).
  Proof.
    intros (-> & A2) HN. cbn [a_num] in HN. destruct i as [i|]; [|apply sim_raise]. unfold carr_delete, aft_delete. cbn [a_data a_last a_num].
    destruct ((i <=? cr_last a) && (0 <=? i)) eqn:Ei; [|apply sim_ret; cbn; split; [split; [reflexivity|assumption]|exact I]].
    intros y. unfold aget, rawget. rewrite dm_lenz. destruct ((i <? 0) || (len (cr_buf a) <=? i)) eqn:E1; [discriminate|]. unfold CppTreeSim.dm at 1. rewrite nth_error_map. destruct (nth_error (cr_buf a) (Z.to_nat i)) as [[n|]|]; cbn [option_map bind]; try discriminate.
    - intros E. change (@None (node D)) with (option_map dn None) in E. destruct (aset (dm (cr_buf a)) i (option_map dn None)) as [u| |] eqn:Es; try discriminate. cbn [bind] in E.
      destruct (sim_set rk _ (cr_buf a) (dm (cr_buf a)) i None (conj eq_refl eq_refl) ltac:(lia) u Es) as (u0 & -> & [-> HL]). cbn [bind].
      refine (sim_modify (mkca u0 (cr_isize a) (cr_size a) (cr_num a - 1) (if cr_last a =? i then cr_last a - 1 else cr_last a)) _ _ _ y E).
      + split; [reflexivity|]. cbn. rewrite A2. unfold len. rewrite HL. reflexivity.
      + cbn. lia.
    - intros E. inversion E; subst. eexists. split; [reflexivity|]. cbn. split; [|exact I]. split; [reflexivity|exact A2].
  Qed.
  Lemma sim_after b b' a par root par' root' x y : RW b b' -> RAW (fst x) (fst y) -> ROD (snd x) (snd y) -> par' = option_map rk par -> root' = option_map rk root ->
    sim (fun u v => RW (fst u) (fst v) /\ snd v = snd u) (c_after_delete val b a par root x) (after_delete b' a par' root' y).
  Proof.
    destruct x as [arr d], y as [arr' d']. cbn [fst snd]. intros HB HA HD H1 H2. unfold c_after_delete, after_delete. assert (HB2 := RW_set_arr _ _ _ _ HB HA). destruct d as [d|], d' as [d'|]; try destruct HD.
    - eapply sim_bind; [eapply sim_dict; eassumption|]. intros p ? <-. eapply sim_bind; [eapply sim_dict; eassumption|]. intros r ? <-. apply sim_ret. cbn. split; [|reflexivity]. apply RW_root. exact HB2.
    - apply sim_ret. cbn. auto.
  Qed.

  (** ** searching, sizes *)
  Lemma sim_search_w b b' k : RW b b' -> sim eq (c_search same b k) (search b' (rk k)).
  Proof. intros HB. apply (sim_search same rk same_ok rk_inj (renewed b) b' k (RW_renewed _ _ HB)). Qed.
  Lemma sim_search_parent_w b b' k : RW b b' -> sim eq (c_search_parent same b k) (search_parent b' (rk k)).
  Proof. intros HB. apply (sim_search_parent same rk same_ok rk_inj (renewed b) b' k (RW_renewed _ _ HB)). Qed.
  Ltac rm := first [eassumption | eapply RW_mem; eassumption].
  Ltac step :=
    match goal with
    | |- sim _ _ (Raise _) => apply sim_raise
    | |- sim _ _ OutOfFuel => apply sim_out
    | |- sim _ (bind (cget _ _) _) (bind (tget _ _) _) => eapply sim_bind; [eapply sim_get; rm | let x := fresh "n" in let y := fresh "m" in let z := fresh "HN" in intros x y z; unfold CppTreeSim.RN in z; subst y]
    | |- sim _ (cget _ _) (tget _ _) => eapply sim_get; rm
    | |- sim _ (bind (cmod _ _ _) _) (bind (tmod _ _ _) _) => eapply sim_bind; [eapply sim_mod; [rm | reflexivity] | let x := fresh "t" in let y := fresh "u" in let z := fresh "HM" in intros x y z]
    | |- sim _ (cmod _ _ _) (tmod _ _ _) => eapply sim_mod; [rm | reflexivity]
    end.
  Ltac red1 := rewrite ?dn_left, ?dn_right, ?dn_parent, ?dn_inf, ?dn_key; cbn [CppTreeSim.di k_height k_size k_data k_isroot].
  Lemma sim_update_size_w b b' i : RW b b' -> sim RW (c_update_size b i) (update_size b' i).
  Proof.
    intros HB. unfold c_update_size, update_size. rewrite (RW_os _ _ HB). destruct (ct_os b); [|apply sim_ret; exact HB]. rewrite (RW_fuel _ _ HB).
    eapply sim_bind with (R := RM (length (ct_mem b))).
    - eapply sim_while with (I := fun s s' => RM (length (ct_mem b)) (fst s) (fst s') /\ snd s' = snd s).
      + intros [t w] [t' w'] [HM E]. cbn in HM, E. subst w'. destruct w; [|apply sim_ret; exact HM]. eapply sim_bind; [eapply sim_fix_size; exact HM|]. intros u u' HU. step. red1. apply sim_ret. cbn. split; [exact HU|reflexivity].
      + cbn. split; [apply RW_mem; exact HB|reflexivity].
    - intros t t' HM. apply sim_ret. apply RW_set; assumption.
  Qed.

  (** ** delete *)
  (** the node with the key has exactly one child, and a parent *)
  Definition single (b' : bst D) (z : Z) : Prop :=
    exists w p n, search_parent b' z = Ret (w, Some p) /\ tget (b_mem b') w = Ret n /\ is_none (n_left n) <> is_none (n_right n).
  Ltac del := eapply sim_bind; [apply sim_aft_delete_w; [apply RW_arr; eassumption|assumption]|]; let x := fresh "x" in let y := fresh "y" in let A := fresh "HA" in let H1 := fresh "HR" in intros x y (A & H1).
  Lemma sim_keep A B (R : A -> B -> Prop) c p : sim R c p -> sim (fun x y => R x y /\ p = Ret y) c p.
  Proof. intros H y E. destruct (H y E) as (x & E1 & HR). eauto. Qed.
  Lemma sim_delete_info_w b b' k : RW b b' -> 1 <= a_num (b_arr b') -> ~ single b' (rk k) -> sim (fun x y => RW (fst x) (fst y) /\ snd y = snd x) (c_delete_info same val b k) (delete_info b' (rk k)).
  Proof.
    intros HB HD HSI. unfold c_delete_info, delete_info. assert (LL : length (ct_mem b) = length (b_mem b')) by (symmetry; apply (RM_len rk _ _ _ (RW_mem _ _ HB))).
    assert (HS : forall t t', RM (length (ct_mem b)) t t' -> RW (cset_mem b t) (set_mem b' t') /\ 1 <= a_num (b_arr (set_mem b' t'))).
    { intros t t' HM. split; [apply RW_set; assumption|exact HD]. }
    eapply sim_bind; [apply sim_keep; apply sim_search_parent_w; exact HB|]. intros [walk parent] ? [<- ESP]. destruct walk as [walk|]; [|apply sim_ret; cbn; auto]. eapply sim_bind; [apply sim_keep; eapply sim_get; rm|]. intros n ? [HNN EG]. unfold CppTreeSim.RN in HNN. subst. red1.
    assert (NSG : forall p, parent = Some p -> is_none (cn_left n) = is_none (cn_right n)).
    { intros p ->. destruct (Bool.bool_dec (is_none (cn_left n)) (is_none (cn_right n))) as [e|e]; [exact e|]. exfalso. apply HSI. exists (Some walk), p, (dn n). rewrite dn_left, dn_right. auto. }
    assert (Fin : forall b1 b1' a, RW b1 b1' -> sim (fun x y => RW (fst x) (fst y) /\ snd y = snd x) (b2 <- c_update_size b1 a ;; Ret (b2, Some a)) (b2 <- update_size b1' a ;; Ret (b2, Some a))).
    { intros b1 b1' a H1. eapply sim_bind; [apply sim_update_size_w; exact H1|]. intros b2 b2' H2. apply sim_ret. cbn. auto. }
    assert (Fin2 : forall b1 b1' a a' x y, RW b1 b1' -> RAW x y -> ROD a a' -> forall k1 k1', k1' = option_map rk k1 -> sim (fun x y => RW (fst x) (fst y) /\ snd y = snd x)
      (let b := cset_arr b1 x in b <- (match a with None => Ret b | Some d => r <- cdict val d k1 ;; Ret (cset_root b (Some r)) end) ;; Ret (b, Some (@None Z)))
      (let b := set_arr b1' y in b <- (match a' with None => Ret b | Some d => r <- odgetE d k1' ;; Ret (set_root b (Some r)) end) ;; Ret (b, Some (@None Z)))).
    { intros b1 b1' a a' x y H1 H2 H3 k1 k1' E1. cbv zeta. eapply sim_bind with (R := RW); [|intros b2 b2' H4; apply sim_ret; cbn; auto]. assert (H5 := RW_set_arr _ _ _ _ H1 H2). destruct a as [d|], a' as [d'|]; try destruct H3; [|apply sim_ret; exact H5]. eapply sim_bind; [eapply sim_dict; eassumption|]. intros r ? <-. apply sim_ret. apply RW_root. exact H5. }
    destruct (cn_left n) as [lf|] eqn:El, (cn_right n) as [rg|] eqn:Er.
    - rewrite (RW_fuel _ _ HB). eapply sim_bind with (R := eq).
      + eapply sim_while with (I := eq); [|reflexivity]. intros [[tw par] flag] ? <-. step. red1. destruct (cn_left n0); apply sim_ret; reflexivity.
      + intros [[tw par] flag] ? <-. step. eapply sim_bind; [eapply sim_mod; [rm|reflexivity]|]. intros t t' HT. step. red1.
        eapply sim_bind with (R := RM (length (ct_mem b))); [destruct flag; (eapply sim_mod; [exact HT|reflexivity])|]. intros t1 t1' HT1. step. red1.
        eapply sim_bind with (R := RM (length (ct_mem b))). { destruct (cn_right n2); [eapply sim_mod; [exact HT1|reflexivity]|apply sim_ret; exact HT1]. }
        intros t2 t2' HT2. destruct (HS _ _ HT2) as [HB2 HD2]. step. change (b_root (set_mem b' t2')) with (b_root b'). change (ct_root (cset_mem b t2)) with (ct_root b). rewrite (RW_rt _ _ HB). step. del.
        eapply sim_bind; [eapply sim_after; [eassumption|eassumption|eassumption|red1; reflexivity|red1; reflexivity]|]. intros [b1 a] [b1' a'] [H1 H2]. cbn [fst snd] in H1, H2. subst a'. apply Fin. exact H1.
    - destruct parent as [parent|]; [specialize (NSG _ eq_refl); discriminate|].
      step. rewrite (RW_rt _ _ HB). red1. eapply sim_bind; [eapply sim_mod; [rm|reflexivity]|]. intros t t' HT. destruct (HS _ _ HT) as [HB2 HD2]. change (b_root (set_mem b' t')) with (b_root b'). change (ct_root (cset_mem b t)) with (ct_root b). rewrite (RW_rt _ _ HB). step. red1. del. destruct x as [x a], y as [y a']. cbn [fst snd] in *. apply Fin2; auto.
    - destruct parent as [parent|]; [specialize (NSG _ eq_refl); discriminate|].
      step. rewrite (RW_rt _ _ HB). red1. eapply sim_bind; [eapply sim_mod; [rm|reflexivity]|]. intros t t' HT. destruct (HS _ _ HT) as [HB2 HD2]. change (b_root (set_mem b' t')) with (b_root b'). change (ct_root (cset_mem b t)) with (ct_root b). rewrite (RW_rt _ _ HB). step. red1. del. destruct x as [x a], y as [y a']. cbn [fst snd] in *. apply Fin2; auto.
    - eapply sim_bind with (R := fun x y => RW (fst x) (fst y) /\ snd y = snd x).
      + destruct parent as [parent|].
        * step. red1. eapply sim_bind with (R := RM (length (ct_mem b))); [destruct (oeqb (cn_left n0) (Some walk)); (eapply sim_mod; [rm|reflexivity])|]. intros t t' HT. destruct (HS _ _ HT) as [HB2 HD2].
          step. change (b_root (set_mem b' t')) with (b_root b'). change (ct_root (cset_mem b t)) with (ct_root b). rewrite (RW_rt _ _ HB). step. del. eapply sim_after; [eassumption|eassumption|eassumption|red1; reflexivity|red1; reflexivity].
        * rewrite (RW_rt _ _ HB). eapply sim_bind; [eapply sim_mod; [rm|reflexivity]|]. intros t t' HT. apply sim_ret. cbn. split; [|reflexivity]. apply RW_set; assumption.
      + intros [b1 a] [b1' a'] [H1 H2]. cbn in H1, H2. subst a'. apply Fin. exact H1.
  Qed.
  Lemma sim_delete_w b b' k : RW b b' -> 1 <= a_num (b_arr b') -> ~ single b' (rk k) -> sim (fun x y => RW (fst x) (fst y) /\ snd y = snd x) (c_delete same val b k) (delete b' (rk k)).
  Proof. intros HB HD HS. unfold c_delete, delete. eapply sim_bind; [apply sim_delete_info_w; eassumption|]. intros [b1 a] [b1' a'] [H1 H2]. cbn in H1, H2. subst. apply sim_ret. cbn. auto. Qed.

  (** ** rotations *)
  Definition RX (N : nat) (c : Z) (b : ctree K D) (b' : bst D) : Prop := RW b b' /\ length (b_mem b') = N /\ a_num (b_arr b') = c.
  Definition RX1 {A} (N : nat) (c : Z) (x : ctree K D * A) (y : bst D * A) : Prop := RX N c (fst x) (fst y) /\ snd y = snd x.
  Lemma RW_RX b b' : RW b b' -> RX (length (b_mem b')) (a_num (b_arr b')) b b'. Proof. intros H. split; [exact H|split; reflexivity]. Qed.
  Lemma RX_mem N c b b' : RX N c b b' -> RM N (ct_mem b) (b_mem b').
  Proof. intros (H & <- & _). destruct (RW_mem _ _ H) as [E1 _]. split; [exact E1|]. rewrite E1. symmetry. apply dm_len. Qed.
  Lemma RX_rt N c b b' : RX N c b b' -> b_root b' = ct_root b. Proof. intros (H & _). apply (RW_rt _ _ H). Qed.
  Lemma RX_fuel N c b b' : RX N c b b' -> cfuel (ct_mem b) = fuel (b_mem b'). Proof. intros (H & _). apply (RW_fuel _ _ H). Qed.
  Lemma RX_set N c b b' t t' : RX N c b b' -> RM N t t' -> RX N c (cset_mem b t) (set_mem b' t').
  Proof. intros H HM. assert (HX := RX_mem _ _ _ _ H). destruct H as (H & HN & Hc). split; [|split; [|exact Hc]]. - apply RW_set; [exact H|]. destruct HM as [-> E2], HX as [_ E3]. split; [reflexivity|congruence]. - change (length t' = N). apply (RM_len rk _ _ _ HM). Qed.
  Lemma RX_root N c b b' r : RX N c b b' -> RX N c (cset_root b r) (set_root b' r).
  Proof. intros (H & HN & Hc). split; [apply RW_root; exact H|auto]. Qed.
  Ltac rm ::= first [eassumption | eapply RX_mem; eassumption | eapply RW_mem; eassumption].
  Ltac nx N c := eapply sim_bind with (R := RX N c); [|let b := fresh "b" in let c := fresh "c" in let H := fresh "HX" in intros b c H].
  Lemma sx_rot N c f g b b' j k : (forall N t t' r j k, RM N t t' -> sim (RR rk N) (f t r j k) (g t' r j k)) -> RX N c b b' -> sim (RX N c) (crot f b j k) (rot g b' j k).
  Proof.
    intros H HB. unfold crot, rot. rewrite (RX_rt _ _ _ _ HB). eapply sim_bind; [eapply H; rm|]. intros [t r] [t' r'] [HM E]. cbn in HM, E. subst r'. apply sim_ret. apply RX_root. apply RX_set; assumption.
  Qed.
  Lemma sx_right N c b b' j k : RX N c b b' -> sim (RX N c) (crot c_right_rotate b j k) (rot right_rotate b' j k). Proof. apply sx_rot. intros. apply sim_right_rotate; assumption. Qed.
  Lemma sx_left N c b b' j k : RX N c b b' -> sim (RX N c) (crot c_left_rotate b j k) (rot left_rotate b' j k). Proof. apply sx_rot. intros. apply sim_left_rotate; assumption. Qed.
  Lemma sx_lr N c b b' j k : RX N c b b' -> sim (RX N c) (crot c_left_right_rotate b j k) (rot left_right_rotate b' j k). Proof. apply sx_rot. intros. apply sim_left_right_rotate; assumption. Qed.
  Lemma sx_rl N c b b' j k : RX N c b b' -> sim (RX N c) (crot c_right_left_rotate b j k) (rot right_left_rotate b' j k). Proof. apply sx_rot. intros. apply sim_right_left_rotate; assumption. Qed.
  Ltac rt := first [apply sx_right | apply sx_left | apply sx_lr | apply sx_rl]; assumption.
  Lemma sx_splay N c b b' x p : RX N c b b' -> sim (RX N c) (c_splay b x p) (splay b' x p).
  Proof.
    intros HB. unfold c_splay, splay. rewrite (RX_fuel _ _ _ _ HB). eapply sim_while with (I := RX1 N c); [|split; [exact HB|reflexivity]]. intros [b1 q] [b1' q'] [H1 E]. cbn [fst snd] in H1, E. subst q'. step. red1. destruct (cn_parent n) as [pp|]; [|apply sim_ret; exact H1].
    step. red1. nx N c.
    - destruct (cn_parent n0) as [g|].
      + step. red1. destruct (_ && _); [|destruct (_ && _); [|destruct (_ && _)]].
        * unfold c_zig_zig, zig_zig. step. red1. nx N c; rt.
        * unfold c_zag_zag, zag_zag. step. red1. nx N c; rt.
        * unfold c_zag_zig, zag_zig. step. red1. rt.
        * unfold c_zig_zag, zig_zag. step. red1. rt.
      + unfold c_zig, zig. step. red1. destruct (oeqb _ _); rt.
    - step. red1. apply sim_ret. split; [assumption|reflexivity].
  Qed.
  Lemma sim_splay_delete_w b b' k : RW b b' -> 1 <= a_num (b_arr b') -> (forall e p b1, search_parent b' (rk k) = Ret (Some e, p) -> splay b' (Some e) p = Ret b1 -> ~ single b1 (rk k)) ->
    sim (fun x y => RW (fst x) (fst y) /\ snd y = snd x) (c_splay_delete same val b k) (splay_delete b' (rk k)).
  Proof.
    intros HB HD HS. unfold c_splay_delete, splay_delete. intros y E. destruct (search_parent b' (rk k)) as [[e p]| |] eqn:Es; try discriminate. destruct (sim_search_parent_w b b' k HB _ Es) as (x & -> & ->). cbn [bind] in *. destruct e as [e|].
    - destruct (splay b' (Some e) p) as [b1'| |] eqn:E1; try discriminate. cbn [bind] in E. destruct (sx_splay _ _ _ _ (Some e) p (RW_RX _ _ HB) _ E1) as (b1 & -> & H1 & _ & N1). cbn [bind]. refine (sim_delete_w _ _ k H1 _ _ _ E); [rewrite N1; exact HD|]. eapply HS; [reflexivity|exact E1].
    - injection E as <-. eexists. split; [reflexivity|]. cbn. auto.
  Qed.
  Lemma sx_trickle_down N c b b' i : RX N c b b' -> sim (RX N c) (c_trickle_down b i) (trickle_down b' i).
  Proof.
    intros HB. unfold c_trickle_down, trickle_down. rewrite (RX_fuel _ _ _ _ HB). eapply sim_while with (I := RX N c); [|exact HB]. intros b1 b1' H1. step. red1. destruct (cn_left n) as [l|], (cn_right n) as [r|].
    - step. apply sim_prio. step. apply sim_prio. nx N c; [destruct (_ <? _); rt|apply sim_ret; assumption].
    - nx N c; [rt|apply sim_ret; assumption].
    - nx N c; [rt|apply sim_ret; assumption].
    - apply sim_ret. exact H1.
  Qed.
  Lemma sim_cart_delete_w b b' k : RW b b' -> 1 <= a_num (b_arr b') -> (forall e b1, search b' (rk k) = Ret (Some e) -> trickle_down b' (Some e) = Ret b1 -> ~ single b1 (rk k)) ->
    sim (fun x y => RW (fst x) (fst y) /\ snd y = snd x) (c_cart_delete same val b k) (cart_delete b' (rk k)).
  Proof.
    intros HB HD HS. unfold c_cart_delete, cart_delete. intros y E. destruct (search b' (rk k)) as [e| |] eqn:Es; try discriminate. destruct (sim_search_w b b' k HB _ Es) as (x & -> & ->). cbn [bind] in *. destruct e as [e|].
    - destruct (trickle_down b' (Some e)) as [b1'| |] eqn:E1; try discriminate. cbn [bind] in E. destruct (sx_trickle_down _ _ _ _ (Some e) (RW_RX _ _ HB) _ E1) as (b1 & -> & H1 & _ & N1). cbn [bind]. refine (sim_delete_w _ _ k H1 _ _ _ E); [rewrite N1; exact HD|]. eapply HS; [reflexivity|exact E1].
    - injection E as <-. eexists. split; [reflexivity|]. cbn. auto.
  Qed.
End Compact.
