(** The C++ CartesianTree, Treap, SplayTree and RedBlackTree (CppTreeModel2.v) do what the Python ones (TreeModel2.v) do, as long as the Python code returns and
    no compaction of the array takes place. Continues CppTreeSim.v. *)
From Verif Require Import Base ArraysProofs DistProofs2 TreeModel TreeModel2 CppArrayModel CppTreeModel CppTreeModel2 CppTreeQuery CppTreeSim.

Section Sim2.
  Context {K D : Type} (same : K -> K -> bool) (val : K -> Z) (rk : K -> Z).
  Hypothesis same_ok : forall x y, same x y = true <-> x = y.
  Hypothesis rk_inj : forall x y, rk x = rk y -> x = y.
  Notation RB := (RB (D := D) rk). Notation RM := (RM (D := D) rk). Notation RN := (RN (D := D) rk). Notation dn := (dn (D := D) rk). Notation di := (di (D := D) rk).

  (** with the size of the array and the number of its elements *)
  Definition RX (N : nat) (c : Z) (b : ctree K D) (b' : bst D) : Prop := RB b b' /\ length (b_mem b') = N /\ a_num (b_arr b') = c.
  Definition RX1 {A} (N : nat) (c : Z) (x : ctree K D * A) (y : bst D * A) : Prop := RX N c (fst x) (fst y) /\ snd y = snd x.
  Lemma RX_RB N c b b' : RX N c b b' -> RB b b'. Proof. intros H. apply H. Qed.
  Lemma RB_RX b b' : RB b b' -> RX (length (b_mem b')) (a_num (b_arr b')) b b'. Proof. intros H. split; [exact H|split; reflexivity]. Qed.
  Lemma RX_mem N c b b' : RX N c b b' -> RM N (ct_mem b) (b_mem b').
  Proof. intros (H & <- & _). destruct (RB_mem _ _ _ H) as [E1 _]. split; [exact E1|]. rewrite E1. symmetry. apply dm_len. Qed.
  Lemma RX_rt N c b b' : RX N c b b' -> b_root b' = ct_root b. Proof. intros (H & _). apply (RB_rt _ _ _ H). Qed.
  Lemma RX_fuel N c b b' : RX N c b b' -> cfuel (ct_mem b) = fuel (b_mem b'). Proof. intros (H & _). apply (RB_fuel _ _ _ H). Qed.
  Lemma RX_set N c b b' t t' : RX N c b b' -> RM N t t' -> RX N c (cset_mem b t) (set_mem b' t').
  Proof. intros H HM. assert (HX := RX_mem _ _ _ _ H). destruct H as (H & HN & Hc). split; [|split; [|exact Hc]]. - apply RB_set; [exact H|]. destruct HM as [-> E2], HX as [_ E3]. split; [reflexivity|congruence]. - change (length t' = N). apply (RM_len rk _ _ _ HM). Qed.
  Lemma RX_root N c b b' r : RX N c b b' -> RX N c (cset_root b r) (set_root b' r).
  Proof. intros (H & HN & Hc). split; [apply RB_root; exact H|auto]. Qed.

  Ltac rm := first [eassumption | eapply RX_mem; eassumption | eapply RB_mem; eassumption].
  Ltac step :=
    match goal with
    | |- sim _ _ (Raise _) => apply sim_raise
    | |- sim _ _ OutOfFuel => apply sim_out
    | |- sim _ (bind (cget _ _) _) (bind (tget _ _) _) => eapply sim_bind; [eapply sim_get; rm | let x := fresh "n" in let y := fresh "m" in let z := fresh "HN" in intros x y z; unfold CppTreeSim.RN in z; subst y]
    | |- sim _ (cget _ _) (tget _ _) => eapply sim_get; rm
    | |- sim _ (bind (cmod _ _ _) _) (bind (tmod _ _ _) _) => eapply sim_bind; [eapply sim_mod; [rm | reflexivity] | let x := fresh "t" in let y := fresh "u" in let z := fresh "HM" in intros x y z]
    | |- sim _ (cmod _ _ _) (tmod _ _ _) => eapply sim_mod; [rm | reflexivity]
    end.
  Ltac red1 := rewrite ?dn_left, ?dn_right, ?dn_parent, ?dn_inf, ?dn_key; cbn [CppTreeSim.di k_height k_size k_data k_isroot].
  Ltac nx N c := eapply sim_bind with (R := RX N c); [|let b := fresh "b" in let c := fresh "c" in let H := fresh "HX" in intros b c H].

  Lemma sx_rot N c f g b b' j k : (forall N t t' r j k, RM N t t' -> sim (RR rk N) (f t r j k) (g t' r j k)) -> RX N c b b' -> sim (RX N c) (crot f b j k) (rot g b' j k).
  Proof.
    intros H HB. unfold crot, rot. rewrite (RX_rt _ _ _ _ HB). eapply sim_bind; [eapply H; rm|]. intros [t r] [t' r'] [HM E]. cbn in HM, E. subst r'. apply sim_ret. apply RX_root. apply RX_set; assumption.
  Qed.
  Lemma sx_on N c f g b b' : (forall t t', RM N t t' -> sim (RM N) (f t) (g t')) -> RX N c b b' -> sim (RX N c) (con_mem f b) (on_mem g b').
  Proof. intros H HB. unfold con_mem, on_mem. eapply sim_bind; [eapply H; rm|]. intros t t' HM. apply sim_ret. apply RX_set; assumption. Qed.
  Lemma sx_mod N c b b' i f g : RX N c b b' -> (forall n, g (dn n) = dn (f n)) -> sim (RX N c) (con_mem (fun t => cmod t i f) b) (on_mem (fun t => tmod t i g) b').
  Proof. intros HB H. apply sx_on; [|exact HB]. intros t t' HM. eapply sim_mod; eassumption. Qed.
  Lemma sx_right N c b b' j k : RX N c b b' -> sim (RX N c) (crot c_right_rotate b j k) (rot right_rotate b' j k). Proof. apply sx_rot. intros. apply sim_right_rotate; assumption. Qed.
  Lemma sx_left N c b b' j k : RX N c b b' -> sim (RX N c) (crot c_left_rotate b j k) (rot left_rotate b' j k). Proof. apply sx_rot. intros. apply sim_left_rotate; assumption. Qed.
  Lemma sx_lr N c b b' j k : RX N c b b' -> sim (RX N c) (crot c_left_right_rotate b j k) (rot left_right_rotate b' j k). Proof. apply sx_rot. intros. apply sim_left_right_rotate; assumption. Qed.
  Lemma sx_rl N c b b' j k : RX N c b b' -> sim (RX N c) (crot c_right_left_rotate b j k) (rot right_left_rotate b' j k). Proof. apply sx_rot. intros. apply sim_right_left_rotate; assumption. Qed.
  Ltac rt := first [apply sx_right | apply sx_left | apply sx_lr | apply sx_rl]; assumption.

  (** ** SplayTree *)
  Lemma sx_splay N c b b' x p : RX N c b b' -> sim (RX N c) (c_splay b x p) (splay b' x p).
  Proof.
    intros HB. unfold c_splay, splay. rewrite (RX_fuel _ _ _ _ HB). eapply sim_while with (I := RX1 N c); [|split; [exact HB|reflexivity]]. intros [b1 q] [b1' q'] [H1 E]. cbn [fst snd] in H1, E. subst q'. step. red1. destruct (cn_parent n) as [pp|]; [|apply sim_ret; exact H1].
    step. red1. nx N c.
    - destruct (cn_parent n0) as [g|].
      + step. red1. destruct (_ && _); [|destruct (_ && _); [|destruct (_ && _)]].
        * unfold c_zig_zig, zig_zig. step. red1. nx N c; rt.
        * unfold c_zag_zag, zag_zag. step. red1. nx N c; rt.
        * unfold c_zag_zig, zag_zig. step. red1. rt.
        * unfold c_zig_zag, zig_zag. step. red1. rt.
      + unfold c_zig, zig. step. red1. destruct (oeqb _ _); rt.
    - step. red1. apply sim_ret. split; [assumption|reflexivity].
  Qed.
  Lemma sim_splay_insert b b' k d : RB b b' -> room (b_arr b') -> sim RB (c_splay_insert same val b k d) (splay_insert b' (rk k) d).
  Proof.
    intros HB HR. unfold c_splay_insert, splay_insert. eapply sim_bind; [apply sim_insert; eassumption|]. intros b1 b1' H1. eapply sim_bind; [apply sim_search_parent; eassumption|]. intros [e p] ? <-. rewrite (RB_sz _ _ _ H1). step. assert (HX := RB_RX _ _ H1).
    eapply sim_mono; [eapply sx_splay|intros x y X; eapply RX_RB; exact X]. eapply RB_RX. apply RB_set; assumption.
  Qed.
  Lemma sim_splay_delete b b' k : RB b b' -> (forall e p, search_parent b' (rk k) = Ret (Some e, p) -> dense (b_arr b')) -> sim (fun x y => RB (fst x) (fst y) /\ snd y = snd x) (c_splay_delete same val b k) (splay_delete b' (rk k)).
  Proof.
    intros HB HD. unfold c_splay_delete, splay_delete. intros y E. destruct (search_parent b' (rk k)) as [[e p]| |] eqn:Es; try discriminate. destruct (sim_search_parent same rk same_ok rk_inj b b' k HB _ Es) as (x & -> & ->). cbn [bind] in *. destruct e as [e|].
    - specialize (HD _ _ eq_refl). revert y E. change (sim (fun x y => RB (fst x) (fst y) /\ snd y = snd x) (b0 <- c_splay b (Some e) p ;; c_delete same val b0 k) (b0 <- splay b' (Some e) p ;; delete b0 (rk k))).
      eapply sim_bind; [eapply sx_splay; apply RB_RX; exact HB|]. intros b1 b1' (H1 & L1 & N1). apply sim_delete; [assumption..|]. intros w q _. unfold dense, b_mem, len in *. rewrite L1, N1. exact HD.
    - injection E as <-. eexists. split; [reflexivity|]. cbn. auto.
  Qed.

  (** ** CartesianTree, Treap *)
  Lemma prio_ok n z : n_prio (dn n) = Ret z -> c_prio n = z.
  Proof. unfold n_prio, c_prio. cbn. destruct (ck_prio (cn_inf n)); [congruence|discriminate]. Qed.
  Lemma sim_prio n A B (R : A -> B -> Prop) c (k' : Z -> res B) : sim R c (k' (c_prio n)) -> sim R c (bind (n_prio (dn n)) k').
  Proof. intros H y E. destruct (n_prio (dn n)) as [z| |] eqn:Ez; try discriminate. cbn [bind] in E. rewrite <- (prio_ok _ _ Ez) in E. apply (H y E). Qed.
  Lemma sim_rawaget N t t' i : RM N t t' -> sim (fun _ _ => True) (rawget t i) (aget t' i).
  Proof.
    intros [-> _] y E. unfold aget in E. unfold rawget. rewrite dm_lenz in E. destruct ((i <? 0) || (len t <=? i)); [discriminate|]. unfold dm in E. rewrite nth_error_map in E. destruct (nth_error t (Z.to_nat i)); [eauto|discriminate].
  Qed.
  Lemma sx_bubble_up N c b b' i : RX N c b b' -> sim (RX N c) (c_bubble_up b i) (bubble_up b' i).
  Proof.
    intros HB. unfold c_bubble_up, bubble_up. step. red1. eapply sim_bind with (R := fun _ _ => True); [destruct (cn_parent n); [eapply sim_rawaget; rm|apply sim_raise]|]. intros _ _ _. nx N c.
    - rewrite (RX_fuel _ _ _ _ HB). eapply sim_while with (I := RX N c); [|exact HB]. intros b1 b1' H1. step. red1. destruct (cn_parent n0) as [p|]; [|apply sim_ret; exact H1]. step. apply sim_prio. apply sim_prio. red1. destruct (c_prio n0 <? c_prio n1); [|apply sim_ret; exact H1].
      nx N c; [destruct (oeqb _ _); rt|apply sim_ret; assumption].
    - step. red1. destruct (cn_parent n0); [apply sim_ret; assumption|]. apply sx_mod; [assumption|reflexivity].
  Qed.
  Lemma sx_trickle_down N c b b' i : RX N c b b' -> sim (RX N c) (c_trickle_down b i) (trickle_down b' i).
  Proof.
    intros HB. unfold c_trickle_down, trickle_down. rewrite (RX_fuel _ _ _ _ HB). eapply sim_while with (I := RX N c); [|exact HB]. intros b1 b1' H1. step. red1. destruct (cn_left n) as [l|], (cn_right n) as [r|].
    - step. apply sim_prio. step. apply sim_prio. nx N c; [destruct (_ <? _); rt|apply sim_ret; assumption].
    - nx N c; [rt|apply sim_ret; assumption].
    - nx N c; [rt|apply sim_ret; assumption].
    - apply sim_ret. exact H1.
  Qed.
  Lemma sim_cart_insert b b' k p d : RB b b' -> room (b_arr b') -> sim RB (c_cart_insert same val b k p d) (cart_insert b' (rk k) p d).
  Proof.
    intros HB HR. unfold c_cart_insert, cart_insert. eapply sim_bind; [apply sim_insert; eassumption|]. intros b1 b1' H1. eapply sim_bind; [apply sim_search; eassumption|]. intros i ? <-. step. red1. assert (HX := RB_RX _ _ H1). set (N := length (b_mem b1')) in *. set (c := a_num _) in *.
    eapply sim_mono with (R := RX N c); [|intros x y X; eapply RX_RB; exact X]. nx N c; [apply sx_mod; [assumption|reflexivity]|]. destruct (ck_isroot (cn_inf n)); [apply sx_mod; [assumption|reflexivity]|apply sx_bubble_up; assumption].
  Qed.
  Lemma sim_cart_delete b b' k : RB b b' -> (forall e, search b' (rk k) = Ret (Some e) -> dense (b_arr b')) -> sim (fun x y => RB (fst x) (fst y) /\ snd y = snd x) (c_cart_delete same val b k) (cart_delete b' (rk k)).
  Proof.
    intros HB HD. unfold c_cart_delete, cart_delete. intros y E. destruct (search b' (rk k)) as [e| |] eqn:Es; try discriminate. destruct (sim_search same rk same_ok rk_inj b b' k HB _ Es) as (x & -> & ->). cbn [bind] in *. destruct e as [e|].
    - specialize (HD _ eq_refl). revert y E. change (sim (fun x y => RB (fst x) (fst y) /\ snd y = snd x) (b0 <- c_trickle_down b (Some e) ;; c_delete same val b0 k) (b0 <- trickle_down b' (Some e) ;; delete b0 (rk k))).
      eapply sim_bind; [eapply sx_trickle_down; apply RB_RX; exact HB|]. intros b1 b1' (H1 & L1 & N1). apply sim_delete; [assumption..|]. intros w q _. unfold dense, b_mem, len in *. rewrite L1, N1. exact HD.
    - injection E as <-. eexists. split; [reflexivity|]. cbn. auto.
  Qed.

  (** ** RedBlackTree *)
  Lemma color_ok n z : n_color (dn n) = Ret z -> c_color n = z.
  Proof. unfold n_color, c_color. cbn. destruct (ck_color (cn_inf n)); [congruence|discriminate]. Qed.
  Lemma sim_color n A B (R : A -> B -> Prop) c (k' : Z -> res B) : sim R c (k' (c_color n)) -> sim R c (bind (n_color (dn n)) k').
  Proof. intros H y E. destruct (n_color (dn n)) as [z| |] eqn:Ez; try discriminate. cbn [bind] in E. rewrite <- (color_ok _ _ Ez) in E. apply (H y E). Qed.
  Lemma sim_get_parent N t t' i : RM N t t' -> sim eq (c_get_parent t i) (get_parent t' i).
  Proof. intros HM. unfold c_get_parent, get_parent. step. red1. apply sim_ret. reflexivity. Qed.
  Lemma sim_is_red N t t' i : RM N t t' -> sim eq (c_is_red t i) (is_red t' i).
  Proof. intros HM. unfold c_is_red, is_red. step. apply sim_color. apply sim_ret. reflexivity. Qed.
  Lemma sim_color_of N t t' i : RM N t t' -> sim eq (c_color_of t i) (color_of t' i).
  Proof. intros HM. unfold c_color_of, color_of. step. intros y E. apply color_ok in E. subst. eauto. Qed.
  Lemma sim_get_sibling N t t' i : RM N t t' -> sim eq (c_get_sibling t i) (get_sibling t' i).
  Proof. intros HM. unfold c_get_sibling, get_sibling. eapply sim_bind; [eapply sim_get_parent; rm|]. intros p ? <-. destruct p; [|apply sim_ret; reflexivity]. step. red1. apply sim_ret. reflexivity. Qed.
  Lemma sim_is_onleft N t t' i : RM N t t' -> sim eq (c_is_onleft t i) (is_onleft t' i).
  Proof. intros HM. unfold c_is_onleft, is_onleft. eapply sim_bind; [eapply sim_get_parent; rm|]. intros p ? <-. step. red1. apply sim_ret. reflexivity. Qed.
  Lemma sx_paint N c b b' z i : RX N c b b' -> sim (RX N c) (c_paint z i b) (paint z i b').
  Proof. intros HB. unfold c_paint, paint. apply sx_mod; [assumption|reflexivity]. Qed.
  Lemma sx_flag N c b b' v : RX N c b b' -> sim (RX N c) (c_flag_root v b) (flag_root v b').
  Proof. intros HB. unfold c_flag_root, flag_root. rewrite (RX_rt _ _ _ _ HB). apply sx_mod; [assumption|reflexivity]. Qed.
  Ltac pt := first [apply sx_paint | apply sx_flag | apply sx_right | apply sx_left]; assumption.
  Ltac rd L := eapply sim_bind; [eapply L; rm|]; let v := fresh "v" in intros v ? <-.
  Definition RX2 (N : nat) (c : Z) (x : ctree K D * option Z * option Z) (y : bst D * option Z * option Z) : Prop := RX N c (fst (fst x)) (fst (fst y)) /\ snd (fst y) = snd (fst x) /\ snd y = snd x.
  Ltac nx2 N c := eapply sim_bind with (R := RX2 N c); [|let b := fresh "b" in let i := fresh "i" in let j := fresh "j" in let b' := fresh "b" in let H := fresh "HX" in intros [[b i] j] [[b' ?] ?] (H & ? & ?); cbn [fst snd] in *; subst].
  Lemma sx_rotate_insert N c b b' i j : RX N c b b' -> sim (RX1 N c) (c_rotate_insert b i j) (rotate_insert b' i j).
  Proof.
    intros HB. unfold c_rotate_insert, rotate_insert. cbv zeta. nx N c; [pt|]. rd sim_is_onleft. nx2 N c.
    - destruct (negb v); rd sim_is_onleft.
      + nx2 N c; [destruct v0; [nx N c; [pt|]; rd sim_get_parent|]; apply sim_ret; (split; [assumption|auto])|]. rd sim_get_parent. nx N c; [pt|]. apply sim_ret. split; [assumption|auto].
      + nx2 N c; [destruct (negb v0); [nx N c; [pt|]; rd sim_get_parent|]; apply sim_ret; (split; [assumption|auto])|]. rd sim_get_parent. nx N c; [pt|]. apply sim_ret. split; [assumption|auto].
    - nx N c; [pt|]. nx N c; [pt|]. nx N c; [pt|]. apply sim_ret. split; [assumption|auto].
  Qed.
  Lemma sx_fix_insert N c b b' i : RX N c b b' -> sim (RX N c) (c_fix_insert b i) (fix_insert b' i).
  Proof.
    intros HB. unfold c_fix_insert, fix_insert. nx N c; [|rewrite (RX_rt _ _ _ _ HX); pt]. rewrite (RX_fuel _ _ _ _ HB). eapply sim_while with (I := RX1 N c); [|split; [exact HB|reflexivity]]. intros [b1 q] [b1' q'] [H1 E]. cbn [fst snd] in H1, E. subst q'.
    rd sim_get_parent. destruct v as [p|]; [|apply sim_ret; exact H1]. rd sim_is_red. eapply sim_bind with (R := eq); [destruct v; [eapply sim_is_red; rm|apply sim_ret; reflexivity]|]. intros nr ? <-. destruct nr; [|apply sim_ret; exact H1].
    rd sim_get_parent. rd sim_get_sibling. eapply sim_bind with (R := eq); [destruct v1; [eapply sim_is_red; rm|apply sim_ret; reflexivity]|]. intros ur ? <-. eapply sim_bind with (R := RX1 N c).
    - destruct ur; [|apply sx_rotate_insert; assumption]. nx N c; [pt|]. nx N c; [pt|]. nx N c; [pt|]. apply sim_ret. split; [assumption|reflexivity].
    - intros [b2 q2] [b2' q2'] [H2 E]. cbn [fst snd] in H2, E. subst q2'. step. red1. destruct (ck_isroot _); apply sim_ret; [exact H2|split; [exact H2|reflexivity]].
  Qed.
  Lemma sim_rb_insert b b' k d : RB b b' -> room (b_arr b') -> sim RB (c_rb_insert same val b k d) (rb_insert b' (rk k) d).
  Proof.
    intros HB HR. unfold c_rb_insert, rb_insert. eapply sim_bind; [apply sim_insert; eassumption|]. intros b1 b1' H1. eapply sim_bind; [apply sim_search; eassumption|]. intros i ? <-. step. red1. assert (HX := RB_RX _ _ H1). set (N := length (b_mem b1')) in *. set (c := a_num _) in *.
    eapply sim_mono with (R := RX N c); [|intros x y X; eapply RX_RB; exact X]. nx N c; [apply sx_mod; [assumption|reflexivity]|]. destruct (ck_isroot (cn_inf n)); [apply sx_mod; [assumption|reflexivity]|]. rd sim_get_parent. rd sim_is_red. destruct v0; [apply sx_fix_insert; assumption|apply sim_ret; assumption].
  Qed.

  Lemma sim_find_predecessor N t t' i : RM N t t' -> sim eq (c_find_predecessor t i) (find_predecessor t' i).
  Proof.
    intros HM. unfold c_find_predecessor, find_predecessor. rewrite (RM_fuel _ _ _ _ HM). eapply sim_while with (I := eq); [|reflexivity]. intros j ? <-. step. red1. destruct (cn_right n); apply sim_ret; reflexivity.
  Qed.
  Lemma sim_kids_of N t t' i : RM N t t' -> sim eq (c_kids_of t i) (kids_of t' i).
  Proof. intros HM. unfold c_kids_of, kids_of. step. red1. apply sim_ret. reflexivity. Qed.
  Lemma sim_is_leaf N t t' i : RM N t t' -> sim eq (c_is_leaf t i) (is_leaf t' i).
  Proof. intros HM. unfold c_is_leaf, is_leaf. rd sim_kids_of. destruct v. apply sim_ret. reflexivity. Qed.
  Lemma sim_two_child N t t' i : RM N t t' -> sim eq (c_has_two_child t i) (has_two_child t' i).
  Proof. intros HM. unfold c_has_two_child, has_two_child. rd sim_kids_of. destruct v. apply sim_ret. reflexivity. Qed.
  Lemma sim_one_child N t t' i : RM N t t' -> sim eq (c_has_one_child t i) (has_one_child t' i).
  Proof. intros HM. unfold c_has_one_child, has_one_child. rd sim_is_leaf. rd sim_two_child. apply sim_ret. reflexivity. Qed.
  Lemma sim_red_child N t t' i : RM N t t' -> sim eq (c_has_red_child t i) (has_red_child t' i).
  Proof.
    intros HM. unfold c_has_red_child, has_red_child. rd sim_kids_of. destruct v as [l r]. eapply sim_bind with (R := eq); [destruct l; [eapply sim_is_red; rm|apply sim_ret; reflexivity]|]. intros lr ? <-. destruct lr; [apply sim_ret; reflexivity|]. destruct r; [eapply sim_is_red; rm|apply sim_ret; reflexivity].
  Qed.
  Lemma sim_replace_node N t t' i : RM N t t' -> sim eq (c_replace_node t i) (replace_node t' i).
  Proof. intros HM. unfold c_replace_node, replace_node. rd sim_kids_of. destruct v as [[l|] [r|]]; try (apply sim_ret; reflexivity). eapply sim_find_predecessor; rm. Qed.
  Lemma sim_isblack N t t' z i : RM N t t' -> sim eq (c_walk1_walk_isblack t z i) (walk1_walk_isblack t' z i).
  Proof. intros HM. unfold c_walk1_walk_isblack, walk1_walk_isblack. eapply sim_bind with (R := eq); [destruct i; [step; apply sim_color; apply sim_ret; reflexivity|apply sim_ret; reflexivity]|]. intros k ? <-. apply sim_ret. reflexivity. Qed.
  Lemma sx_left_left N c b b' i : RX N c b b' -> sim (RX N c) (c_left_left_case b i) (left_left_case b' i).
  Proof. intros HB. unfold c_left_left_case, left_left_case. cbv zeta. step. red1. rd sim_color_of. rd sim_color_of. nx N c; [pt|]. nx N c; pt. Qed.
  Lemma sx_right_right N c b b' i : RX N c b b' -> sim (RX N c) (c_right_right_case b i) (right_right_case b' i).
  Proof. intros HB. unfold c_right_right_case, right_right_case. cbv zeta. step. red1. rd sim_color_of. rd sim_color_of. nx N c; [pt|]. nx N c; pt. Qed.
  Lemma sx_left_right N c b b' i : RX N c b b' -> sim (RX N c) (c_left_right_case b i) (left_right_case b' i).
  Proof. intros HB. unfold c_left_right_case, left_right_case. cbv zeta. step. red1. rd sim_color_of. nx N c; [pt|]. nx N c; [pt|]. rd sim_get_parent. pt. Qed.
  Lemma sx_right_left N c b b' i : RX N c b b' -> sim (RX N c) (c_right_left_case b i) (right_left_case b' i).
  Proof. intros HB. unfold c_right_left_case, right_left_case. cbv zeta. step. red1. rd sim_color_of. nx N c; [pt|]. nx N c; [pt|]. rd sim_get_parent. pt. Qed.
  Lemma sx_fix_deletion N c b b' i : RX N c b b' -> sim (RX N c) (c_fix_deletion b i) (fix_deletion b' i).
  Proof.
    intros HB. unfold c_fix_deletion, fix_deletion. rd sim_color_of. rewrite (RX_fuel _ _ _ _ HB). eapply sim_while with (I := fun (x : ctree K D * option Z * Z) y => RX N c (fst (fst x)) (fst (fst y)) /\ snd (fst y) = snd (fst x) /\ snd y = snd x); [|cbn; auto].
    intros [[b1 q] z] [[b1' q'] z'] (H1 & E1 & E2). cbn [fst snd] in *. subst. rewrite (RX_rt _ _ _ _ H1). destruct (_ && _); [|apply sim_ret; exact H1]. rd sim_get_sibling. rd sim_get_parent. destruct v0 as [s|]; [|apply sim_ret; cbn; auto].
    rd sim_is_red. destruct v0.
    - nx N c; [pt|]. nx N c; [pt|]. nx N c; [pt|]. rd sim_is_onleft. nx N c; [destruct v0; pt|]. nx N c; [pt|]. apply sim_ret. cbn. auto.
    - rd sim_red_child. destruct v0.
      + nx N c; [pt|]. rd sim_kids_of. destruct v0 as [l r]. eapply sim_bind with (R := eq); [destruct l; [eapply sim_is_red; rm|apply sim_ret; reflexivity]|]. intros lr ? <-. rd sim_is_onleft. nx N c.
        * destruct lr, v0; [apply sx_left_left|apply sx_right_left|apply sx_left_right|apply sx_right_right]; assumption.
        * nx N c; [pt|]. nx N c; [pt|]. apply sim_ret. cbn. auto.
      + nx N c; [pt|]. rd sim_color_of. destruct (v0 =? 0); [apply sim_ret; cbn; auto|]. nx N c; [pt|]. apply sim_ret. cbn. auto.
  Qed.
  Definition thick (N : nat) (c : Z) : Prop := Z.of_nat N <= 4 * (c - 1).
  Lemma RX_dense N c b b' : RX N c b b' -> thick N c -> dense (b_arr b').
  Proof. intros (_ & L & C) H. unfold thick, dense, b_mem, len in *. rewrite L, C. exact H. Qed.
  Ltac dele N c := eapply sim_bind; [apply sim_aft_delete; [eapply RB_arr; eapply RX_RB; eassumption|eapply RX_dense; eassumption]|]; let x := fresh "x" in let y := fresh "y" in let A := fresh "HA" in let H1 := fresh in let H2 := fresh in intros [x ?] [y ?] (A & H1 & H2); cbn in A, H1, H2; subst.
  Lemma sim_remove_node N c b b' i : RX N c b b' -> thick N c -> sim RB (c_remove_node val b i) (remove_node b' i).
  Proof.
    intros HB HT. unfold c_remove_node, remove_node. rd sim_get_parent. rd sim_is_leaf. rewrite (RX_rt _ _ _ _ HB). destruct v0.
    - step. step. dele N c. apply sim_update_size. apply RB_set_arr; [eapply RX_RB; eassumption|assumption].
    - rd sim_one_child. destruct v0; [|apply sim_update_size; eapply RX_RB; eassumption]. step. step. dele N c. apply sim_update_size. apply RB_set_arr; [eapply RX_RB; eassumption|assumption].
  Qed.
  Lemma one_two_excl t i : has_two_child t i = Ret true -> has_one_child (D := D) t i = Ret false.
  Proof. unfold has_one_child. intros H. rewrite H. revert H. unfold has_two_child, is_leaf, kids_of. destruct (tget t i) as [n| |]; cbn; try discriminate. destruct (n_left n), (n_right n); cbn; congruence. Qed.
  Definition RXK (N : nat) (c : Z) (x : ctree K D * option K) (y : bst D * option Z) : Prop := RX N c (fst x) (fst y) /\ snd y = option_map rk (snd x).
  Lemma sx_transplant_two N c b b' i1 i2 : RX N c b b' -> has_two_child (b_mem b') i1 = Ret true -> sim (RXK N c) (c_transplant_values b i1 i2) (transplant_values b' i1 i2).
  Proof.
    intros HB HT. unfold c_transplant_values, transplant_values. step. red1. eapply sim_bind with (R := fun x y => x = y /\ x = false).
    { destruct (ck_isroot _); [|apply sim_ret; auto]. intros y E. rewrite (one_two_excl _ _ HT) in E. injection E as <-. destruct (sim_one_child _ _ _ i1 (RX_mem _ _ _ _ HB) _ (one_two_excl _ _ HT)) as (x & -> & ->). eauto. }
    intros o ? [<- ->]. step. nx N c; [apply sx_mod; [assumption|reflexivity]|]. apply sim_ret. split; [assumption|reflexivity].
  Qed.
  Lemma upd_same A (l : list A) n x : nth_error l n = Some x -> upd l n x = l.
  Proof. revert n. induction l as [|a l IH]; intros [|n]; cbn; try congruence. intros H. rewrite IH; auto. Qed.
  Lemma orphan_same (t : mem D) i n : tget t i = Ret n -> n_parent n = None -> tmod t i (set_parent None) = Ret t.
  Proof.
    intros E H. destruct i as [i|]; [|discriminate]. unfold tmod. rewrite E. cbn [bind]. replace (set_parent None n) with n by (destruct n; cbn in *; subst; reflexivity).
    cbn [tget] in E. unfold aget in E. unfold aset. destruct ((i <? 0) || (len t <=? i)) eqn:Ei; [discriminate|]. destruct (nth_error t (Z.to_nat i)) as [[m|]|] eqn:Em; cbn in E; try discriminate. injection E as ->. destruct (i <? 0) eqn:E0; [cbn in Ei; discriminate|]. rewrite upd_same by exact Em. cbn [orb] in Ei. rewrite ?E0, Ei. reflexivity.
  Qed.
  Lemma tmod_parent (t u : mem D) j f i n : tmod t j f = Ret u -> (forall n, n_parent (f n) = n_parent n) -> tget t i = Ret n -> exists n', tget u i = Ret n' /\ n_parent n' = n_parent n.
  Proof.
    intros E Hf Eg. unfold tmod in E. destruct j as [j|]; [|discriminate]. destruct (tget t (Some j)) as [m| |] eqn:Em; try discriminate. cbn [bind] in E. destruct i as [i|]; [|discriminate].
    cbn [tget] in *. unfold aset in E. unfold aget in *. destruct ((j <? 0) || (len t <=? j)) eqn:Ej; [discriminate|]. destruct (j <? 0) eqn:E0; [discriminate|]. cbn [orb] in Ej. rewrite ?E0, Ej in E. cbn [orb] in E. injection E as <-.
    assert (LL : len (upd t (Z.to_nat j) (Some (f m))) = len t) by (unfold len; rewrite upd_len; reflexivity). rewrite LL. destruct ((i <? 0) || (len t <=? i)) eqn:Ei; [discriminate|].
    destruct (Nat.eq_dec (Z.to_nat i) (Z.to_nat j)) as [e|e].
    - rewrite e in *. destruct (nth_error t (Z.to_nat j)) as [[q|]|] eqn:Eq; cbn in Em, Eg; try discriminate. injection Em as ->. injection Eg as ->. rewrite nth_error_upd, Nat.eqb_refl. destruct (Nat.ltb_spec (Z.to_nat j) (length t)) as [_|X]; [|apply nth_error_None in X; congruence]. cbn. eexists. split; [reflexivity|]. apply Hf.
    - rewrite nth_error_upd. destruct (Nat.eqb_spec (Z.to_nat j) (Z.to_nat i)); [congruence|]. cbn. eauto.
  Qed.
  Lemma sx_transplant_root N c b b' i1 i2 : RX N c b b' -> get_parent (b_mem b') i1 = Ret None -> sim (RXK N c) (c_transplant_values b i1 i2) (transplant_values b' i1 i2).
  Proof.
    intros HB HP. unfold c_transplant_values, transplant_values. step. red1. eapply sim_bind with (R := eq); [destruct (ck_isroot _); [eapply sim_one_child; rm|apply sim_ret; reflexivity]|]. intros o ? <-. step. rewrite (RX_rt _ _ _ _ HB). destruct o.
    - set (f := fun m : cnode K D => _). set (g := fun m : node D => _). assert (HF : forall m, g (dn m) = dn (f m)) by (intros m; reflexivity). intros y E. destruct (on_mem _ b') as [b1'| |] eqn:E1; try discriminate. cbn [bind] in E.
      destruct (sx_mod N c b b' (ct_root b) f g HB HF _ E1) as (b1 & -> & HB1). cbn [bind].
      assert (ES : on_mem (fun t => tmod t i1 (set_parent None)) b1' = Ret b1').
      { unfold on_mem in E1 |- *. unfold get_parent in HP. destruct (tget (b_mem b') i1) as [m| |] eqn:Em; try discriminate. injection HP as HP. destruct (tmod (b_mem b') (ct_root b) g) as [u| |] eqn:Eu; try discriminate. cbn [bind] in E1. injection E1 as <-.
        destruct (tmod_parent _ _ _ _ _ _ Eu (fun n => eq_refl) Em) as (m' & Em' & HP'). change (b_mem (set_mem b' u)) with u. rewrite (orphan_same _ _ _ Em') by congruence. cbn [bind]. reflexivity. }
      rewrite ES in E. cbn [bind] in E. revert y E. change (sim (RXK N c) (rt <- cget (ct_mem b1) (ct_root b1) ;; Ret (b1, cn_key rt)) (rt <- tget (b_mem b1') (b_root b1') ;; Ret (b1', n_key rt))). rewrite (RX_rt _ _ _ _ HB1). step. red1. apply sim_ret. split; [assumption|reflexivity].
    - nx N c; [apply sx_mod; [assumption|reflexivity]|]. apply sim_ret. split; [assumption|reflexivity].
  Qed.
  Lemma sim_delete_root N c b b' i i1 : RX N c b b' -> thick N c -> get_parent (b_mem b') i = Ret None -> sim RB (c_delete_root val b i i1) (delete_root b' i i1).
  Proof.
    intros HB HT HP. unfold c_delete_root, delete_root. rd sim_is_leaf. rewrite (RX_rt _ _ _ _ HB). destruct v; [eapply sim_mono; [eapply sx_mod; [exact HB|reflexivity]|intros x y X; eapply RX_RB; exact X]|]. rd sim_one_child. destruct v; [|apply sim_ret; eapply RX_RB; exact HB].
    eapply sim_bind; [eapply sx_transplant_root; eassumption|]. intros [b1 k1] [b1' k1'] [H1 E1]. cbn [fst snd] in H1, E1. subst. dele N c. apply sim_ret. apply RB_set_arr; [eapply RX_RB; eassumption|assumption].
  Qed.
  Lemma sx_set_link N c b b' p i v : RX N c b b' -> sim (RX N c) (c_set_link b p i v) (set_link b' p i v).
  Proof. intros HB. unfold c_set_link, set_link. rd sim_is_onleft. apply sx_on; [|assumption]. intros t t' HM. destruct v0; step. Qed.
  Lemma sim_keep A B (R : A -> B -> Prop) c p : sim R c p -> sim (fun x y => R x y /\ p = Ret y) c p.
  Proof. intros H y E. destruct (H y E) as (x & E1 & HR). eauto. Qed.
  Lemma sim_leaf_case N c b b' w w1 : RX N c b b' -> thick N c -> sim RB (c_leaf_case val b w w1) (leaf_case b' w w1).
  Proof.
    intros HB HT. unfold c_leaf_case, leaf_case. eapply sim_bind; [apply sim_keep; eapply sim_get_parent; rm|]. intros p ? [<- EP]. rd sim_color_of. destruct p as [p|]; [|eapply sim_delete_root; eassumption]. rd sim_isblack. nx N c.
    - destruct v0; [apply sx_fix_deletion; assumption|]. rd sim_get_sibling. destruct v0; [pt|apply sim_ret; assumption].
    - nx N c; [apply sx_set_link; assumption|]. eapply sim_remove_node; eassumption.
  Qed.
  Lemma sim_one_child_case N c b b' w w1 : RX N c b b' -> thick N c -> sim RB (c_one_child_case val b w w1) (one_child_case b' w w1).
  Proof.
    intros HB HT. unfold c_one_child_case, one_child_case. rd sim_color_of. eapply sim_bind; [apply sim_keep; eapply sim_get_parent; rm|]. intros p ? [<- EP]. destruct p as [p|]; [|eapply sim_delete_root; eassumption].
    nx N c; [apply sx_set_link; assumption|]. nx N c; [apply sx_mod; [assumption|reflexivity]|]. eapply sim_bind; [eapply sim_remove_node; eassumption|]. intros b4 b4' H4. assert (HX4 := RB_RX _ _ H4). rd sim_isblack. eapply sim_mono with (R := RX _ _); [|intros x y X; eapply RX_RB; exact X]. destruct v0; [eapply sx_fix_deletion; exact HX4|eapply sx_paint; exact HX4].
  Qed.
  Lemma sim_rb_delete b b' k : RB b b' -> (forall e, search b' (rk k) = Ret (Some e) -> dense (b_arr b')) -> sim (fun x y => RB (fst x) (fst y) /\ snd y = snd x) (c_rb_delete same val b k) (rb_delete b' (rk k)).
  Proof.
    intros HB HD. unfold c_rb_delete, rb_delete. intros y E. destruct (search b' (rk k)) as [e| |] eqn:Es; try discriminate. destruct (sim_search same rk same_ok rk_inj b b' k HB _ Es) as (x & -> & ->). cbn [bind] in *. destruct e as [e|].
    2:{ injection E as <-. eexists. split; [reflexivity|]. cbn. auto. }
    specialize (HD _ eq_refl). assert (HX := RB_RX _ _ HB). assert (HT : thick (length (b_mem b')) (a_num (b_arr b'))) by exact HD. set (N := length (b_mem b')) in *. set (c := a_num _) in *. clearbody N c. revert y E. match goal with |- forall y, ?p = Ret y -> exists x0, ?c = Ret x0 /\ _ => change (sim (fun x y => RB (fst x) (fst y) /\ snd y = snd x) c p) end.
    rd sim_replace_node. eapply sim_bind; [apply sim_keep; eapply sim_two_child; rm|]. intros two ? [<- E2]. nx2 N c.
    - destruct two; [|apply sim_ret; split; [assumption|auto]]. rd sim_replace_node. eapply sim_bind; [eapply sx_transplant_two; eassumption|]. intros [b1 k1] [b1' k1'] [H1 E1]. cbn [fst snd] in H1, E1. rd sim_replace_node. apply sim_ret. split; [assumption|auto].
    - rd sim_is_leaf. eapply sim_bind with (R := RB).
      + destruct v0; [eapply sim_leaf_case; eassumption|]. rd sim_one_child. destruct v0; [eapply sim_one_child_case; eassumption|apply sim_ret; eapply RX_RB; eassumption].
      + intros b3 b3' H3. apply sim_ret. cbn. auto.
  Qed.
End Sim2.
